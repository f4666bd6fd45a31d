(** C96: the messages of WebSocket connections and how clients are served. *)
From Verif Require Import Base BaseLemmas WsModel WsSpec.
From Coq Require Import ZifyBool ZifyNat Lia.
Open Scope list_scope.

Section Props.
Context (handler : msg -> list msg * option bool).
Implicit Types (w : ws) (h : list ev).

Lemma texts_app a b : texts (a ++ b) = texts a ++ texts b.
Proof. unfold texts. apply filter_app. Qed.
Lemma bins_app a b : bins (a ++ b) = bins a ++ bins b.
Proof. unfold bins. apply filter_app. Qed.

(** ** What the loops keep *)
Lemma enq_in m w : w_seen (enqueue m w) = w_seen w /\ w_inbox (enqueue m w) = w_inbox w /\ w_open (enqueue m w) = w_open w /\
  w_arrived (enqueue m w) = w_arrived w /\ w_enabled (enqueue m w) = w_enabled w /\ w_reading (enqueue m w) = w_reading w /\ w_wire (enqueue m w) = w_wire w.
Proof. repeat split. Qed.
Lemma enq_all_in l : forall w, w_seen (enqueue_all l w) = w_seen w /\ w_inbox (enqueue_all l w) = w_inbox w /\ w_open (enqueue_all l w) = w_open w /\
  w_arrived (enqueue_all l w) = w_arrived w /\ w_enabled (enqueue_all l w) = w_enabled w /\ w_reading (enqueue_all l w) = w_reading w /\
  w_wire (enqueue_all l w) = w_wire w /\ w_asked (enqueue_all l w) = w_asked w ++ l.
Proof.
  induction l as [|m l IH]; intros w; cbn [enqueue_all fold_left]; [rewrite app_nil_r; repeat split|].
  fold (enqueue_all l (enqueue m w)). destruct (IH (enqueue m w)) as (A & B & C & D & E & G & I & J).
  rewrite A, B, C, D, E, G, I, J. cbn [enqueue w_asked]. rewrite <- app_assoc. repeat split.
Qed.

Lemma step_received w e : w_arrived w = w_seen w ++ w_inbox w ->
  w_arrived (step handler w e) = w_seen (step handler w e) ++ w_inbox (step handler w e).
Proof.
  intros H. destruct e as [m|m| | | | |]; cbn [step]; try exact H.
  - destruct (w_open w); cbn; [|exact H]. rewrite H, app_assoc. reflexivity.
  - unfold read. destruct (w_enabled w && w_reading w); [|exact H]. destruct (w_inbox w) as [|m rest] eqn:E.
    + destruct (w_open w); cbn; rewrite ?E; exact H.
    + destruct (handler m) as [l r]. set (w0 := mkWs _ _ _ _ _ _ _ _ _ _ _).
      destruct (enq_all_in l w0) as (A & B & _ & D & _).
      destruct r as [[]|]; cbn [disable w_arrived w_seen w_inbox]; rewrite A, B, D; cbn [w0 w_arrived w_seen w_inbox]; rewrite H, <- app_assoc; reflexivity.
  - unfold write_text, transmit. destruct (w_enabled w), (w_text w), (w_open w); cbn; exact H.
  - unfold write_bin, transmit. destruct (w_enabled w), (w_bin w), (w_open w); cbn; exact H.
Qed.
Lemma step_arrived w e : w_arrived (step handler w e) = w_arrived w ++ (if w_open w then match e with EPeer m => [m] | _ => [] end else []) /\
  w_open (step handler w e) = match e with EClose => false | _ => w_open w end.
Proof.
  assert (N : forall l : list msg, l = l ++ (if w_open w then [] else [])) by (intros l; destruct (w_open w); rewrite app_nil_r; reflexivity).
  destruct e as [m|m| | | | |]; cbn [step].
  - split; [apply N|reflexivity].
  - destruct (w_open w) eqn:O; cbn; rewrite ?O; split; try reflexivity. rewrite app_nil_r. reflexivity.
  - split; [apply N|reflexivity].
  - unfold read. destruct (w_enabled w && w_reading w); [|split; [apply N|reflexivity]]. destruct (w_inbox w) as [|m rest].
    + destruct (w_open w) eqn:O; cbn; rewrite app_nil_r, ?O; split; reflexivity.
    + destruct (handler m) as [l r]. set (w0 := mkWs _ _ _ _ _ _ _ _ _ _ _).
      destruct (enq_all_in l w0) as (_ & _ & C & D & _).
      destruct r as [[]|]; cbn [disable w_arrived w_open]; rewrite C, D; cbn [w0 w_arrived w_open]; split; try reflexivity; apply N.
  - unfold write_text, transmit. destruct (w_enabled w), (w_text w), (w_open w) eqn:O; cbn; rewrite ?app_nil_r, ?O; split; reflexivity.
  - unfold write_bin, transmit. destruct (w_enabled w), (w_bin w), (w_open w) eqn:O; cbn; rewrite ?app_nil_r, ?O; split; reflexivity.
  - split; [apply N|reflexivity].
Qed.
Lemma run_arrived : forall h w, w_arrived (run handler w h) = w_arrived w ++ (if w_open w then peer_sends h else []).
Proof.
  induction h as [|e h IH]; intros w; [cbn; destruct (w_open w); rewrite app_nil_r; reflexivity|].
  change (run handler w (e :: h)) with (run handler (step handler w e) h). rewrite IH.
  destruct (step_arrived w e) as (A & O). rewrite A, O.
  destruct (w_open w); destruct e; cbn [peer_sends]; rewrite ?app_nil_r, <- ?app_assoc; reflexivity.
Qed.

(** Every message of the peer reaches the user's handler at most once, as the kind of
    message it was sent as, in order, and none is skipped. *)
Theorem C96_received : forall h,
  peer_sends h = w_seen (run handler ws_new h) ++ w_inbox (run handler ws_new h).
Proof.
  intros h. pose proof (run_arrived h ws_new) as A. cbn [ws_new w_arrived w_open app] in A. rewrite <- A.
  assert (G : forall h w, w_arrived w = w_seen w ++ w_inbox w -> w_arrived (run handler w h) = w_seen (run handler w h) ++ w_inbox (run handler w h)).
  { induction h0 as [|e h0 IH]; intros w H; [exact H|]. apply (IH (step handler w e)). apply step_received. exact H. }
  apply G. reflexivity.
Qed.

(** ** Sending *)
Definition Inv w (lost : list msg) : Prop :=
  texts (w_asked w) = texts (w_wire w) ++ texts lost ++ w_text w /\
  bins (w_asked w) = bins (w_wire w) ++ bins lost ++ w_bin w /\
  w_counted w = w_wire w ++ lost /\ (List.length lost <= 1)%nat /\
  (lost <> [] -> w_enabled w = false /\ w_open w = false) /\
  Forall (fun m => is_text m = true) (w_text w) /\ Forall (fun m => is_text m = false) (w_bin w).
Lemma Inv_enqueue m w lost : Inv w lost -> Inv (enqueue m w) lost.
Proof.
  intros (A & B & C & D & E & G & I). unfold Inv. cbn [enqueue w_asked w_wire w_text w_bin w_counted w_enabled w_open].
  rewrite texts_app, bins_app, A, B. unfold texts at 3, bins at 3. cbn [filter].
  destruct (is_text m) eqn:T; cbn [negb]; rewrite ?app_nil_r, <- ?app_assoc;
    repeat split; auto; try (apply E; assumption); apply Forall_app; auto.
Qed.
Lemma Inv_enqueue_all l : forall w lost, Inv w lost -> Inv (enqueue_all l w) lost.
Proof. induction l as [|m l IH]; intros w lost H; [exact H|]. apply (IH (enqueue m w)), Inv_enqueue, H. Qed.
Lemma Inv_ext w w' lost : w_asked w' = w_asked w -> w_wire w' = w_wire w -> w_text w' = w_text w -> w_bin w' = w_bin w ->
  w_counted w' = w_counted w -> (w_enabled w' = true -> w_enabled w = true) -> (w_open w' = true -> w_open w = true) -> Inv w lost -> Inv w' lost.
Proof.
  intros E1 E2 E3 E4 E5 E6 E7 (A & B & C & D & E & G & I). unfold Inv. rewrite E1, E2, E3, E4, E5. repeat split; auto.
  - destruct (E H) as (X & _). destruct (w_enabled w'); [specialize (E6 eq_refl); congruence|reflexivity].
  - destruct (E H) as (_ & X). destruct (w_open w'); [specialize (E7 eq_refl); congruence|reflexivity].
Qed.
Lemma Inv_step w e lost : Inv w lost -> exists lost', Inv (step handler w e) lost'.
Proof.
  intros H. destruct e as [m|m| | | | |]; cbn [step].
  - exists lost. apply Inv_enqueue, H.
  - exists lost. destruct (w_open w) eqn:O; [|exact H]. eapply Inv_ext; [..|exact H]; auto.
  - exists lost. eapply Inv_ext; [..|exact H]; auto. discriminate.
  - exists lost. unfold read. destruct (w_enabled w && w_reading w) eqn:En; [|exact H]. destruct (w_inbox w) as [|m rest].
    + destruct (w_open w); [exact H|]. eapply Inv_ext; [..|exact H]; auto. discriminate.
    + destruct (handler m) as [l r]. set (w0 := mkWs _ _ _ _ _ _ _ _ _ _ _).
      assert (H0 : Inv (enqueue_all l w0) lost).
      { apply Inv_enqueue_all. eapply Inv_ext; [..|exact H]; auto. }
      destruct r as [[]|]; [exact H0| |]; (eapply Inv_ext; [..|exact H0]); auto. discriminate.
  - unfold write_text. destruct (w_enabled w) eqn:En; [|exists lost; exact H]. destruct (w_text w) as [|m rest] eqn:Eq; [exists lost; exact H|].
    destruct H as (A & B & C & D & E & G & I). rewrite Eq in A, G. inversion G as [|? ? Gm Gr]; subst.
    assert (L : lost = []). { destruct lost as [|x xs]; [reflexivity|]. destruct (E ltac:(discriminate)); congruence. }
    subst lost. cbn [texts bins filter app] in A, B. rewrite app_nil_r in C.
    unfold transmit. cbn [w_open]. destruct (w_open w) eqn:O.
    + exists []. unfold Inv. cbn [w_asked w_wire w_text w_bin w_counted w_enabled w_open]. rewrite texts_app, bins_app, A, B, C, app_nil_r.
      unfold texts at 3, bins at 3. cbn [filter]. rewrite Gm. cbn [negb texts bins filter app]. rewrite app_nil_r, <- app_assoc. repeat split; auto; try congruence; cbn; lia.
    + exists [m]. unfold Inv. cbn [disable w_asked w_wire w_text w_bin w_counted w_enabled w_open]. rewrite A, B, C.
      unfold texts at 3, bins at 3. cbn [filter]. rewrite Gm. cbn [negb app]. repeat split; auto.
  - unfold write_bin. destruct (w_enabled w) eqn:En; [|exists lost; exact H]. destruct (w_bin w) as [|m rest] eqn:Eq; [exists lost; exact H|].
    destruct H as (A & B & C & D & E & G & I). rewrite Eq in B, I. inversion I as [|? ? Gm Gr]; subst.
    assert (L : lost = []). { destruct lost as [|x xs]; [reflexivity|]. destruct (E ltac:(discriminate)); congruence. }
    subst lost. cbn [texts bins filter app] in A, B. rewrite app_nil_r in C.
    unfold transmit. cbn [w_open]. destruct (w_open w) eqn:O.
    + exists []. unfold Inv. cbn [w_asked w_wire w_text w_bin w_counted w_enabled w_open]. rewrite texts_app, bins_app, A, B, C, app_nil_r.
      unfold texts at 3, bins at 3. cbn [filter]. rewrite Gm. cbn [negb texts bins filter app]. rewrite app_nil_r, <- app_assoc. repeat split; auto; try congruence; cbn; lia.
    + exists [m]. unfold Inv. cbn [disable w_asked w_wire w_text w_bin w_counted w_enabled w_open]. rewrite A, B, C.
      unfold texts at 3, bins at 3. cbn [filter]. rewrite Gm. cbn [negb app]. repeat split; auto.
  - exists lost. eapply Inv_ext; [..|exact H]; auto. discriminate.
Qed.
Lemma Inv_run : forall h w lost, Inv w lost -> exists lost', Inv (run handler w h) lost'.
Proof.
  induction h as [|e h IH]; intros w lost H; [exists lost; exact H|].
  destruct (Inv_step w e lost H) as (l & H'). apply (IH _ _ H').
Qed.

(** Texts leave in the order they were sent in, and so do binary messages; whatever was
    sent is on the wire, still in its queue, or the one message that was taken when
    the connection was closed already.  The counters count what is on the wire and
    that one message. *)
Theorem C96_sent : forall h, let w := run handler ws_new h in
  exists lost,
    texts (w_asked w) = texts (w_wire w) ++ texts lost ++ w_text w /\
    bins (w_asked w) = bins (w_wire w) ++ bins lost ++ w_bin w /\
    w_counted w = w_wire w ++ lost /\
    (List.length lost <= 1)%nat /\
    (lost <> [] -> closed_in h /\ w_enabled w = false).
Proof.
  intros h w. destruct (Inv_run h ws_new []) as (lost & A & B & C & D & E & _).
  { unfold Inv. cbn. repeat split; auto; try congruence; constructor. }
  exists lost. fold w in A, B, C, D, E. repeat split; auto; [|apply E; exact H].
  destruct (E H) as (_ & O).
  assert (G : forall h w0, w_open w0 = true -> w_open (run handler w0 h) = false -> closed_in h).
  { clear. induction h as [|e h IH]; intros w0 O F; [cbn in F; congruence|].
    destruct (step_arrived w0 e) as (_ & S1). change (run handler w0 (e :: h)) with (run handler (step handler w0 e) h) in F.
    destruct e; try (left; reflexivity); right; apply (IH _ ltac:(rewrite S1; exact O) F). }
  apply (G h ws_new eq_refl O).
Qed.

(** What is asked: by the user alone if the handler sends nothing ... *)
Lemma step_asked w e : exists l, w_asked (step handler w e) = w_asked w ++ l /\
  w_seen (step handler w e) = w_seen w ++ match e with ERead => (match w_inbox w with m :: _ => if w_enabled w && w_reading w then [m] else [] | [] => [] end) | _ => [] end /\
  l = match e with ESend m => [m] | ERead => (match w_inbox w with m :: _ => if w_enabled w && w_reading w then fst (handler m) else [] | [] => [] end) | _ => [] end.
Proof.
  eexists. split; [|split; [|reflexivity]]; destruct e as [m|m| | | | |]; cbn [step]; rewrite ?app_nil_r; try reflexivity.
  - destruct (w_open w); reflexivity.
  - unfold read. destruct (w_inbox w) as [|m rest]; destruct (w_enabled w && w_reading w); rewrite ?app_nil_r; try reflexivity.
    + destruct (w_open w); reflexivity.
    + destruct (handler m) as [l r]. set (w0 := mkWs _ _ _ _ _ _ _ _ _ _ _).
      destruct (enq_all_in l w0) as (_ & _ & _ & _ & _ & _ & _ & J). destruct r as [[]|]; cbn [disable w_asked fst]; rewrite J; reflexivity.
  - unfold write_text, transmit. destruct (w_enabled w), (w_text w), (w_open w); reflexivity.
  - unfold write_bin, transmit. destruct (w_enabled w), (w_bin w), (w_open w); reflexivity.
  - destruct (w_open w); reflexivity.
  - unfold read. destruct (w_inbox w) as [|m rest]; destruct (w_enabled w && w_reading w); rewrite ?app_nil_r; try reflexivity.
    + destruct (w_open w); reflexivity.
    + destruct (handler m) as [l r]. set (w0 := mkWs _ _ _ _ _ _ _ _ _ _ _).
      destruct (enq_all_in l w0) as (A & _). destruct r as [[]|]; cbn [disable w_seen]; rewrite A; reflexivity.
  - unfold write_text, transmit. destruct (w_enabled w), (w_text w), (w_open w); reflexivity.
  - unfold write_bin, transmit. destruct (w_enabled w), (w_bin w), (w_open w); reflexivity.
Qed.
Theorem C96_asked_by_user : forall h, (forall m, fst (handler m) = []) -> w_asked (run handler ws_new h) = user_sends h.
Proof.
  intros h Hn. assert (G : forall h w, w_asked (run handler w h) = w_asked w ++ user_sends h).
  { induction h0 as [|e h0 IH]; intros w; [cbn; rewrite app_nil_r; reflexivity|].
    change (run handler w (e :: h0)) with (run handler (step handler w e) h0). rewrite IH.
    destruct (step_asked w e) as (l & -> & _ & ->). unfold user_sends. cbn [flat_map]. fold (user_sends h0).
    rewrite <- app_assoc. f_equal. f_equal. destruct e; try reflexivity. destruct (w_inbox w); [reflexivity|].
    destruct (w_enabled w && w_reading w); [apply Hn|reflexivity]. }
  apply (G h ws_new).
Qed.
(** ... and by the handler alone, for the messages it saw in their order, if the user
    sends nothing. *)
Theorem C96_asked_by_handler : forall h, user_sends h = [] ->
  w_asked (run handler ws_new h) = flat_map (fun m => fst (handler m)) (w_seen (run handler ws_new h)).
Proof.
  intros h Hn. assert (G : forall h w, user_sends h = [] -> w_asked w = flat_map (fun m => fst (handler m)) (w_seen w) ->
    w_asked (run handler w h) = flat_map (fun m => fst (handler m)) (w_seen (run handler w h))).
  { clear. induction h as [|e h IH]; intros w Hn H; [exact H|].
    change (run handler w (e :: h)) with (run handler (step handler w e) h).
    unfold user_sends in Hn. cbn [flat_map] in Hn. apply app_eq_nil in Hn. destruct Hn as (N1 & N2).
    apply IH; [exact N2|]. destruct (step_asked w e) as (l & -> & -> & ->). rewrite H, flat_map_app. f_equal.
    destruct e; try reflexivity; [discriminate|]. destruct (w_inbox w); [reflexivity|].
    destruct (w_enabled w && w_reading w); cbn [flat_map]; rewrite ?app_nil_r; reflexivity. }
  apply (G h ws_new Hn eq_refl).
Qed.

(** ** Closing *)
(** When the peer closes, what arrived before is still handled, and then the connection
    is disabled. *)
Theorem C96_close_noticed : forall w,
  (forall m, snd (handler m) = Some true) ->
  w_open w = false -> w_enabled w = true -> w_reading w = true ->
  let w' := run handler w (repeat ERead (S (List.length (w_inbox w)))) in
  w_enabled w' = false /\ w_seen w' = w_seen w ++ w_inbox w /\ w_inbox w' = [].
Proof.
  intros w Hh. remember (w_inbox w) as l eqn:El. revert w El. induction l as [|m l IH]; intros w El O E R.
  - cbn [List.length repeat run fold_left step]. unfold read. rewrite E, R, <- El, O. cbn. rewrite app_nil_r, <- El. repeat split.
  - cbn [List.length]. change (repeat ERead (S (S (List.length l)))) with (ERead :: repeat ERead (S (List.length l))).
    cbv zeta. change (run handler w (ERead :: ?x)) with (run handler (step handler w ERead) x).
    cbn [step]. unfold read. rewrite E, R, <- El. cbn [andb]. specialize (Hh m) as Hm. destruct (handler m) as [rep r]. cbn [snd] in Hm. subst r.
    set (w0 := mkWs _ _ _ _ _ _ _ _ _ _ _). destruct (enq_all_in rep w0) as (A1 & A2 & A3 & _ & A5 & A6 & _).
    destruct (IH (enqueue_all rep w0)) as (B1 & B2 & B3); [rewrite A2; reflexivity|rewrite A3; exact O|rewrite A5; reflexivity|rewrite A6; reflexivity|].
    split; [exact B1|]. split; [|exact B3]. rewrite B2, A1. cbn [w0 w_seen]. rewrite <- app_assoc. reflexivity.
Qed.
(** Sending on a closed connection disables it too. *)
Theorem C96_send_closed : forall w e, w_open w = false -> w_enabled w = true ->
  (e = EWriteText /\ w_text w <> [] \/ e = EWriteBin /\ w_bin w <> []) ->
  w_enabled (step handler w e) = false /\ w_wire (step handler w e) = w_wire w.
Proof.
  intros w e O E [(-> & Q)|(-> & Q)]; cbn [step]; [unfold write_text|unfold write_bin]; rewrite E;
    [destruct (w_text w)|destruct (w_bin w)]; try congruence; unfold transmit; cbn; rewrite O; split; reflexivity.
Qed.
(** A disabled connection handles nothing and sends nothing. *)
Theorem C96_disabled_is_silent : forall h w, w_enabled w = false ->
  let w' := run handler w h in w_enabled w' = false /\ w_seen w' = w_seen w /\ w_wire w' = w_wire w /\ w_counted w' = w_counted w.
Proof.
  induction h as [|e h IH]; intros w H; [repeat split; exact H|].
  cbv zeta. change (run handler w (e :: h)) with (run handler (step handler w e) h).
  assert (G : w_enabled (step handler w e) = false /\ w_seen (step handler w e) = w_seen w /\ w_wire (step handler w e) = w_wire w /\ w_counted (step handler w e) = w_counted w).
  { destruct e as [m|m| | | | |]; cbn [step].
    - repeat split; exact H.
    - destruct (w_open w); repeat split; exact H.
    - repeat split; exact H.
    - unfold read. rewrite H. repeat split; exact H.
    - unfold write_text. rewrite H. repeat split; exact H.
    - unfold write_bin. rewrite H. repeat split; exact H.
    - repeat split. }
  destruct G as (A & B & C & D). destruct (IH _ A) as (A' & B' & C' & D'). rewrite A', B', C', D', B, C, D. repeat split.
Qed.
(** While the connection is open everything queued leaves. *)
Theorem C96_drains : forall w, w_open w = true -> w_enabled w = true ->
  (let w' := run handler w (repeat EWriteText (List.length (w_text w))) in
     w_text w' = [] /\ w_wire w' = w_wire w ++ w_text w /\ w_enabled w' = true) /\
  (let w' := run handler w (repeat EWriteBin (List.length (w_bin w))) in
     w_bin w' = [] /\ w_wire w' = w_wire w ++ w_bin w /\ w_enabled w' = true).
Proof.
  intros w0 O0 E0. split; [remember (w_text w0) as l eqn:El|remember (w_bin w0) as l eqn:El]; revert w0 El O0 E0;
    induction l as [|m l IH]; intros w El O E; cbn [List.length repeat]; try (cbn; rewrite app_nil_r; repeat split; auto; fail).
  - cbv zeta. change (run handler w (EWriteText :: ?x)) with (run handler (step handler w EWriteText) x).
    cbn [step]. unfold write_text. rewrite E, <- El. unfold transmit. cbn [w_open]. rewrite O.
    match goal with |- w_text (run _ ?x _) = _ /\ _ => destruct (IH x) as (A & B & C); try reflexivity; try assumption end.
    split; [exact A|]. split; [|exact C]. rewrite B. cbn [w_wire]. rewrite <- app_assoc. reflexivity.
  - cbv zeta. change (run handler w (EWriteBin :: ?x)) with (run handler (step handler w EWriteBin) x).
    cbn [step]. unfold write_bin. rewrite E, <- El. unfold transmit. cbn [w_open]. rewrite O.
    match goal with |- w_bin (run _ ?x _) = _ /\ _ => destruct (IH x) as (A & B & C); try reflexivity; try assumption end.
    split; [exact A|]. split; [|exact C]. rewrite B. cbn [w_wire]. rewrite <- app_assoc. reflexivity.
Qed.
(** After a handler raised nothing is handled any more, and the connection stays
    enabled as long as nobody disables it and it is not found closed when sending. *)
Theorem C96_raise_refuted : forall h w, w_reading w = false -> w_enabled w = true ->
  w_seen (run handler w h) = w_seen w /\
  (w_open w = true -> ~ closed_in h -> ~ In EDisable h -> w_enabled (run handler w h) = true).
Proof.
  induction h as [|e h IH]; intros w R E; [split; auto|].
  change (run handler w (e :: h)) with (run handler (step handler w e) h).
  destruct (step_arrived w e) as (_ & SO).
  assert (G : w_reading (step handler w e) = false /\ w_seen (step handler w e) = w_seen w /\
    (w_open w = true -> e <> EDisable -> w_enabled (step handler w e) = true)).
  { destruct e as [m|m| | | | |]; cbn [step].
    - repeat split; auto.
    - destruct (w_open w); repeat split; auto.
    - repeat split; auto.
    - unfold read. rewrite R, andb_false_r. repeat split; auto.
    - unfold write_text, transmit. rewrite E. destruct (w_text w); [repeat split; auto|]. cbn [w_open].
      destruct (w_open w); repeat split; auto; discriminate.
    - unfold write_bin, transmit. rewrite E. destruct (w_bin w); [repeat split; auto|]. cbn [w_open].
      destruct (w_open w); repeat split; auto; discriminate.
    - repeat split; auto; congruence. }
  destruct G as (G1 & G2 & G3).
  destruct (w_enabled (step handler w e)) eqn:En.
  - destruct (IH _ G1 En) as (A & B). rewrite A, G2. split; [reflexivity|]. intros O Nc Nd. apply B.
    + rewrite SO. destruct e; try exact O. exfalso. apply Nc. left. reflexivity.
    + intros X. apply Nc. right. exact X.
    + intros X. apply Nd. right. exact X.
  - split.
    + destruct (C96_disabled_is_silent h _ En) as (_ & A & _). rewrite A. exact G2.
    + intros O Nc Nd. assert (X : e <> EDisable) by (intros ->; apply Nd; left; reflexivity). specialize (G3 O X). congruence.
Qed.
(** What exactly disables an enabled connection: somebody, a handler that returns False,
    a close that is found when there is nothing left to read or when sending; and what
    exactly ends the reading: an exception of the handler. *)
Theorem C96_disabled_by : forall w e, w_enabled w = true -> w_reading w = true ->
  (w_enabled (step handler w e) = false <->
     e = EDisable \/
     (e = ERead /\ exists m rest, w_inbox w = m :: rest /\ snd (handler m) = Some false) \/
     (e = ERead /\ w_inbox w = [] /\ w_open w = false) \/
     (e = EWriteText /\ w_text w <> [] /\ w_open w = false) \/
     (e = EWriteBin /\ w_bin w <> [] /\ w_open w = false)) /\
  (w_reading (step handler w e) = false <->
     e = ERead /\ exists m rest, w_inbox w = m :: rest /\ snd (handler m) = None).
Proof.
  intros w e E R.
  assert (N : forall P : Prop, (true = false <-> P) <-> ~ P) by (intros P; split; [intros [_ H] X; specialize (H X); discriminate|intros H; split; [discriminate|contradiction]]).
  destruct e as [m|m| | | | |]; cbn [step].
  - cbn [enqueue w_enabled w_reading]. rewrite E, R, !N. intuition discriminate.
  - destruct (w_open w); cbn [w_enabled w_reading]; rewrite E, R, !N; intuition discriminate.
  - cbn [w_enabled w_reading]. rewrite E, R, !N. intuition discriminate.
  - unfold read. rewrite E, R. cbn [andb]. destruct (w_inbox w) as [|m rest] eqn:Eq.
    + destruct (w_open w) eqn:O; cbn [disable w_enabled w_reading]; rewrite ?E, ?R, !N; split;
        try (intros (_ & m' & r' & X & _); discriminate).
      * intros [X|[(_ & m' & r' & X & _)|[(_ & _ & X)|[(X & _)|(X & _)]]]]; discriminate.
      * split; [intros _; right; right; left; auto|reflexivity].
    + destruct (handler m) as [l r] eqn:Hm. set (w0 := mkWs _ _ _ _ _ _ _ _ _ _ _).
      destruct (enq_all_in l w0) as (_ & _ & _ & _ & A5 & A6 & _).
      assert (X : forall b, (exists m' r', m :: rest = m' :: r' /\ snd (handler m') = b) <-> r = b).
      { intros b. split; [intros (m' & r' & H & H2); injection H as <- <-; rewrite Hm in H2; exact H2|intros <-; exists m, rest; rewrite Hm; auto]. }
      rewrite (X (Some false)), (X None).
      destruct r as [[]|]; cbn [disable w_enabled w_reading]; rewrite ?A5, ?A6; cbn [w0 w_enabled w_reading]; split; split; intros Y; try discriminate; auto;
        destruct Y as [Y|[(_ & Y)|[(_ & Y & _)|[(Y & _)|(Y & _)]]]] || destruct Y as (_ & Y); discriminate.
  - unfold write_text, transmit. rewrite E. destruct (w_text w) as [|m rest]; [rewrite E, R, !N; intuition discriminate|]. cbn [w_open].
    destruct (w_open w); cbn [disable w_enabled w_reading]; rewrite ?E, ?R, !N; split; try (intuition discriminate).
  - unfold write_bin, transmit. rewrite E. destruct (w_bin w) as [|m rest]; [rewrite E, R, !N; intuition discriminate|]. cbn [w_open].
    destruct (w_open w); cbn [disable w_enabled w_reading]; rewrite ?E, ?R, !N; split; try (intuition discriminate).
  - cbn [disable w_enabled w_reading]. rewrite R, N. split; [tauto|]. intros (X & _). discriminate.
Qed.
End Props.

(** An echo: what comes back is what was sent, texts and binary messages each in their
    order. *)
Theorem C96_echo : forall h, user_sends h = [] ->
  prefix (texts (w_wire (run echo ws_new h))) (texts (peer_sends h)) /\
  prefix (bins (w_wire (run echo ws_new h))) (bins (peer_sends h)).
Proof.
  intros h Hn. pose proof (C96_asked_by_handler echo h Hn) as A. pose proof (C96_received echo h) as R.
  destruct (C96_sent echo h) as (lost & T & B & _). cbv zeta in *.
  assert (F : forall l, flat_map (fun m => fst (echo m)) l = l).
  { induction l as [|m l IH]; [reflexivity|]. cbn [flat_map echo fst app]. f_equal. exact IH. }
  rewrite F in A. rewrite A in T, B. rewrite R, texts_app, bins_app, T, B. split; eexists; rewrite <- app_assoc; reflexivity.
Qed.

(** A text and a binary message can overtake one another. *)
Theorem C96_order_of_kinds_refuted :
  let h := [ESend (MText [1]); ESend (MBin [2]); EWriteBin; EWriteText] in
  w_asked (run null ws_new h) = [MText [1]; MBin [2]] /\ w_wire (run null ws_new h) = [MBin [2]; MText [1]].
Proof. split; reflexivity. Qed.
(** A message that never left is counted. *)
Theorem C96_counts_refuted :
  let h := [ESend (MText [1]); EClose; EWriteText] in
  w_counted (run null ws_new h) = [MText [1]] /\ w_wire (run null ws_new h) = [] /\ w_text (run null ws_new h) = [].
Proof. repeat split. Qed.

(** ** Serving clients *)
Lemma h_flags c : forall h s,
  (h_disabled (fold_left (h_step c) h s) = true <-> h_disabled s = true \/ In HvDisabled h) /\
  (h_stopped (fold_left (h_step c) h s) = true <-> h_stopped s = true \/ In HvStop h).
Proof.
  induction h as [|e h IH]; intros s; [cbn; tauto|]. cbn [fold_left]. destruct (IH (h_step c s e)) as (A & B). rewrite A, B.
  assert (G : (h_disabled (h_step c s e) = true <-> h_disabled s = true \/ e = HvDisabled) /\ (h_stopped (h_step c s e) = true <-> h_stopped s = true \/ e = HvStop)).
  { destruct e as [[[]|]| | | |[]]; cbn [h_step]; destruct (h_pc s); unfold h_accept; try destruct (h_manager c); try destruct (h_disabled s || _); cbn;
      repeat split; intros H; try tauto; try (destruct H as [H|H]; [exact H|discriminate]); left; exact H. }
  destruct G as (G1 & G2). rewrite G1, G2. cbn [In]. split; split; intros H; intuition (subst; auto).
Qed.
(** Where the call is and what it did, after every history. *)
Definition hspec (c : hconf) (ans : option (option bool)) (s : hstate) : Prop :=
  match ans with
  | None => h_pc s = HInit /\ h_put s = 0%nat /\ h_processed s = 0%nat
  | Some (Some true) =>
      if h_manager c
      then h_put s = 1%nat /\ h_processed s = 0%nat /\
           (h_pc s = HWait \/ h_pc s = HReturned /\ (h_disabled s = true \/ h_stop c = true /\ h_stopped s = true))
      else h_put s = 0%nat /\ h_processed s = 1%nat /\ (h_pc s = HProcess \/ h_pc s = HReturned \/ h_pc s = HRaised)
  | Some (Some false) => h_pc s = HReturned /\ h_put s = 0%nat /\ h_processed s = 0%nat
  | Some None => h_pc s = HRaised /\ h_put s = 0%nat /\ h_processed s = 0%nat
  end.
Lemma hspec_step c ans s e : hspec c ans s ->
  hspec c (match ans with None => match e with HvInit r => Some r | _ => None end | a => a end) (h_step c s e).
Proof.
  destruct ans as [[[]|]|]; cbn [hspec].
  - destruct (h_manager c) eqn:M.
    + intros (A & B & [P|(P & F)]).
      * assert (W : h_disabled s || h_stop c && h_stopped s = true -> h_disabled s = true \/ h_stop c = true /\ h_stopped s = true).
        { rewrite orb_true_iff, andb_true_iff. tauto. }
        destruct e as [[[]|]| | | |[]]; cbn [h_step]; rewrite P;
          try (destruct (h_disabled s || h_stop c && h_stopped s)); cbn; (split; [exact A|split; [exact B|]]);
          solve [left; first [exact P|reflexivity]|right; split; [reflexivity|exact (W eq_refl)]].
      * destruct e as [[[]|]| | | |[]]; cbn [h_step]; rewrite P; cbn; (split; [exact A|split; [exact B|]]); right; split; try exact P; try reflexivity; tauto.
    + intros (A & B & [P|[P|P]]); destruct e as [[[]|]| | | |[]]; cbn [h_step]; rewrite P; cbn; repeat split; auto.
  - intros (P & A & B). destruct e as [[[]|]| | | |[]]; cbn [h_step]; rewrite P; cbn; repeat split; auto.
  - intros (P & A & B). destruct e as [[[]|]| | | |[]]; cbn [h_step]; rewrite P; cbn; repeat split; auto.
  - intros (P & A & B). destruct e as [[[]|]| | | |[]]; cbn [h_step]; rewrite P; unfold h_accept; cbn; try destruct (h_manager c); cbn; repeat split; auto.
Qed.
Lemma hspec_run c : forall h ans s, hspec c ans s ->
  hspec c (match ans with None => first_answer h | a => a end) (fold_left (h_step c) h s).
Proof.
  induction h as [|e h IH]; intros ans s H; [destruct ans; exact H|].
  cbn [fold_left]. pose proof (IH _ _ (hspec_step c ans s e H)) as G.
  destruct ans; [exact G|]. destruct e; exact G.
Qed.
Lemma h_run_spec c stopped h : hspec c (if h_init c then first_answer h else Some (Some true)) (h_run c stopped h).
Proof.
  unfold h_run. destruct (h_init c) eqn:I.
  - apply (hspec_run c h None). unfold h_start. rewrite I. cbn. repeat split.
  - apply (hspec_run c h (Some (Some true))). unfold h_start. rewrite I. unfold h_accept. cbn. destruct (h_manager c); cbn; repeat split; auto.
Qed.

(** A client that is accepted is given to the manager once, or processed here once if
    there is no manager; one that is not accepted is not. *)
Theorem C96_served_once : forall c stopped h, let s := h_run c stopped h in
  (accepted c h -> (h_put s, h_processed s) = if h_manager c then (1, 0)%nat else (0, 1)%nat) /\
  (~ accepted c h -> h_put s = 0%nat /\ h_processed s = 0%nat).
Proof.
  intros c stopped h s. pose proof (h_run_spec c stopped h) as H. fold s in H. unfold accepted. destruct (h_init c).
  - split.
    + intros [?|E]; [discriminate|]. rewrite E in H. cbn [hspec] in H. destruct (h_manager c); destruct H as (-> & -> & _); reflexivity.
    + intros N. destruct (first_answer h) as [[[]|]|]; cbn [hspec] in H; [exfalso; apply N; right; reflexivity| | |]; destruct H as (_ & A & B); auto.
  - split; [intros _|intros N; exfalso; apply N; left; reflexivity]. cbn [hspec] in H. destruct (h_manager c); destruct H as (-> & -> & _); reflexivity.
Qed.
(** With a manager the call, and with it the connection to the client, ends exactly when
    the connection was disabled or the stop signal was set; a refused client is let
    go at once. *)
Theorem C96_handler_ends : forall c stopped h,
  (accepted c h -> h_manager c = true ->
    (h_pc (h_run c stopped (h ++ [HvWake])) = HReturned <->
     In HvDisabled h \/ h_stop c = true /\ (stopped = true \/ In HvStop h))) /\
  (h_init c = true -> first_answer h = Some (Some false) -> h_pc (h_run c stopped h) = HReturned).
Proof.
  intros c stopped h. split.
  - intros Acc M. unfold h_run. rewrite fold_left_app. cbn [fold_left]. fold (h_run c stopped h).
    pose proof (h_run_spec c stopped h) as H.
    pose proof (h_flags c h (h_start c stopped)) as (F1 & F2). fold (h_run c stopped h) in F1, F2.
    assert (S1 : h_disabled (h_start c stopped) = false /\ h_stopped (h_start c stopped) = stopped).
    { unfold h_start, h_accept. destruct (h_init c), (h_manager c); split; reflexivity. }
    destruct S1 as (S1 & S2). rewrite S1 in F1. rewrite S2 in F2.
    assert (E : (if h_init c then first_answer h else Some (Some true)) = Some (Some true)).
    { destruct Acc as [->|A]; [reflexivity|]. destruct (h_init c); [exact A|reflexivity]. }
    rewrite E in H. cbn [hspec] in H. rewrite M in H. destruct H as (_ & _ & [P|(P & G)]); cbn [h_step]; rewrite P.
    + destruct (h_disabled (h_run c stopped h) || h_stop c && h_stopped (h_run c stopped h)) eqn:W.
      * cbn. split; [intros _|reflexivity]. apply orb_true_iff in W. rewrite andb_true_iff in W.
        destruct W as [W|(W1 & W2)]; [left; apply F1 in W; destruct W; [discriminate|assumption]|right; split; [exact W1|apply F2, W2]].
      * split; [congruence|]. intros [D|(D1 & D2)]; exfalso.
        -- rewrite (proj2 F1 (or_intror D)) in W. discriminate.
        -- rewrite D1, (proj2 F2 D2) in W. rewrite orb_true_r in W. discriminate.
    + split; [intros _|intros _; exact P]. destruct G as [G|(G1 & G2)]; [left; apply F1 in G; destruct G; [discriminate|assumption]|right; split; [exact G1|apply F2, G2]].
  - intros I A. pose proof (h_run_spec c stopped h) as H. rewrite I, A in H. apply H.
Qed.

(** ** Cases *)
Example C96_cases :
  let h := [EPeer (MText [1]); ESend (MBin [9]); EPeer (MBin [2]); ERead; EWriteText; EClose; EPeer (MText [3]); ERead; EWriteBin; ERead; ERead] in
  let w := run echo ws_new h in
  peer_sends h = [MText [1]; MBin [2]] /\ w_seen w = [MText [1]; MBin [2]] /\ w_wire w = [MText [1]] /\
  w_counted w = [MText [1]; MBin [9]] /\ w_bin w = [MBin [2]] /\ w_enabled w = false.
Proof. vm_compute. repeat split. Qed.
Example C96_close_case : exists w, w_open w = false /\ w_enabled w = true /\ w_reading w = true /\ w_inbox w = [MText [1]; MBin [2]] /\
  w = run null ws_new [EPeer (MText [1]); EPeer (MBin [2]); EClose].
Proof. exists (run null ws_new [EPeer (MText [1]); EPeer (MBin [2]); EClose]). repeat split. Qed.
Example C96_raise_case : let hd := fun m => if is_text m then ([], None) else ([], Some true) in
  let w := run hd ws_new [EPeer (MText [1]); EPeer (MBin [2]); ERead] in
  w_reading w = false /\ w_enabled w = true /\ w_inbox w = [MBin [2]].
Proof. repeat split. Qed.
Example C96_served_case :
  h_run (mkConf true true true) false [HvInit (Some true); HvWake; HvStop; HvWake] = mkH HReturned 1 0 false true /\
  h_run (mkConf true true false) false [HvInit (Some true); HvStop; HvWake] = mkH HWait 1 0 false true /\
  h_run (mkConf true true true) false [HvInit (Some false)] = mkH HReturned 0 0 false false /\
  h_run (mkConf false false true) false [HvProcessed false] = mkH HReturned 0 1 false false.
Proof. repeat split. Qed.

Print Assumptions C96_received.
Print Assumptions C96_sent.
Print Assumptions C96_asked_by_user.
Print Assumptions C96_asked_by_handler.
Print Assumptions C96_close_noticed.
Print Assumptions C96_send_closed.
Print Assumptions C96_disabled_is_silent.
Print Assumptions C96_drains.
Print Assumptions C96_raise_refuted.
Print Assumptions C96_disabled_by.
Print Assumptions C96_echo.
Print Assumptions C96_order_of_kinds_refuted.
Print Assumptions C96_counts_refuted.
Print Assumptions C96_served_once.
Print Assumptions C96_handler_ends.
