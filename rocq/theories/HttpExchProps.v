(** C88: an HTTP request returns the response to that request. *)
From Coq Require Import ZifyBool ZifyNat Lia.
From Verif Require Import Base BaseLemmas PyStrModel HttpModel HttpExchModel HttpExchSpec HttpExchProofs.
Open Scope list_scope.

(** Whatever calls, cancellations and schedule, while the connection stays up: the
    responses are handed out in the order in which the requests were sent, none is
    skipped, none is given out twice. *)
Theorem C88_responses_in_order :
  forall es, stays_up es -> let s := run ex_init es in
  exists rest, x_sent s = map snd (x_results s) ++ rest.
Proof.
  intros es U s. destruct (flow_run ex_init es flow_init U) as (rest & E & _). fold s in E. eexists. exact E.
Qed.
Print Assumptions C88_responses_in_order.

(** A call returns at most once; it was made, sent, and not cancelled. *)
Theorem C88_returns_once :
  forall es, fresh es -> let s := run ex_init es in
  NoDup (map fst (x_results s)) /\
  forall i r, In (i, r) (x_results s) -> In i (calls es) /\ In i (x_sent s) /\ ~ In i (x_cancelled s).
Proof.
  intros es F s. pose proof (who_run es F) as [N C L K X]. fold s in N, C, L, K, X.
  assert (Nk : NoDup (map fst (x_results s) ++ opt (x_turn s))) by (rewrite K; apply NoDup_filter; apply nodup_app in N; tauto).
  apply nodup_app in Nk as (Nk & _ & _). split; [exact Nk|]. intros i r H.
  assert (Hi : In i (kept s)) by (rewrite <- K; apply in_or_app; left; apply (in_map fst) in H; exact H).
  unfold kept in Hi. apply filter_In in Hi as [Hs Hc]. split; [apply C; rewrite !in_app_iff; tauto|]. split; [exact Hs|].
  intros Q. apply memb_in in Q. rewrite Q in Hc. discriminate.
Qed.
Print Assumptions C88_returns_once.

(** Unless a request that had been sent is cancelled, every call gets the response to
    its own request, in the order in which the requests were sent. *)
Theorem C88_own_response :
  forall es, fresh es -> stays_up es -> let s := run ex_init es in
  (forall j, In j (x_cancelled s) -> ~ In j (x_sent s)) ->
  Forall (fun ir => fst ir = snd ir) (x_results s) /\ exists rest, x_sent s = map fst (x_results s) ++ rest.
Proof.
  intros es F U s H. pose proof (who_run es F) as [N C L K X]. destruct (flow_run ex_init es flow_init U) as (rest & E & _). fold s in N, C, L, K, X, E.
  assert (Ks : kept s = x_sent s).
  { unfold kept. assert (G : forall x, In x (x_sent s) -> negb (existsb (Nat.eqb x) (x_cancelled s)) = true).
    { intros x Hx. destruct (existsb (Nat.eqb x) (x_cancelled s)) eqn:Q; [|reflexivity]. apply memb_in in Q. exfalso. apply (H x Q Hx). }
    clear - G. induction (x_sent s) as [|a l IH]; [reflexivity|]. cbn [filter]. rewrite (G a) by (left; reflexivity). f_equal. apply IH.
    intros x Hx. apply G. right. exact Hx. }
  rewrite Ks in K. split; [|eexists; symmetry; exact K].
  rewrite <- K in E. clear - E. revert E. generalize (opt (x_turn s)) (opt (x_queue s) ++ opt (x_putting s) ++ rest).
  induction (x_results s) as [|[i r] l IH]; intros a b E; [constructor|]. cbn in E. injection E as E1 E2. constructor; [exact E1|]. eapply IH. exact E2.
Qed.
Print Assumptions C88_own_response.

(** In particular when nothing is cancelled; the connection then also keeps reading. *)
Theorem C88_nothing_cancelled :
  forall es, fresh es -> stays_up es -> nothing_cancelled es -> let s := run ex_init es in
  Forall (fun ir => fst ir = snd ir) (x_results s) /\ x_reading s = true.
Proof.
  intros es F U NC s. destruct (no_cancel_run es F NC U) as (E & R & _). fold s in E, R. split; [|exact R].
  apply (C88_own_response es F U). fold s. rewrite E. intros j [].
Qed.
Print Assumptions C88_nothing_cancelled.

(** ... and every call can still return: whatever happened, the tasks, left to run, can
    answer all calls; and they cannot be stuck before that. *)
Definition busy (s : ex) : Prop := x_line s <> [] \/ x_turn s <> None.
Lemma turn_done es : fresh es -> stays_up es -> nothing_cancelled es ->
  exists es', Forall internal es' /\ x_turn (run ex_init (es ++ es')) = None /\ x_line (run ex_init (es ++ es')) = x_line (run ex_init es).
Proof.
  intros F U NC. destruct (no_cancel_run es F NC U) as (E & R & Sp). pose proof (who_run es F) as [N C L K X].
  destruct (flow_run ex_init es flow_init U) as (rest & Fl & Rs). specialize (Rs R). rewrite Rs in Fl. clear Rs rest.
  assert (Ks : kept (run ex_init es) = x_sent (run ex_init es)).
  { unfold kept. rewrite E. cbn. clear. induction (x_sent _); cbn; congruence. }
  rewrite Ks in K. setoid_rewrite run_app. destruct (run ex_init es) as [line turn exp q pt rd sp ts tc sent res can]. cbn in *. subst.
  destruct turn as [t|]; [|exists []; cbn; repeat split; constructor]. specialize (X ltac:(discriminate)). subst exp.
  apply (f_equal (@List.length nat)) in Fl. rewrite !app_length, !map_length in Fl. cbn in Fl.
  destruct q as [q|].
  - exists [Wake]. cbn. repeat split; repeat constructor.
  - destruct pt as [p|].
    + exists [Put; Wake]. cbn. repeat split; repeat constructor.
    + destruct tc as [|c tc].
      * destruct ts as [|c ts]; [cbn in Fl; lia|]. exists [Serve; Deliver; Wake]. cbn. repeat split; repeat constructor.
      * exists [Deliver; Wake]. cbn. repeat split; repeat constructor.
Qed.
Theorem C88_all_can_return :
  forall es, fresh es -> stays_up es -> nothing_cancelled es ->
  exists es', Forall internal es' /\
  let s := run ex_init (es ++ es') in
  forall i, In i (calls es) -> In (i, i) (x_results s).
Proof.
  intros es F U NC.
  assert (Ext : forall es', Forall internal es' -> fresh (es ++ es') /\ stays_up (es ++ es') /\ nothing_cancelled (es ++ es') /\ calls (es ++ es') = calls es).
  { intros es' H. assert (Cn : calls es' = []).
    { induction H as [|e l He H IH]; [reflexivity|]. cbn. destruct e; cbn in He; try tauto; exact IH. }
    rewrite Forall_forall in H. unfold fresh. rewrite calls_app, Cn, app_nil_r. split; [exact F|]. split.
    - apply stays_up_app. split; [exact U|]. split; intros Q; apply H in Q; exact Q.
    - split; [|reflexivity]. intros i Q. apply in_app_iff in Q as [Q|Q]; [apply (NC i Q)|apply (H _ Q)]. }
  assert (D : forall n es1, Forall internal es1 -> (List.length (x_line (run ex_init (es ++ es1))) <= n)%nat ->
    exists es', Forall internal es' /\ x_turn (run ex_init (es ++ es')) = None /\ x_line (run ex_init (es ++ es')) = []).
  { induction n as [|n IH]; intros es1 H1 Hn; destruct (Ext es1 H1) as (F1 & U1 & N1 & _); destruct (turn_done _ F1 U1 N1) as (e2 & H2 & T2 & L2); rewrite <- app_assoc in *.
    - exists (es1 ++ e2). split; [apply Forall_app; auto|]. split; [exact T2|]. rewrite L2. destruct (x_line _); [reflexivity|cbn in Hn; lia].
    - destruct (x_line (run ex_init (es ++ es1))) as [|i l] eqn:El; [exists (es1 ++ e2); split; [apply Forall_app; auto|auto]|].
      apply (IH (es1 ++ e2 ++ [Acquire i])); [repeat (apply Forall_app; split); auto; repeat constructor|].
      rewrite app_assoc, app_assoc, run_app. rewrite <- app_assoc. cbn [run fold_left step]. rewrite T2. rewrite L2. cbn [existsb]. rewrite Nat.eqb_refl.
      cbn [orb acquire x_line]. rewrite L2. cbn [remove]. destruct (Nat.eq_dec i i); [|congruence]. cbn in Hn.
      pose proof (remove_length_le Nat.eq_dec l i). lia. }
  destruct (D (List.length (x_line (run ex_init (es ++ [])))) [] ltac:(constructor) (Nat.le_refl _)) as (es' & H & T & Li).
  exists es'. split; [exact H|]. intros s i Hi. destruct (Ext es' H) as (F1 & U1 & N1 & C1).
  destruct (no_cancel_run _ F1 N1 U1) as (Cn & _ & _). fold s in Cn, T, Li.
  (* every call is in the line or sent *)
  assert (G : forall es, nothing_cancelled es -> forall i, In i (calls es) -> In i (x_line (run ex_init es)) \/ In i (x_sent (run ex_init es))).
  { clear. induction es as [|e es IH] using rev_ind; intros NC i Hi; [destruct Hi|]. rewrite calls_app in Hi. rewrite run_app. cbn [run fold_left].
    assert (NC' : nothing_cancelled es) by (intros j Q; apply (NC j), in_or_app; left; exact Q).
    assert (K : In i (x_line (run ex_init es)) \/ In i (x_sent (run ex_init es)) -> In i (x_line (step (run ex_init es) e)) \/ In i (x_sent (step (run ex_init es) e))).
    { generalize (run ex_init es). intros s Q. destruct e as [j|j| |j| | | | |]; cbn [step].
      - cbn. rewrite in_app_iff. tauto.
      - destruct (x_turn s); [exact Q|]. destruct (existsb _ _); [|exact Q]. cbn. rewrite in_remove', in_app_iff. cbn.
        destruct (Nat.eq_dec i j); [subst; tauto|tauto].
      - destruct (x_turn s); [|exact Q]. destruct (x_queue s); exact Q.
      - exfalso. apply (NC j), in_or_app. right. left. reflexivity.
      - destruct (x_to_server s); exact Q.
      - destruct (x_putting s); [exact Q|]. destruct (x_to_client s); [exact Q|]. destruct (x_reading s); [|exact Q]. unfold deliver.
        destruct (_ && _); [destruct (x_queue s)|]; exact Q.
      - destruct (x_putting s); [|exact Q]. destruct (x_queue s); exact Q.
      - exact Q.
      - exact Q. }
    apply in_app_iff in Hi as [Hi|Hi]; [apply K, IH; assumption|]. destruct e; cbn in Hi; try tauto. destruct Hi as [<-|[]]. cbn. left. apply in_or_app. right. left. reflexivity. }
  rewrite <- C1 in Hi. destruct (G _ N1 i Hi) as [Q|Q]; fold s in Q; [rewrite Li in Q; destruct Q|].
  pose proof (who_run _ F1) as [_ _ _ K _]. fold s in K. rewrite T in K. cbn in K. rewrite app_nil_r in K.
  assert (Ks : kept s = x_sent s) by (unfold kept; rewrite Cn; cbn; clear; induction (x_sent s); cbn; congruence).
  rewrite Ks in K. rewrite <- K in Q. apply in_map_iff in Q as ([i' r] & <- & Hir). cbn.
  destruct (C88_nothing_cancelled _ F1 U1 N1) as [Fo _]. fold s in Fo. rewrite Forall_forall in Fo. pose proof (Fo _ Hir) as Eq. cbn in Eq. subst. exact Hir.
Qed.
Print Assumptions C88_all_can_return.

(** After a request that had been sent is cancelled, no later request gets its own
    response. *)
Theorem C88_after_cancel_refuted :
  forall es i j r, fresh es -> stays_up es -> let s := run ex_init es in
  In j (x_cancelled s) -> before j i (x_sent s) -> In (i, r) (x_results s) -> r <> i.
Proof.
  intros es i j r F U s Hc (a & b & c & Es) Hr Eq. subst r.
  pose proof (who_run es F) as [N C L K X]. destruct (flow_run ex_init es flow_init U) as (rest & E & _). fold s in N, C, L, K, X, E.
  apply nodup_app in N as (_ & N & _). apply in_split in Hr as (l1 & l2 & Er). rewrite Er in K, E.
  (* the position of i among the results is its position among the sent *)
  assert (P1 : exists t, x_sent s = map snd l1 ++ i :: t) by (rewrite E, map_app; cbn; rewrite <- app_assoc; cbn; eauto).
  destruct P1 as (t & P1).
  assert (Lab : map snd l1 = a ++ j :: b).
  { rewrite Es in P1, N. assert (U2 : forall (x y u v : list nat), x ++ i :: u = y ++ i :: v -> NoDup (x ++ i :: u) -> x = y).
    { clear. induction x as [|p x IH]; intros [|q y] u v Q Nd; cbn in *; try reflexivity.
      - injection Q as -> Q. exfalso. inversion Nd; subst. apply H1, in_or_app. right. left. reflexivity.
      - injection Q as -> Q. exfalso. inversion Nd; subst. apply H1, in_or_app. right. left. reflexivity.
      - injection Q as -> Q. f_equal. eapply IH; [exact Q|]. inversion Nd; assumption. }
    symmetry. eapply U2.
    - rewrite <- app_assoc. cbn. exact P1.
    - rewrite <- app_assoc. cbn. exact N. }
  (* but fewer calls were kept before i than sent before it *)
  assert (Lf : List.length (map fst l1) = List.length (filter (fun i => negb (existsb (Nat.eqb i) (x_cancelled s))) (a ++ j :: b))).
  { assert (Q : map fst l1 ++ i :: (map fst l2 ++ opt (x_turn s)) = kept s) by (rewrite <- K, map_app; cbn; rewrite <- app_assoc; reflexivity).
    unfold kept in Q. rewrite Es in Q. replace (a ++ j :: b ++ i :: c) with ((a ++ j :: b) ++ i :: c) in Q by (rewrite <- app_assoc; reflexivity).
    rewrite filter_app in Q. cbn [filter] in Q.
    assert (Ki : negb (existsb (Nat.eqb i) (x_cancelled s)) = true).
    { assert (In i (kept s)) by (rewrite <- K, map_app; cbn; rewrite !in_app_iff; cbn; tauto). unfold kept in H. apply filter_In in H. tauto. }
    rewrite Ki in Q. set (f := filter _ (a ++ j :: b)) in *. set (g := filter _ c) in *.
    assert (Nk : NoDup (f ++ i :: g)).
    { unfold f, g. assert (Nk : NoDup (kept s)) by (apply NoDup_filter; exact N). unfold kept in Nk. rewrite Es in Nk.
      replace (a ++ j :: b ++ i :: c) with ((a ++ j :: b) ++ i :: c) in Nk by (rewrite <- app_assoc; reflexivity). rewrite filter_app in Nk. cbn [filter] in Nk. rewrite Ki in Nk. exact Nk. }
    rewrite <- Q in Nk. clear - Q Nk. revert Q Nk. generalize (map fst l1) f (map fst l2 ++ opt (x_turn s)) g.
    induction l as [|p x IH]; intros [|q y] u v Q Nd; cbn in *; try reflexivity.
    - injection Q as -> Q. subst u. exfalso. inversion Nd; subst. apply H1, in_or_app. right. left. reflexivity.
    - injection Q as -> Q. exfalso. inversion Nd; subst. apply H1, in_or_app. right. left. reflexivity.
    - injection Q as -> Q. f_equal. eapply IH; [exact Q|]. inversion Nd; assumption. }
  assert (Ll : List.length (map snd l1) = List.length (map fst l1)) by (rewrite !map_length; reflexivity).
  rewrite Lab, Lf in Ll. rewrite filter_app, !app_length in Ll. cbn [filter List.length] in Ll.
  assert (Hj : existsb (Nat.eqb j) (x_cancelled s) = true) by (apply memb_in; exact Hc). rewrite Hj in Ll. cbn [negb] in Ll.
  assert (Lt : forall l, (List.length (filter (fun i => negb (existsb (Nat.eqb i) (x_cancelled s))) l) <= List.length l)%nat).
  { induction l as [|x l IH]; cbn; [lia|]. destruct (negb _); cbn; lia. }
  pose proof (Lt a). pose proof (Lt b). lia.
Qed.
Print Assumptions C88_after_cancel_refuted.

(** Single steps on written-out states. *)
Lemma st_call l t e q p r sp ts tc se re ca i : step (mkEx l t e q p r sp ts tc se re ca) (Call i) = mkEx (l ++ [i]) t e q p r sp ts tc se re ca.
Proof. reflexivity. Qed.
Lemma st_acquire e q p r sp ts tc se re ca i :
  step (mkEx [i] None e q p r sp ts tc se re ca) (Acquire i) = mkEx [] (Some i) true q p r sp (ts ++ [i]) tc (se ++ [i]) re ca.
Proof. cbn [step x_turn x_line existsb]. rewrite Nat.eqb_refl. cbn [orb]. unfold acquire. cbn [x_line remove]. destruct (Nat.eq_dec i i); [reflexivity|congruence]. Qed.
Lemma st_cancel e q p r sp ts tc se re ca i :
  step (mkEx [] (Some i) e q p r sp ts tc se re ca) (Cancel i) = mkEx [] None e q p r sp ts tc se re (ca ++ [i]).
Proof. cbn [step]. unfold cancel. cbn [x_turn x_line existsb]. rewrite Nat.eqb_refl. reflexivity. Qed.
Lemma st_wake l i e v p r sp ts tc se re ca : step (mkEx l (Some i) e (Some v) p r sp ts tc se re ca) Wake = mkEx l None false None p r sp ts tc se (re ++ [(i, v)]) ca.
Proof. reflexivity. Qed.
Lemma st_serve l t e q p r sp i ts tc se re ca : step (mkEx l t e q p r sp (i :: ts) tc se re ca) Serve = mkEx l t e q p r sp ts (tc ++ [i]) se re ca.
Proof. reflexivity. Qed.
Lemma st_deliver l t ts i tc se re ca : step (mkEx l t true None None true false ts (i :: tc) se re ca) Deliver = mkEx l t true (Some i) None true false ts tc se re ca.
Proof. reflexivity. Qed.
Lemma st_fail l t q sp ts i tc se re ca : step (mkEx l t false q None true sp ts (i :: tc) se re ca) Deliver = mkEx l t false q None false true ts tc se re ca.
Proof. reflexivity. Qed.
Lemma st_lost l t e q p r sp ts tc se re ca : step (mkEx l t e q p r sp ts tc se re ca) Lost = mkEx l t e q None false sp [] [] se re ca.
Proof. reflexivity. Qed.
Lemma st_restart l t e q p r sp ts tc se re ca : step (mkEx l t e q p r sp ts tc se re ca) Restart = mkEx l t e q None true sp [] [] se re ca.
Proof. reflexivity. Qed.
Ltac steps := unfold run, ex_init; cbn [fold_left];
  repeat (first [rewrite st_call|rewrite st_acquire|rewrite st_cancel|rewrite st_wake|rewrite st_serve|rewrite st_deliver|rewrite st_fail|rewrite st_lost|rewrite st_restart]; cbn [app]).

(** One request that is cancelled (by a timeout, say) before its response arrives, and a
    second one: the second returns the response to the first, the reading task fails, and
    whatever happens then, restarts included, no call of [request] returns ever again. *)
Theorem C88_never_again_refuted :
  forall i j more, i <> j ->
  let s := run ex_init ([Call i; Acquire i; Cancel i; Serve; Deliver; Call j; Acquire j; Wake; Serve; Deliver] ++ more) in
  x_results s = [(j, i)].
Proof.
  intros i j more Hij. cbv zeta. rewrite run_app.
  assert (E : run ex_init [Call i; Acquire i; Cancel i; Serve; Deliver; Call j; Acquire j; Wake; Serve; Deliver]
            = mkEx [] None false None None false true [] [] [i; j] [(j, i)] [i]).
  { steps. reflexivity. }
  rewrite E. clear E Hij.
  assert (G : forall es s, x_queue s = None -> x_putting s = None -> x_spoiled s = true ->
    x_results (run s es) = x_results s).
  { clear. induction es as [|e es IH]; intros s Q P B; [reflexivity|]. cbn [run fold_left].
    change (fold_left step es (step s e)) with (run (step s e) es).
    assert (K : x_queue (step s e) = None /\ x_putting (step s e) = None /\ x_spoiled (step s e) = true /\ x_results (step s e) = x_results s).
    { destruct e as [j|j| |j| | | | |]; cbn [step]; try (cbn; auto; fail).
      - destruct (x_turn s); [auto|]. destruct (existsb _ _); cbn; auto.
      - destruct (x_turn s); [|auto]. rewrite Q. auto.
      - unfold cancel. destruct (existsb _ _); [cbn; auto|]. destruct (x_turn s); [|auto]. destruct (Nat.eqb _ _); cbn; auto.
      - destruct (x_to_server s); cbn; auto.
      - rewrite P. destruct (x_to_client s); [auto|]. destruct (x_reading s); [|auto]. unfold deliver. rewrite B, andb_false_r. cbn. auto.
      - rewrite P. auto. }
    destruct K as (K1 & K2 & K3 & K4). rewrite IH by assumption. exact K4. }
  apply G; reflexivity.
Qed.
Print Assumptions C88_never_again_refuted.

(** A request that is waiting when the connection is lost never returns, and no other
    request is even sent, restarts or not, until it is cancelled. *)
Theorem C88_lost_request_blocks_refuted :
  forall es more i, let s := run ex_init es in
  x_turn s = Some i -> x_queue s = None -> ~ In (Cancel i) more ->
  let s' := run ex_init (es ++ Lost :: more) in
  x_results s' = x_results s /\ x_sent s' = x_sent s.
Proof.
  intros es more i s T Q NC s'. unfold s'. rewrite run_app. fold s. cbn [run fold_left].
  change (fold_left step more (step s Lost)) with (run (step s Lost) more).
  assert (G : forall es s, ~ In (Cancel i) es -> x_turn s = Some i -> x_queue s = None -> x_putting s = None -> x_to_server s = [] -> x_to_client s = [] ->
    x_results (run s es) = x_results s /\ x_sent (run s es) = x_sent s).
  { clear. induction es as [|e es IH]; intros s NC T Q P S1 S2; [auto|]. cbn [run fold_left].
    change (fold_left step es (step s e)) with (run (step s e) es).
    assert (K : x_turn (step s e) = Some i /\ x_queue (step s e) = None /\ x_putting (step s e) = None /\ x_to_server (step s e) = [] /\ x_to_client (step s e) = [] /\
      x_results (step s e) = x_results s /\ x_sent (step s e) = x_sent s).
    { destruct e as [j|j| |j| | | | |]; cbn [step]; try (cbn; auto 10; fail).
      - rewrite T. auto 10.
      - rewrite T, Q. auto 10.
      - unfold cancel. destruct (existsb _ _); [cbn; auto 10|]. rewrite T. destruct (Nat.eqb_spec j i) as [->|]; [exfalso; apply NC; left; reflexivity|auto 10].
      - rewrite S1. auto 10.
      - rewrite P, S2. auto 10.
      - rewrite P. auto 10. }
    destruct K as (K1 & K2 & K3 & K4 & K5 & K6 & K7). destruct (IH (step s e)) as [E1 E2]; auto; [intros H; apply NC; right; exact H|].
    rewrite E1, E2. auto. }
  exact (G more (step s Lost) NC T Q eq_refl eq_refl eq_refl).
Qed.
Print Assumptions C88_lost_request_blocks_refuted.

(** A response that was left over is returned by a request of the next session. *)
Theorem C88_next_session_refuted :
  forall i j, i <> j ->
  x_results (run ex_init [Call i; Acquire i; Serve; Deliver; Cancel i; Lost; Restart; Call j; Acquire j; Wake]) = [(j, i)].
Proof.
  intros i j Hij. steps. reflexivity.
Qed.
Print Assumptions C88_next_session_refuted.

(** ** Why a response that is not expected is fatal *)
Lemma split_cons c x s : x <> c -> exists p ps, split_on c s = p :: ps /\ split_on c (x :: s) = (x :: p) :: ps.
Proof.
  intros N. cbn [split_on]. destruct (Z.eqb_spec x c); [contradiction|]. destruct (split_on c s) as [|p ps] eqn:E; [|eauto].
  exfalso. destruct s as [|y s]; cbn [split_on] in E; [discriminate|]. destruct (y =? c)%Z; [discriminate|]. destruct (split_on c s); discriminate.
Qed.

(** The lines of a response are not those of a request. *)
Theorem C88_response_is_no_request :
  forall v rest lines, req_parse ((ver_str v ++ rest) :: lines) = None.
Proof.
  intros v rest lines. unfold req_parse, ver_str. change (lit "HTTP/") with [72; 84; 84; 80; 47]%Z. rewrite <- !app_assoc. cbn [app].
  destruct (split_cons 32 84 (84 :: 80 :: 47 :: dec (v_major v) ++ 46 :: dec (v_minor v) ++ rest)%Z) as (p & ps & _ & E1); [lia|].
  destruct (split_cons 32 72 (84 :: 84 :: 80 :: 47 :: dec (v_major v) ++ 46 :: dec (v_minor v) ++ rest)%Z) as (p' & ps' & E2 & E3); [lia|].
  rewrite E3. rewrite E1 in E2. injection E2 as <- <-. clear E1 E3.
  destruct ps as [|t [|w [|x l]]]; reflexivity.
Qed.
Print Assumptions C88_response_is_no_request.

(** A header the parser refuses stays in it: from then on nothing is received, whatever
    arrives. *)
Theorem C88_refused_header_stays :
  forall {H} (parse : list str -> option H) clen lines p chunks,
  (forall more, parse (lines ++ more) = None) -> h_cur p = None -> (exists more, h_lines p = lines ++ more) ->
  fst (fst (h_feed parse clen p chunks)) = [].
Proof.
  intros H parse clen lines p chunks Hp.
  assert (Sv : forall buf ls line, (exists more, ls = lines ++ more) ->
    match h_service parse ls line buf with
    | SNone ls' _ | SRaise _ ls' _ => exists more, ls' = lines ++ more
    | SHeader _ _ _ => False
    end).
  { induction buf as [|b buf IH]; intros ls line (more & ->); cbn [h_service]; [eauto|].
    destruct ((b <? 0) || (127 <? b))%Z; [eauto|]. destruct (b =? 10)%Z.
    - destruct line; [rewrite Hp; eauto|]. apply IH. exists (more ++ [z :: line]). apply app_assoc_reverse.
    - destruct (b =? 13)%Z; apply IH; eauto. }
  assert (Lp : forall fuel p, h_cur p = None -> (exists more, h_lines p = lines ++ more) ->
    fst (fst (h_loop parse clen fuel p)) = [] /\ h_cur (snd (fst (h_loop parse clen fuel p))) = None /\
    exists more, h_lines (snd (fst (h_loop parse clen fuel p))) = lines ++ more).
  { intros [|fuel] [buf ls line cur] C L; cbn in C, L; subst cur; [cbn; auto|]. cbn [h_loop]. unfold h_turn. cbn [h_buf h_cur h_lines h_line].
    destruct buf as [|b buf]; [cbn; auto|]. specialize (Sv (b :: buf) ls line L). destruct (h_service parse ls line (b :: buf)); cbn; auto. destruct Sv. }
  revert p. induction chunks as [|c cs IH]; intros p C L; [reflexivity|]. cbn [h_feed]. unfold h_ingest.
  destruct (Lp (h_fuel (h_add p c)) (h_add p c) C L) as (K1 & K2 & K3). destruct (h_loop parse clen (h_fuel (h_add p c)) (h_add p c)) as [[ms q] e]. cbn in K1, K2, K3. subst ms.
  destruct e; [reflexivity|]. specialize (IH q K2 K3). destruct (h_feed parse clen q cs) as [[ms' r] e']. cbn in *. exact IH.
Qed.
Print Assumptions C88_refused_header_stays.

(** Which headers these are: all that requests or responses refuse; and a refused response
    also spoils the responses of the next session, whose status lines have no colon. *)
Lemma hd_parse_none ls more : forall hs, hd_parse hs ls = None -> hd_parse hs (ls ++ more) = None.
Proof. induction ls as [|l ls IH]; intros hs E; [discriminate|]. cbn in *. destruct (split_once 58 l) as [[k v]|]; [apply IH, E|reflexivity]. Qed.
Theorem C88_refused_request_extends :
  forall l lines more, req_parse (l :: lines) = None -> req_parse ((l :: lines) ++ more) = None.
Proof.
  intros l lines more. cbn [app req_parse]. destruct (split_on 32 l) as [|m [|t [|v [|x r]]]]; auto.
  destruct (method_ok m); auto. destruct (target_parse m t); auto. destruct (ver_parse v); auto.
  destruct (hd_parse [] lines) eqn:E; [discriminate|]. rewrite (hd_parse_none _ _ _ E). auto.
Qed.
Theorem C88_refused_response_extends :
  forall ok l lines more, resp_parse ok (l :: lines) = None -> resp_parse ok ((l :: lines) ++ more) = None.
Proof.
  intros ok l lines more. cbn [app resp_parse]. destruct (split_once 32 l) as [[v rest]|]; auto.
  destruct (match split_once 32 rest with Some p => p | None => (rest, []) end) as [s reason].
  destruct (ver_parse v); auto. destruct (PyStrModel.py_int s); auto. destruct (ok _); auto.
  destruct (hd_parse [] lines) eqn:E; [discriminate|]. rewrite (hd_parse_none _ _ _ E). auto.
Qed.
Theorem C88_next_response_refused :
  forall ok l lines status more, split_once 58 status = None -> resp_parse ok ((l :: lines) ++ status :: more) = None.
Proof.
  intros ok l lines status more Hs. cbn [app resp_parse]. destruct (split_once 32 l) as [[v rest]|]; auto.
  destruct (match split_once 32 rest with Some p => p | None => (rest, []) end) as [s reason].
  destruct (ver_parse v); auto. destruct (PyStrModel.py_int s); auto. destruct (ok _); auto.
  assert (E : forall hs, hd_parse hs (lines ++ status :: more) = None).
  { induction lines as [|x xs IH]; intros hs; cbn [app hd_parse]; [rewrite Hs; reflexivity|]. destruct (split_once 58 x) as [[k w]|]; [apply IH|reflexivity]. }
  rewrite E. reflexivity.
Qed.
Print Assumptions C88_refused_request_extends.
Print Assumptions C88_refused_response_extends.
Print Assumptions C88_next_response_refused.

(** Concrete cases. *)
Example C88_example_three :
  let s := run ex_init [Call 1; Call 2; Acquire 2; Call 3; Serve; Deliver; Wake; Acquire 1; Serve; Acquire 3; Deliver; Wake; Acquire 3; Serve; Deliver; Wake]%nat in
  x_results s = [(2, 2); (1, 1); (3, 3)]%nat /\ x_reading s = true.
Proof. vm_compute. auto. Qed.
Example C88_example_cancelled :
  let es := [Call 1; Acquire 1; Cancel 1; Call 2; Acquire 2; Call 3; Serve; Serve; Deliver; Wake; Acquire 3; Deliver; Wake]%nat in
  let s := run ex_init es in
  x_results s = [(2, 1); (3, 2)]%nat /\ In 1%nat (x_cancelled s) /\ x_sent s = [1; 2; 3]%nat.
Proof. vm_compute. auto. Qed.
Example C88_example_line_only :
  let s := run ex_init [Call 1; Acquire 1; Call 2; Cancel 2; Serve; Deliver; Wake]%nat in
  x_results s = [(1, 1)]%nat /\ x_cancelled s = [2]%nat /\ ~ In 2%nat (x_sent s).
Proof. vm_compute. repeat split; auto. intros [H|[]]. discriminate. Qed.
Example C88_example_lost :
  let s := run ex_init [Call 1; Acquire 1; Serve]%nat in x_turn s = Some 1%nat /\ x_queue s = None.
Proof. vm_compute. auto. Qed.
(** A bad request to a server, and a good one after it. *)
Example C88_example_refused :
  let bad := lit "NOPE / HTTP/1.1" ++ [13; 10; 13; 10]%Z in
  let good := lit "GET / HTTP/1.1" ++ [13; 10; 13; 10; 13; 10]%Z in
  let r1 := h_ingest req_parse req_clen h_init bad in
  let r2 := h_ingest req_parse req_clen (snd (fst r1)) good in
  snd r1 = true /\ fst (fst r2) = [] /\ h_lines (snd (fst r1)) = [lit "NOPE / HTTP/1.1"].
Proof. vm_compute. auto. Qed.
