(** Properties C36-C39 and C54: JSON messaging between two peers. *)
From Coq Require Import QArith Permutation.
From Verif Require Import Base BaseLemmas IfaceModel IfaceSpec IfaceProofs IfaceSys IfaceStd IfaceAnswer IfaceProv IfaceLogs.
From Coq Require Import ZifyBool ZifyNat Lia.
Open Scope string_scope.
Open Scope list_scope.
Open Scope Z_scope.

Definition two_scaled (i : ident) : Prop := i = id_new \/ i = id_offset id_new.

Lemma reach_inv {S} (ev : string -> option (target S)) i s ops : two_scaled i ->
  IInv (snd (run ev (s, i_new i) ops)).
Proof. intros H. apply inv_run. apply inv_new. destruct H as [->| ->]; reflexivity. Qed.

(** ** C36 *)

(** C36.  Whatever the order in which a plain and an offset source are drawn
    from, all identifiers are distinct. *)
Theorem C36_identifiers_distinct : forall l, NoDup (draws id_new (id_offset id_new) l).
Proof. intros l. apply draws_spec; vm_compute; intuition congruence. Qed.
Print Assumptions C36_identifiers_distinct.

Example draws_example : draws id_new (id_offset id_new) [true; false; false; true] = [1; 2; 4; 3].
Proof. reflexivity. Qed.

Lemma sys_ids {S} (ev : side -> string -> option (target S)) s0 h : forall w,
  IInv (snd (sy_if (sys_run ev (sys_new s0) h) w)) /\
  Z.odd (id_cur (i_ident (snd (sy_if (sys_run ev (sys_new s0) h) w)))) = par w.
Proof.
  induction h as [|e h IH] using rev_ind; intros w.
  - destruct (SInv_new (S:=S) (fun _ => False) s0) as [A B]. destruct w; split; [apply A|apply A|apply B|apply B].
  - rewrite sys_run_snoc. destruct (step_shape ev (sys_run ev (sys_new s0) h) e) as (F1 & _ & F3).
    remember (actor e) as v eqn:Ev. clear Ev. destruct (side_cases w v) as [->| ->]; [|rewrite F1; apply IH].
    destruct (IH v) as [I P].
    destruct F3 as [(m & rest & _ & _ & _ & Eff & _)|[(o & _ & _ & Eff & _)|(_ & H & _)]].
    + split; [eapply inv_effect; eauto|rewrite (effect_par _ _ _ _ I Eff); exact P].
    + split; [eapply inv_effect; eauto|rewrite (effect_par _ _ _ _ I Eff); exact P].
    + rewrite H. auto.
Qed.

(** C36.  The requests two connected peers ever make, in any history, carry
    pairwise distinct identifiers. *)
Theorem C36_requests_distinct :
  forall (S : Type) (ev : side -> string -> option (target S)) s0 h,
    let y := sys_run ev (sys_new s0) h in
    NoDup (map rq_id (i_reqs (snd (sy_if y SA))) ++ map rq_id (i_reqs (snd (sy_if y SB)))).
Proof.
  intros S ev s0 h y. destruct (sys_ids ev s0 h SA) as [IA PA], (sys_ids ev s0 h SB) as [IB PB]. fold y in IA, PA, IB, PB.
  apply NoDup_app; [apply IA|apply IB|].
  intros z Ha Hb. apply in_map_iff in Ha as (q & Eq & Hq). apply in_map_iff in Hb as (q' & Eq' & Hq').
  pose proof (n_par _ IA q Hq). pose proof (n_par _ IB q' Hq'). cbn in PA, PB. congruence.
Qed.
Print Assumptions C36_requests_distinct.

(** Two connections of the same kind (for example both ends of a TCP or
    websocket JSON connection) draw the same identifiers: only subprocess hosts
    offset theirs. *)
Theorem C36_unoffset_peers_refuted : forall n, exists l,
  List.length l = (2 * n)%nat /\
  (forall z, In z (draws id_new id_new l) -> count_occ Z.eq_dec (draws id_new id_new l) z = 2%nat).
Proof.
  intros n. exists (List.concat (repeat [true; false] n)). split; [induction n; cbn; lia|].
  assert (X : forall n i, let l := draws i i (List.concat (repeat [true; false] n)) in id_scale i = 2 ->
            (forall z, In z l -> id_cur i <= z) /\ (forall z, In z l -> count_occ Z.eq_dec l z = 2%nat)).
  { clear n. induction n as [|n IH]; intros i l Hi; [split; intros z []|]. subst l.
    cbn [repeat List.concat draws app id_next]. set (i' := mkIdent (id_cur i + id_scale i) (id_scale i)).
    destruct (IH i' Hi) as [A B]. cbn in A. split.
    - intros z [<-|[<-|H]]; [lia|lia|]. apply A in H. unfold i' in H. cbn in H. lia.
    - intros z [<-|[<-|H]]; cbn [count_occ].
      + destruct (Z.eq_dec (id_cur i) (id_cur i)); [|congruence].
        assert (~ In (id_cur i) (draws i' i' (List.concat (repeat [true; false] n)))) as N by (intros H; apply A in H; lia).
        apply (count_occ_not_In Z.eq_dec) in N. rewrite N. reflexivity.
      + destruct (Z.eq_dec (id_cur i) (id_cur i)); [|congruence].
        assert (~ In (id_cur i) (draws i' i' (List.concat (repeat [true; false] n)))) as N by (intros H; apply A in H; lia).
        apply (count_occ_not_In Z.eq_dec) in N. rewrite N. reflexivity.
      + pose proof (A z H). destruct (Z.eq_dec (id_cur i) z); [lia|]. apply B. exact H. }
  apply X. reflexivity.
Qed.
Print Assumptions C36_unoffset_peers_refuted.

(** ** C37 *)

(** C37.  Against any peer whatsoever: a call that returned message [m] drew an
    identifier, later received some message [d] carrying that identifier, and
    returned the content of [d]; nothing was sent in reply to [d]. *)
Theorem C37_completes_with_own_identifier :
  forall (S : Type) (ev : string -> option (target S)) i s ops r q m,
    two_scaled i -> let x0 := (s, i_new i) in
    nth_error (i_reqs (snd (run ev x0 ops))) r = Some q -> rq_st q = Done m ->
    exists ops1 d ops2, ops = ops1 ++ ORecv d :: ops2 /\
      (exists q1, nth_error (i_reqs (snd (run ev x0 ops1))) r = Some q1 /\ rq_id q1 = rq_id q) /\
      carries d (rq_id q) /\ content_of m d /\
      snd (fst (step ev (run ev x0 ops1) (ORecv d))) = [].
Proof.
  intros S ev i s ops r q m Hi x0 Hq Hm.
  assert (I0 : IInv (snd x0)) by (apply inv_new; destruct Hi as [->| ->]; reflexivity).
  destruct (provenance ev x0 ops I0 eq_refl r q Hq) as [P _]. destruct (P m Hm) as (ops1 & d & ops2 & E & [C W] & Cm & O).
  exists ops1, d, ops2. split; [exact E|]. split; [|apply carries_iff in C; auto].
  destruct (n_w _ (inv_run ev ops1 x0 I0) _ _ W) as (q1 & A & B & _). eauto.
Qed.
Print Assumptions C37_completes_with_own_identifier.

(** C37.  The calls of one interface have distinct identifiers. *)
Theorem C37_calls_distinct :
  forall (S : Type) (ev : string -> option (target S)) i s ops,
    two_scaled i -> NoDup (map rq_id (i_reqs (snd (run ev (s, i_new i) ops)))).
Proof. intros. apply reach_inv. assumption. Qed.
Print Assumptions C37_calls_distinct.

(** C37.  A received message changes at most one call, which carries the same
    identifier and was waiting, and if it does so nothing is sent back. *)
Theorem C37_one_response_one_call :
  forall (S : Type) (ev : string -> option (target S)) i s ops d,
    two_scaled i ->
    let x := run ev (s, i_new i) ops in
    let x' := step_st ev x (ORecv d) in
    let out := snd (fst (step ev x (ORecv d))) in
    i_reqs (snd x') = i_reqs (snd x) \/
    exists r z, nth_error (i_reqs (snd x)) r = Some (mkReq z Waiting) /\ carries d z /\ out = [] /\
      nth_error (i_reqs (snd x')) r = Some (mkReq z Ready) /\
      forall r', r' <> r -> nth_error (i_reqs (snd x')) r' = nth_error (i_reqs (snd x)) r'.
Proof.
  intros S ev i s ops d Hi x x' out. pose proof (reach_inv ev i s ops Hi) as I. fold x in I.
  pose proof (step_eff ev x (ORecv d)) as Eff. fold out x' in Eff.
  clearbody out x'. inversion Eff; subst; [left; assumption|].
  match goal with H : matches _ _ ?a ?b |- _ => destruct H as [C W]; rename a into z; rename b into r end.
  destruct (n_w _ I z r W) as (q & A & B & St). destruct q as [qi qs]. cbn in B. subst qi. cbn in St.
  match goal with H : i_reqs (snd x') = i_reqs (set_event _ _) |- _ => rename H into E end.
  unfold set_event in E. rewrite A in E. destruct St as [->|[->| ->]]; auto.
  right. rewrite (status_reqs _ _ _ _ A) in E. cbn [i_reqs rq_id] in E. exists r, z.
  split; [exact A|]. split; [apply carries_iff; exact C|]. split; [reflexivity|]. rewrite E. split; [apply (set_nth_eq _ _ _ _ A)|].
  intros r' Hr. apply set_nth_ne. auto.
Qed.
Print Assumptions C37_one_response_one_call.

(** C37.  A handled message with the identifier of a waiting call does complete
    it: once the call resumes it returns the message's content. *)
Theorem C37_response_completes_call :
  forall (S : Type) (ev : string -> option (target S)) i s ops d r z x' out,
    two_scaled i ->
    let x := run ev (s, i_new i) ops in
    nth_error (i_reqs (snd x)) r = Some (mkReq z Waiting) -> carries d z ->
    step ev x (ORecv d) = (x', out, true) ->
    out = [] /\ exists m, content_of m d /\
      nth_error (i_reqs (snd (step_st ev x' (OWake r)))) r = Some (mkReq z (Done m)).
Proof.
  intros S ev i s ops d r z x' out Hi x Hr Hc Hs. pose proof (reach_inv ev i s ops Hi) as I. fold x in I.
  assert (W : dget z (i_waiting (snd x)) = Some r) by (pose proof (n_q _ I _ _ Hr) as Q; exact Q).
  apply carries_iff in Hc.
  assert (Mt : matches (snd x) d z r) by (split; assumption).
  assert (Uniq : forall z' r', matches (snd x) d z' r' -> z' = z /\ r' = r).
  { intros z' r' [(j & A & B) C]. destruct Hc as (j' & A' & B'). rewrite A in A'. injection A' as ->.
    rewrite B in B'. injection B' as ->. rewrite W in C. injection C as ->. auto. }
  clearbody x. destruct x as [s1 st]. cbn [step] in Hs. cbn [snd] in *.
  destruct (process_json ev s1 st d) as [[[s' st'] out'] ok'] eqn:P. injection Hs as <- -> ->.
  unfold process_json in P. destruct (collect ev d) as [[ts ig]|]; [|discriminate].
  destruct (gather s1 ts) as [s2 [subs|]]; [|discriminate].
  destruct (handle_reserved st d (answer subs ig)) as [st1 o] eqn:HR.
  apply reserved_cases in HR as [_ [(_ & _ & _ & NM & _)|(z' & r' & m & Mt' & Cm & _ & R & Q & Ho)]]; [destruct (NM z r Mt)|].
  destruct (Uniq _ _ Mt') as [-> ->]. destruct Ho as [->|(resp & ->)]; [discriminate|]. injection P as -> -> <-.
  split; [reflexivity|]. exists m. split; [exact Cm|]. unfold step_st. cbn [step fst snd].
  assert (N1 : nth_error (i_reqs st') r = Some (mkReq z Ready)).
  { rewrite Q. unfold set_event. rewrite Hr. rewrite (status_reqs _ _ _ _ Hr). apply (set_nth_eq _ _ _ _ Hr). }
  unfold wake. rewrite N1, R, dget_dset_eq. erewrite status_reqs by exact N1. apply (set_nth_eq _ _ _ _ N1).
Qed.
Print Assumptions C37_response_completes_call.

(** C37.  Two connected peers that exchange requests with any handlers: what a
    call returns is the content of the message the other side sent when it
    processed that very request. *)
Theorem C37_two_peers :
  forall (S : Type) (ev : side -> string -> option (target S)) s0 h w r q m,
    no_sends h ->
    nth_error (i_reqs (snd (sy_if (sys_run ev (sys_new s0) h) w))) r = Some q -> rq_st q = Done m ->
    returned ev (sys_new s0) h w (rq_id q) m.
Proof. intros S ev s0 h w r q m NS. apply (two_peer_prov ev s0 h NS w). Qed.
Print Assumptions C37_two_peers.

Definition no_meta : side -> msg := fun _ => [].
Definition std (w : side) := std_eval (no_meta w).
Definition std_new := sys_new (S := option msg) (fun _ => None).

(** A request is sent, processed, answered, and the answer returned. *)
Definition ping : list sev := [EvWait SA [("loopback", JObj [("a", JInt 1)])] false; EvDeliver SB; EvDeliver SA; EvWake SA 0].
Example ping_example :
  i_reqs (snd (sy_if (sys_run std std_new ping) SA)) = [mkReq 1 (Done [("loopback", JObj [("a", JInt 1)])])] /\
  no_sends ping /\ deliveries std std_new ping = 2%nat.
Proof.
  split; [vm_compute; reflexivity|]. split; [|vm_compute; reflexivity].
  intros w d f H. cbn in H. intuition discriminate.
Qed.

(** C37 fails between peers whose identifiers coincide: a request of the peer is
    taken for the response to one's own, which returns the peer's request, and
    that request is never answered. *)
Theorem C37_unoffset_peers_refuted :
  let ask := [("loopback", JObj [("from", JStr "peer")])] in
  let x1 := run (std SA) (None, i_new id_new) [OWait [("meta", JNull)] false] in
  let peer := step (std SB) (None, i_new id_new) (OWait ask false) in
  exists m, snd (fst peer) = [m] /\
    step (std SA) x1 (ORecv m) = (step_st (std SA) x1 (ORecv m), [], true) /\
    i_reqs (snd (run (std SA) x1 [ORecv m; OWake 0])) = [mkReq 1 (Done ask)] /\
    i_reqs (snd (fst (fst peer))) = [mkReq 1 Waiting].
Proof. eexists. split; [vm_compute; reflexivity|]. vm_compute. repeat split. Qed.
Print Assumptions C37_unoffset_peers_refuted.

(** ** C38 *)

Lemma in_flight_phi (S : Type) (ok0 : msg -> Prop) cost0 (pot : S -> nat) (y : @sys S) :
  (forall d, ok0 d -> (1 <= cost0 d)%nat) -> SInv ok0 y -> (in_flight y <= Phi cost0 pot y)%nat.
Proof.
  intros T [IA IB]. unfold in_flight, Phi.
  assert (X : forall w (l : list msg), (forall m, In m l -> (exists z, dget k_id m = Some (JInt z)) \/ ok0 m) ->
            (List.length l <= wts cost0 w l)%nat).
  { intros w l. induction l as [|m l IH]; intros H; [cbn; lia|]. unfold wts in *. cbn [map list_sum fold_right List.length].
    assert (1 <= wt cost0 w m)%nat.
    { unfold wt. destruct (H m (or_introl eq_refl)) as [[z ->]|O]; [destruct (Bool.eqb _ _); lia|].
      pose proof (T m O). destruct (dget k_id m) as [[]|]; try lia. destruct (Bool.eqb _ _); lia. }
    specialize (IH (fun m' Hm => H m' (or_intror Hm))). unfold list_sum in *. cbn. lia. }
  pose proof (X SA _ (si_msg _ _ _ IA)). pose proof (X SB _ (si_msg _ _ _ IB)). lia.
Qed.

(** C38.  Two connected peers with any handlers that only make requests: the
    messages ever processed plus those still under way are at most two per
    request, so a history can deliver no more than that. *)
Theorem C38_requests_bounded :
  forall (S : Type) (ev : side -> string -> option (target S)) s0 h,
    no_sends h ->
    (deliveries ev (sys_new s0) h + in_flight (sys_run ev (sys_new s0) h) <= 2 * waits h)%nat.
Proof.
  intros S ev s0 h NS.
  destruct (sys_run_inv ev _ _ _ (any_tame ev) h (sys_new s0)) as [I C].
  - intros e He. destruct e; cbn; auto. apply (NS w d fail He).
  - apply SInv_new.
  - assert (F := in_flight_phi S (fun _ => False) (fun _ => 1%nat) (fun _ => O) _ (fun d (H : False) => match H with end) I).
    assert (list_sum (map (ecost (fun _ => 1%nat)) h) = 2 * waits h)%nat as E.
    { clear - NS. unfold waits. induction h as [|e h IH]; [reflexivity|].
      assert (no_sends h) as N by (intros w d f H; apply (NS w d f); right; exact H).
      specialize (IH N). unfold list_sum in *. cbn [map fold_right filter].
      destruct e; cbn [ecost is_wait List.length]; try lia. exfalso. apply (NS w d fail). left. reflexivity. }
    rewrite E in C. assert (Phi (fun _ => 1%nat) (fun _ : S => O) (sys_new s0) = O) by reflexivity. lia.
Qed.
Print Assumptions C38_requests_bounded.

(** C38.  With the standard handlers (loopback, meta, poll) messages sent
    without waiting are bounded too, as long as they carry no identifier and no
    loopback command: each causes at most one message per unit of its poll
    count, plus one for unknown keys. *)
Theorem C38_standard_handlers :
  forall meta h,
    plain_sends h ->
    let ev := fun w => std_eval (meta w) in
    let y0 := sys_new (fun _ => None) in
    (deliveries ev y0 h + in_flight (sys_run ev y0 h) <= 2 * waits h + send_cost h + 2)%nat.
Proof.
  intros meta h PS ev y0.
  destruct (sys_run_inv ev _ _ _ (std_tame meta) h y0) as [I C].
  - intros e He. destruct e; cbn; auto. apply (PS w d fail He).
  - apply SInv_new.
  - assert (F := in_flight_phi _ plain cost mpot _ (fun d _ => le_n_S 0 (polls d + unknown d) (Nat.le_0_l _)) I).
    assert (list_sum (map (ecost cost) h) = 2 * waits h + send_cost h)%nat as E.
    { clear. unfold waits. induction h as [|e h IH]; [reflexivity|].
      unfold list_sum in *. cbn [map fold_right filter].
      destruct e; cbn [ecost is_wait List.length send_cost]; lia. }
    rewrite E in C. assert (Phi cost mpot y0 = 2%nat) by reflexivity. lia.
Qed.
Print Assumptions C38_standard_handlers.

Lemma sys_run_app {S} (ev : side -> string -> option (target S)) y a b : sys_run ev y (a ++ b) = sys_run ev (sys_run ev y a) b.
Proof. unfold sys_run. apply fold_left_app. Qed.
Lemma deliveries_app {S} (ev : side -> string -> option (target S)) a : forall y b,
  deliveries ev y (a ++ b) = (deliveries ev y a + deliveries ev (sys_run ev y a) b)%nat.
Proof.
  induction a as [|e a IH]; intros y b; [reflexivity|]. cbn [app deliveries]. rewrite IH. unfold sys_run. cbn [fold_left]. lia.
Qed.
Lemma sys_ext_if {S} (ev : side -> string -> option (target S)) y h e : sys_run ev y (e :: h) = sys_run ev (sys_step ev y e) h.
Proof. reflexivity. Qed.

(** The bound is met: a poll with loopback count [n] takes [n + 1] messages. *)
Definition bounce (n : nat) (w : side) : list sev :=
  snd (Nat.iter n (fun p => (other (fst p), snd p ++ [EvDeliver (fst p)])) (w, [])).
Definition poll_msg (n : nat) : msg := [("poll", JObj [("loopback", JInt (Z.of_nat n))])].

Lemma poll_step n : forall (y : @sys (option msg)) w,
  (forall v, i_logs (snd (sy_if y v)) = []) -> sy_in y w = [poll_msg n] -> sy_in y (other w) = [] ->
  let y' := sys_step std y (EvDeliver w) in
  (forall v, i_logs (snd (sy_if y' v)) = []) /\ sy_in y' w = [] /\
  sy_in y' (other w) = match n with O => [] | Datatypes.S k => [poll_msg k] end.
Proof.
  intros y w L H1 H2 y'. unfold y'. cbn [sys_step]. rewrite H1.
  set (y1 := mkSys (sy_if y) (fupd (sy_in y) w [])).
  destruct (sy_if y w) as [s st] eqn:E.
  assert (Ls : i_logs st = []) by (specialize (L w); rewrite E in L; exact L).
  assert (Es : step (std w) (sy_if y1 w) (ORecv (poll_msg n)) =
            ((s, st), match n with O => [] | Datatypes.S k => [poll_msg k] end, true)).
  { cbn [y1 sy_if]. rewrite E. unfold step, process_json, poll_msg.
    cbn [collect std std_eval]. unfold std, std_eval. cbn -[Z.sub]. destruct n as [|k].
    - cbn. destruct st; reflexivity.
    - unfold handle_reserved. cbn -[Z.sub]. unfold send_json. rewrite Ls. cbn -[Z.sub].
      replace (Z.pos (Pos.of_succ_nat k) - 1) with (Z.of_nat k) by lia. destruct st; reflexivity. }
  destruct (local_fields std y1 w _ _ _ _ Es) as (F1 & F2 & F3 & F4). cbn [y1 sy_if sy_in] in F2, F3, F4.
  rewrite fupd_eq in F3. rewrite fupd_other, H2 in F4. split; [|split; [exact F3|exact F4]].
  intros v. destruct (side_cases v w) as [->| ->]; [rewrite F1; exact Ls|rewrite F2; apply L].
Qed.

Theorem C38_poll_takes_n_plus_one : forall n,
  let h := EvSend SA (poll_msg n) false :: bounce (n + 1) SB in
  deliveries std std_new h = (n + 1)%nat /\ in_flight (sys_run std std_new h) = O /\ plain_sends h.
Proof.
  intros n h.
  assert (B : forall n w (y : @sys (option msg)),
            (forall v, i_logs (snd (sy_if y v)) = []) -> sy_in y w = [poll_msg n] -> sy_in y (other w) = [] ->
            deliveries std y (bounce (n + 1) w) = (n + 1)%nat /\ in_flight (sys_run std y (bounce (n + 1) w)) = O).
  { assert (Sh : forall n w, bounce (Datatypes.S n) w = EvDeliver w :: bounce n (other w)).
    { intros k w. unfold bounce.
      assert (G : forall k w, fst (Nat.iter k (fun p => (other (fst p), snd p ++ [EvDeliver (fst p)])) (w, [])) =
                       fst (Nat.iter k (fun p => (other (fst p), snd p ++ [EvDeliver (fst p)])) (w, @nil sev)))
        by reflexivity. clear G.
      assert (X : forall k w, Nat.iter (Datatypes.S k) (fun p => (other (fst p), snd p ++ [EvDeliver (fst p)])) (w, []) =
                (let p := Nat.iter k (fun p => (other (fst p), snd p ++ [EvDeliver (fst p)])) (other w, []) in
                 (fst p, EvDeliver w :: snd p))).
      { clear. induction k as [|k IH]; intros w; [reflexivity|].
        change (Nat.iter (Datatypes.S (Datatypes.S k)) ?f ?a) with (f (Nat.iter (Datatypes.S k) f a)).
        rewrite IH. reflexivity. }
      rewrite X. reflexivity. }
    intros k. induction k as [|k IH]; intros w y L H1 H2.
    - cbn [Nat.add]. rewrite Sh. destruct (poll_step 0 y w L H1 H2) as (A & C & D).
      cbn [deliveries]. rewrite H1. split; [reflexivity|]. rewrite sys_ext_if. change (bounce 0 (other w)) with (@nil sev). unfold sys_run. cbn [fold_left].
      unfold in_flight. destruct w; cbn [other] in D; rewrite C, D; reflexivity.
    - cbn [Nat.add]. rewrite Sh. destruct (poll_step (Datatypes.S k) y w L H1 H2) as (A & C & D).
      destruct (IH (other w) (sys_step std y (EvDeliver w)) A D) as [P Q]; [rewrite other_other; exact C|].
      cbn [deliveries]. rewrite H1, sys_ext_if, P. split; [reflexivity|exact Q]. }
  assert (E1 : forall v, i_logs (snd (sy_if (sys_step std std_new (EvSend SA (poll_msg n) false)) v)) = []).
  { intros v. destruct v; reflexivity. }
  destruct (B n SB (sys_step std std_new (EvSend SA (poll_msg n) false)) E1 eq_refl eq_refl) as [P Q].
  split; [exact P|]. split; [exact Q|].
  intros w d f H. destruct H as [H|H]; [injection H as <- <- <-; split; reflexivity|].
  exfalso. clear -H. unfold bounce in H.
  assert (X : forall k p, (forall e, In e (snd p) -> exists w, e = EvDeliver w) ->
            forall e, In e (snd (Nat.iter k (fun p => (other (fst p), snd p ++ [EvDeliver (fst p)])) p)) -> exists w, e = EvDeliver w).
  { clear. induction k as [|k IH]; intros p Hp e He; [apply Hp; exact He|].
    change (Nat.iter (Datatypes.S k) ?f p) with (f (Nat.iter k f p)) in He. cbn [snd] in He.
    apply in_app_iff in He as [He|[<-|[]]]; [apply (IH p Hp e He)|eauto]. }
  destruct (X (n + 1)%nat (SB, []) (fun e (F : In e []) => match F with end) _ H) as [v E]. discriminate.
Qed.
Print Assumptions C38_poll_takes_n_plus_one.

(** A message for which processing at either end sends the same message back. *)
Lemma echo_forever (m : msg) :
  (forall w (x : option msg * iface), i_logs (snd x) = [] -> (forall z, dget z (i_waiting (snd x)) = None) ->
     step (std w) x (ORecv m) = (x, [m], true)) ->
  forall n w (y : @sys (option msg)),
    (forall v, i_logs (snd (sy_if y v)) = []) -> (forall v z, dget z (i_waiting (snd (sy_if y v))) = None) ->
    sy_in y w = [m] -> sy_in y (other w) = [] ->
    deliveries std y (bounce n w) = n.
Proof.
  intros Em n. induction n as [|n IH]; intros w y L W H1 H2; [reflexivity|].
  assert (Sh : bounce (Datatypes.S n) w = EvDeliver w :: bounce n (other w)).
  { unfold bounce.
    assert (X : forall k w, Nat.iter (Datatypes.S k) (fun p => (other (fst p), snd p ++ [EvDeliver (fst p)])) (w, []) =
              (let p := Nat.iter k (fun p => (other (fst p), snd p ++ [EvDeliver (fst p)])) (other w, []) in
               (fst p, EvDeliver w :: snd p))).
    { clear. induction k as [|k IH]; intros w; [reflexivity|].
      change (Nat.iter (Datatypes.S (Datatypes.S k)) ?f ?a) with (f (Nat.iter (Datatypes.S k) f a)).
      rewrite IH. reflexivity. }
    rewrite X. reflexivity. }
  rewrite Sh. cbn [deliveries]. rewrite H1. cbn [sys_step]. rewrite H1.
  set (y1 := mkSys (sy_if y) (fupd (sy_in y) w [])).
  destruct (local_fields std y1 w _ _ _ _ (Em w (sy_if y w) (L w) (W w))) as (F1 & F2 & F3 & F4).
  cbn [y1 sy_if sy_in] in F1, F2, F3, F4. rewrite fupd_eq in F3. rewrite fupd_other, H2 in F4.
  rewrite IH; [reflexivity| | |exact F4|rewrite other_other; exact F3].
  - intros v. destruct (side_cases v w) as [->| ->]; [rewrite F1|rewrite F2]; apply L.
  - intros v z. destruct (side_cases v w) as [->| ->]; [rewrite F1|rewrite F2]; apply W.
Qed.

Lemma same_iface st : mkIface (i_ident st) (i_waiting st) (i_resp st) (i_logs st) (i_seen st) (i_reqs st) = st.
Proof. destruct st; reflexivity. Qed.

(** C38 is false for a loopback command that is sent rather than requested:
    the two peers echo it for ever. *)
Theorem C38_loopback_send_refuted : forall n,
  let m := [("loopback", JObj [("a", JInt 1)])] in
  deliveries std std_new (EvSend SA m false :: bounce n SB) = n.
Proof.
  intros n m. cbn [deliveries]. apply (echo_forever m).
  - intros w [s st] L W. cbn [snd] in *. unfold step, process_json, m, std. cbn. unfold send_json. rewrite L. destruct st; reflexivity.
  - intros v. destruct v; reflexivity.
  - intros v z. destruct v; reflexivity.
  - reflexivity.
  - reflexivity.
Qed.
Print Assumptions C38_loopback_send_refuted.

(** C38 is false when a response is duplicated on the way (for example a UDP
    connection, or a caller that replays it): the duplicate is answered, the
    answer is answered, and so on for ever. *)
Theorem C38_duplicated_response_refuted : forall n,
  let y := sys_run std std_new ping in
  let rsp := [("loopback", JObj [("a", JInt 1)]); ("__id__", JInt 1)] in
  emitted std (sys_run std std_new [EvWait SA [("loopback", JObj [("a", JInt 1)])] false]) (EvDeliver SB) = [rsp] /\
  in_flight y = O /\
  deliveries std (mkSys (sy_if y) (fupd (sy_in y) SA [rsp])) (bounce n SA) = n.
Proof.
  intros n y rsp. split; [vm_compute; reflexivity|]. split; [vm_compute; reflexivity|].
  apply (echo_forever rsp).
  - intros w [s st] L W. cbn [snd] in *. unfold step, process_json, rsp, std. cbn [std_eval collect]. cbn.
    unfold handle_reserved. cbn [dget eq_dec k_id]. cbn. rewrite W. cbn. unfold send_json. rewrite L. destruct st; reflexivity.
  - intros v. destruct v; vm_compute; reflexivity.
  - intros v z. destruct v; vm_compute; reflexivity.
  - reflexivity.
  - reflexivity.
Qed.
Print Assumptions C38_duplicated_response_refuted.

(** ** C39 *)

(** C39.  In every history the two tables together hold exactly one entry per
    call that has not returned a message; a call that returned has none. *)
Theorem C39_exact_partial :
  forall (S : Type) (ev : string -> option (target S)) i s ops,
    two_scaled i ->
    let st := snd (run ev (s, i_new i) ops) in
    (List.length (i_waiting st) + List.length (i_resp st) =
       List.length (filter (fun q => negb (completed q)) (i_reqs st)))%nat /\
    (forall r q, nth_error (i_reqs st) r = Some q ->
       (completed q = true <-> dget (rq_id q) (i_waiting st) = None /\ dget (rq_id q) (i_resp st) = None)) /\
    (forall z, dget z (i_waiting st) <> None \/ dget z (i_resp st) <> None -> exists q, In q (i_reqs st) /\ rq_id q = z).
Proof.
  intros S ev i s ops Hi st. pose proof (reach_inv ev i s ops Hi) as I. fold st in I.
  split; [apply I|]. split.
  - intros r q Hq. pose proof (n_q _ I r q Hq) as Q. unfold completed. destruct (rq_st q); split; try tauto; try discriminate; try congruence;
      intros [A B]; try congruence; try (destruct Q; congruence).
  - intros z [H|H].
    + destruct (dget z (i_waiting st)) as [r|] eqn:E; [|congruence]. destruct (n_w _ I z r E) as (q & A & B & _).
      exists q. split; [eapply nth_error_In; eauto|exact B].
    + destruct (dget z (i_resp st)) as [m|] eqn:E; [|congruence]. destruct (n_r _ I z m E) as (_ & r & q & A & B & _).
      exists q. split; [eapply nth_error_In; eauto|exact B].
Qed.
Print Assumptions C39_exact_partial.

(** C39 is false for calls that time out: each leaves an entry for ever; if its
    response arrives late, the whole response is kept instead. *)
Theorem C39_timeouts_leak_refuted : forall n,
  let ops k := [OWait [] false; OTimeout k] in
  let st := snd (run (std SA) (None, i_new id_new) (List.concat (map ops (seq 0 n)))) in
  i_reqs st = map (fun k => mkReq (1 + 2 * Z.of_nat k) TimedOut) (seq 0 n) /\
  List.length (i_waiting st) = n /\
  let late := map (fun k => ORecv [("__id__", JInt (1 + 2 * Z.of_nat k)); ("big", JNull)]) (seq 0 n) in
  let st' := snd (run (std SA) (None, i_new id_new) (List.concat (map ops (seq 0 n)) ++ late)) in
  i_resp st' = map (fun k => (1 + 2 * Z.of_nat k, [("big", JNull)])) (seq 0 n).
Proof.
  intros n ops st.
  set (rq := fun k => mkReq (1 + 2 * Z.of_nat k) TimedOut).
  set (wt := fun k => (1 + 2 * Z.of_nat k, k)).
  assert (WN : forall n z, 1 + 2 * Z.of_nat n <= z -> dget z (map wt (seq 0 n)) = None).
  { intros k z Hz. apply dget_None_notin. unfold dkeys. rewrite map_map. intros H. apply in_map_iff in H as (j & E & H).
    apply in_seq in H. unfold wt in E. cbn [fst] in E. lia. }
  assert (E : forall n, run (std SA) (None, i_new id_new) (List.concat (map ops (seq 0 n))) =
            (None, mkIface (mkIdent (1 + 2 * Z.of_nat n) 2) (map wt (seq 0 n)) [] [] [] (map rq (seq 0 n)))).
  { clear n st. induction n as [|n IH]; [reflexivity|].
    rewrite seq_S, map_app, concat_app, run_app, IH. cbn [List.concat map app Nat.add]. rewrite app_nil_r.
    unfold run, ops. cbn [fold_left]. unfold step_st at 2. cbn [step]. unfold wait_json. cbn [dmem dget id_next i_ident id_cur id_scale].
    cbn [i_waiting]. assert (dmem (1 + 2 * Z.of_nat n) (map wt (seq 0 n)) = false) as -> by (apply dmem_false; apply WN; lia).
    cbn [i_reqs i_logs i_ident i_resp i_seen]. unfold send_json. cbn [i_logs fst].
    rewrite map_length, seq_length. unfold step_st. cbn [step fst].
    unfold time_out. cbn [i_reqs].
    assert (nth_error (map rq (seq 0 n) ++ [mkReq (1 + 2 * Z.of_nat n) Waiting]) n = Some (mkReq (1 + 2 * Z.of_nat n) Waiting)) as N.
    { rewrite nth_error_app2 by (rewrite map_length, seq_length; lia). rewrite map_length, seq_length, Nat.sub_diag. reflexivity. }
    rewrite N. erewrite status_reqs by exact N. cbn [i_ident i_waiting i_resp i_logs i_seen i_reqs rq_id].
    f_equal. rewrite map_app. cbn [map]. f_equal; [f_equal; lia| |].
    - rewrite dset_notin by (apply WN; lia). rewrite ?map_app. reflexivity.
    - assert (X : forall (l : list request) a b, set_nth (l ++ [a]) (List.length l) b = l ++ [b])
        by (induction l as [|c l IHl]; intros a b; cbn; [reflexivity|f_equal; apply IHl]).
      specialize (X (map rq (seq 0 n)) (mkReq (1 + 2 * Z.of_nat n) Waiting) (rq n)). rewrite map_length, seq_length in X. rewrite map_app. exact X. }
  unfold st. rewrite E. cbn [snd i_reqs i_waiting]. split; [reflexivity|]. split; [rewrite map_length, seq_length; reflexivity|].
  cbv zeta. rewrite run_app, E.
  assert (L : forall j k rs sn, (forall z, 1 + 2 * Z.of_nat k <= z -> dget z rs = None) ->
            (forall i, (i < k + j)%nat -> nth_error (map rq (seq 0 n)) i = Some (rq i)) ->
            i_resp (snd (run (std SA) (None, mkIface (mkIdent (1 + 2 * Z.of_nat n) 2) (map wt (seq k j)) rs [] sn (map rq (seq 0 n)))
              (map (fun k => ORecv [("__id__", JInt (1 + 2 * Z.of_nat k)); ("big", JNull)]) (seq k j)))) =
            rs ++ map (fun k => (1 + 2 * Z.of_nat k, [("big", JNull)])) (seq k j)).
  { induction j as [|j IH]; intros k rs sn Hrs Hn; [cbn; rewrite app_nil_r; reflexivity|].
    cbn [seq map]. unfold run. cbn [fold_left].
    assert (step_st (std SA) (None, mkIface (mkIdent (1 + 2 * Z.of_nat n) 2) (wt k :: map wt (seq (Datatypes.S k) j)) rs [] sn (map rq (seq 0 n)))
              (ORecv [("__id__", JInt (1 + 2 * Z.of_nat k)); ("big", JNull)]) =
            (None, mkIface (mkIdent (1 + 2 * Z.of_nat n) 2) (map wt (seq (Datatypes.S k) j))
                      (rs ++ [(1 + 2 * Z.of_nat k, [("big", JNull)])]) [] sn (map rq (seq 0 n)))) as ->.
    { unfold step_st, step, process_json, std. cbn [collect std_eval]. cbn -[Z.mul Z.add handle_reserved].
      unfold handle_reserved. cbn -[Z.mul Z.add].
      destruct (eq_dec (1 + 2 * Z.of_nat k) (1 + 2 * Z.of_nat k)) as [_|X]; [|congruence].
      cbn -[Z.mul Z.add].
      assert (ddel (1 + 2 * Z.of_nat k) (map wt (seq (Datatypes.S k) j)) = map wt (seq (Datatypes.S k) j)) as D.
      { apply ddel_notin. apply dget_None_notin. unfold dkeys. rewrite map_map. intros H. apply in_map_iff in H as (i & Ei & H).
        apply in_seq in H. unfold wt in Ei. cbn [fst] in Ei. lia. }
      rewrite D. rewrite (dset_notin _ _ rs) by (apply Hrs; lia).
      unfold set_event. cbn [i_reqs]. rewrite (Hn k) by lia. unfold rq at 1. cbv iota.
      destruct (eq_dec (1 + 2 * Z.of_nat k) (1 + 2 * Z.of_nat k)) as [_|X]; [|congruence]. reflexivity. }
    fold (run (std SA) (None, mkIface (mkIdent (1 + 2 * Z.of_nat n) 2) (map wt (seq (Datatypes.S k) j))
                      (rs ++ [(1 + 2 * Z.of_nat k, [("big", JNull)])]) [] sn (map rq (seq 0 n)))
                 (map (fun k => ORecv [("__id__", JInt (1 + 2 * Z.of_nat k)); ("big", JNull)]) (seq (Datatypes.S k) j))).
    rewrite IH.
    - rewrite <- app_assoc. reflexivity.
    - intros z Hz. rewrite dget_app, Hrs by lia. cbn -[Z.mul Z.add]. destruct (eq_dec z (1 + 2 * Z.of_nat k)); [lia|reflexivity].
    - intros i' Hi. apply Hn. lia. }
  rewrite (L n 0%nat [] []); [reflexivity|intros; reflexivity|].
  intros i Hi. rewrite (map_nth_error rq i (seq 0 n) (d := i)); [reflexivity|].
  rewrite nth_error_nth' with (d := 0%nat) by (rewrite seq_length; lia). rewrite seq_nth by lia. reflexivity.
Qed.
Print Assumptions C39_timeouts_leak_refuted.

(** A call whose message cannot be written leaves its entry as well. *)
Example failed_write_leaks :
  let st := snd (run (std SA) (None, i_new id_new) [OWait [] true]) in
  i_reqs st = [mkReq 1 Failed] /\ i_waiting st = [(1, 0%nat)].
Proof. vm_compute. split; reflexivity. Qed.

(** A history with a completed, a timed-out and a pending call. *)
Example mixed_history :
  let st := snd (run (std SA) (None, i_new id_new)
                   [OWait [] false; OWait [] false; OWait [] false; ORecv [("__id__", JInt 3)]; OTimeout 0; OWake 1]) in
  i_reqs st = [mkReq 1 TimedOut; mkReq 3 (Done []); mkReq 5 Waiting] /\
  i_waiting st = [(1, 0%nat); (5, 2%nat)] /\ i_resp st = [].
Proof. vm_compute. repeat split. Qed.

(** ** C54 *)

(** C54.  As long as every write succeeds and callers leave the reserved key
    alone, the entries staged for the remote log leave exactly once and in
    order: what was sent followed by what is still staged is what was staged. *)
Theorem C54_logs_leave_once_partial :
  forall (S : Type) (ev : string -> option (target S)) i s ops,
    (forall k t, ev k = Some t -> t_key t <> k_log) -> clean ops ->
    let x0 := (s, i_new i) in
    List.concat (map logs_in (sent ev x0 ops)) ++ i_logs (snd (run ev x0 ops)) = staged ops.
Proof. intros S ev i s ops NK C x0. apply (run_logs ev NK ops x0 C). Qed.
Print Assumptions C54_logs_leave_once_partial.

(** C54.  The receiving side passes the entries of every message it handles to
    its logger, once and in order. *)
Theorem C54_logs_arrive :
  forall (S : Type) (ev : string -> option (target S)) s st d x' out,
    step ev (s, st) (ORecv d) = (x', out, true) -> i_seen (snd x') = i_seen st ++ logs_in d.
Proof. intros S ev s st d x' out H. exact (recv_logs ev s st d x' out H). Qed.
Print Assumptions C54_logs_arrive.

Example logs_example :
  let e1 := JObj [("msg", JStr "one"); ("level", JInt 20)] in
  let e2 := JObj [("msg", JStr "two"); ("level", JInt 20)] in
  let ops := [OLog e1; OLog e2; OSend [("meta", JNull)] false; OLog e1] in
  clean ops /\ (forall k t, std SA k = Some t -> t_key t <> k_log) /\
  sent (std SA) (None, i_new id_new) ops = [[("meta", JNull); ("__log_messages__", JArr [e1; e2])]].
Proof.
  split; [|split; [|vm_compute; reflexivity]].
  - intros d f H. cbn in H. destruct H as [H|H]; repeat (destruct H as [H|H]; [try discriminate; injection H as <- <-; split; reflexivity|]); destruct H.
  - intros k t. unfold std, std_eval. destruct (eq_dec k "loopback"); [intros H; injection H as <-; discriminate|].
    destruct (eq_dec k "meta"); [intros H; injection H as <-; discriminate|].
    destruct (eq_dec k "poll"); [intros H; injection H as <-; discriminate|discriminate].
Qed.

(** C54 is false when a write fails: the entries are gone. *)
Theorem C54_failed_write_refuted :
  let e1 := JObj [("msg", JStr "one"); ("level", JInt 20)] in
  let ops := [OLog e1; OSend [("meta", JNull)] true; OSend [("meta", JNull)] false] in
  staged ops = [e1] /\ List.concat (map logs_in (sent (std SA) (None, i_new id_new) ops)) = [] /\
  i_logs (snd (run (std SA) (None, i_new id_new) ops)) = [].
Proof. vm_compute. repeat split. Qed.
Print Assumptions C54_failed_write_refuted.

(** ** C55: what a peer answers *)

(** A handled message that answers none of our own requests is answered with at
    most one message: it carries the identifier of the message it answers, each
    handler's result under the handler's key, the sorted list of the keys that
    have no handler, and nothing else. *)
Theorem C55_answer : forall S (ev : string -> option (target S)) s st d s' st' out,
  (forall k t, ev k = Some t -> t_key t = k /\ reserved k = false) ->
  NoDup (dkeys d) -> not_a_response st d ->
  step ev (s, st) (ORecv d) = ((s', st'), out, true) ->
  (out = [] \/ exists m, out = [m]) /\
  (forall j, dget k_id d = Some j -> exists m, out = [m] /\ dget k_id m = Some j) /\
  (forall k j t, dget k d = Some j -> ev k = Some t -> exists ib s1 s2 b,
     t_prep t j = Some ib /\ t_run t s1 ib = (s2, Some b) /\
     (b <> [] -> exists m, out = [m] /\ dget k m = Some (JObj b)) /\ (b = [] -> forall m, In m out -> dget k m = None)) /\
  (exists l, Permutation l (filter (fun k => negb (handled ev k)) (dkeys d)) /\ sorted_strings l /\
     (l <> [] -> exists m, out = [m] /\ dget k_ignored m = Some (JArr (map JStr l))) /\
     (l = [] -> forall m, In m out -> dget k_ignored m = None)) /\
  (forall m k v, In m out -> dget k m = Some v ->
     (k = k_id /\ dget k_id d <> None) \/ k = k_ignored \/ k = k_log \/ (ev k <> None /\ dget k d <> None)) /\
  (out <> [] -> dget k_id d <> None \/ exists k, In k (dkeys d) /\ reserved k = false).
Proof.
  intros S ev s st d s' st' out OK N NR H. cbn [step] in H.
  destruct (process_json ev s st d) as [[[s0 st0] o0] ok] eqn:P. injection H as -> -> -> ->.
  destruct (process_answer ev s st d s' st' out N NR P) as (ts & ig & s1 & subs & a & Hc & Hg & A1 & A2 & Ho).
  destruct (subs_facts ev OK s d ts ig s1 subs N Hc Hg) as (NS & Hig & F1 & F2).
  assert (Ga : forall k, k <> k_id -> dget k a = dget k (answer subs ig)).
  { intros k Hk. destruct (dget k_id d) as [j|] eqn:E; [rewrite (A2 j eq_refl), dget_dset_ne by exact Hk; reflexivity|].
    rewrite (A1 eq_refl). reflexivity. }
  (* a value in the answer is in the message sent *)
  assert (Up : forall k v, k <> k_log -> dget k a = Some v -> exists m, out = [m] /\ dget k m = Some v).
  { intros k v Hk E. destruct Ho as [[-> _]|[_ (m & -> & Hm)]]; [discriminate|]. exists m. split; [reflexivity|]. rewrite Hm by exact Hk. exact E. }
  assert (Down : forall m k, In m out -> k <> k_log -> dget k m = dget k a).
  { intros m k Hin Hk. destruct Ho as [[_ ->]|[_ (m0 & -> & Hm)]]; [destruct Hin|]. destruct Hin as [<-|[]]. apply Hm. exact Hk. }
  assert (Kr : forall k t, ev k = Some t -> k <> k_id /\ k <> k_ignored /\ k <> k_log).
  { intros k t E. destruct (OK _ _ E) as [_ R]. repeat split; intros ->; discriminate. }
  split. { destruct Ho as [[_ ->]|[_ (m & -> & _)]]; [left; reflexivity|right; exists m; reflexivity]. }
  split. { intros j E. apply Up; [discriminate|]. rewrite (A2 j E). apply dget_dset_eq. }
  split.
  { intros k j t E Et. destruct (F1 k j t E Et) as (ib & x & y & b & P1 & P2 & P3). exists ib, x, y, b.
    split; [exact P1|]. split; [exact P2|]. destruct (Kr _ _ Et) as (R1 & R2 & R3).
    assert (G : dget k a = match b with [] => None | _ => Some (JObj b) end).
    { rewrite Ga by exact R1. rewrite answer_get by assumption. rewrite P3. destruct b; reflexivity. }
    split; [intros Hb; apply Up; [exact R3|]; rewrite G; destruct b; [congruence|reflexivity]|].
    intros -> m Hin. rewrite (Down m k Hin R3). exact G. }
  assert (Gi : dget k_ignored a = match ig with [] => None | _ => Some (JArr (map JStr (sort_str ig))) end).
  { rewrite Ga by discriminate. unfold answer. destruct ig as [|g ig0].
    - rewrite (fold_dset_id subs []) by exact NS. cbn [app]. rewrite fold_ans_get by exact NS. cbn [dget].
      destruct (dget k_ignored subs) as [[|p b]|] eqn:E; [reflexivity| |reflexivity].
      destruct (F2 _ _ _ E) as (t & j & _ & _ & R). discriminate.
    - apply dget_dset_eq. }
  split.
  { exists (sort_str ig). split; [rewrite <- Hig; apply sort_perm|]. split; [apply srt_sorted, sort_srt|].
    pose proof (sort_perm ig) as Pm. split.
    - intros Hne. apply Up; [discriminate|]. rewrite Gi. destruct ig; [destruct (Hne eq_refl)|reflexivity].
    - intros E m Hin. rewrite (Down m _ Hin) by discriminate. rewrite Gi. rewrite E in Pm. apply Permutation_nil in Pm. rewrite Pm. reflexivity. }
  assert (Src : forall k v, dget k a = Some v -> (k = k_id /\ dget k_id d <> None) \/ (k = k_ignored /\ ig <> []) \/
                (reserved k = false /\ ev k <> None /\ dget k d <> None)).
  { intros k v E. destruct (eq_dec k k_id) as [->|Hk].
    - left. split; [reflexivity|]. intros E0. rewrite (A1 E0) in E. rewrite answer_get in E by (assumption || discriminate).
      destruct (dget k_id subs) as [[|p b]|] eqn:E1; try discriminate. destruct (F2 _ _ _ E1) as (t & j & _ & _ & R). discriminate.
    - right. destruct (eq_dec k k_ignored) as [->|Hi].
      + left. split; [reflexivity|]. intros ->. rewrite Gi in E. discriminate.
      + right. rewrite Ga in E by exact Hk. rewrite answer_get in E by assumption.
        destruct (dget k subs) as [[|p b]|] eqn:E1; try discriminate. destruct (F2 _ _ _ E1) as (t & j & R1 & R2 & R3).
        split; [exact R3|]. split; congruence. }
  split.
  { intros m k v Hin E. destruct (eq_dec k k_log) as [->|Hl]; [auto|]. rewrite (Down m k Hin Hl) in E.
    destruct (Src k v E) as [?|[[? _]|(_ & ? & ?)]]; auto. }
  intros Hne. destruct Ho as [[_ ->]|[Hane _]]; [congruence|]. destruct a as [|[k v] a]; [congruence|].
  destruct (Src k v) as [[_ ?]|[[_ Hi]|(R & _ & Hd)]]; [cbn; destruct (eq_dec k k); congruence|auto| |].
  - right. destruct ig as [|g ig0]; [congruence|]. assert (Hg0 : In g (g :: ig0)) by (left; reflexivity). rewrite Hig in Hg0.
    apply filter_In in Hg0 as [Hg1 Hg2]. exists g. split; [exact Hg1|]. unfold handled in Hg2.
    destruct (ev g); [discriminate|]. destruct (reserved g); [discriminate|reflexivity].
  - right. exists k. split; [|exact R]. apply in_keys. destruct (dget k d) as [j|]; [exists j; reflexivity|congruence].
Qed.

Lemma std_ok meta k t : std_eval meta k = Some t -> t_key t = k /\ reserved k = false.
Proof.
  unfold std_eval. destruct (eq_dec k "loopback") as [->|]; [intros E; injection E as <-; split; reflexivity|].
  destruct (eq_dec k "meta") as [->|]; [intros E; injection E as <-; split; reflexivity|].
  destruct (eq_dec k "poll") as [->|]; [intros E; injection E as <-; split; reflexivity|discriminate].
Qed.

(** With the standard handlers: loopback data comes back unchanged, a poll comes
    back with its count lowered, every other key is reported. *)
Theorem C55_standard_answer : forall meta s st d s' st' out,
  NoDup (dkeys d) -> not_a_response st d ->
  step (std_eval meta) (s, st) (ORecv d) = ((s', st'), out, true) ->
  (forall o, dget "loopback" d = Some (JObj o) -> o <> [] -> exists m, out = [m] /\ dget "loopback" m = Some (JObj o)) /\
  (forall v, dget "poll" d = Some (JObj [("loopback", JInt v)]) -> 0 < v ->
     exists m, out = [m] /\ dget "poll" m = Some (JObj [("loopback", JInt (v - 1))])) /\
  (forall k, In k (dkeys d) -> known k = false ->
     exists m l, out = [m] /\ dget k_ignored m = Some (JArr (map JStr l)) /\ In k l).
Proof.
  intros meta s st d s' st' out N NR H.
  destruct (C55_answer _ _ s st d s' st' out (std_ok meta) N NR H) as (_ & _ & A & (l & L1 & L2 & L3 & _) & _).
  split; [|split].
  - intros o E Ho. destruct (A _ _ (h_loopback) E eq_refl) as (ib & s1 & s2 & b & P1 & P2 & P3 & _).
    cbn in P1, P2. injection P1 as <-. injection P2 as _ <-. apply P3. exact Ho.
  - intros v E Hv. destruct (A _ _ (h_poll) E eq_refl) as (ib & s1 & s2 & b & P1 & P2 & P3 & _).
    cbn in P1. injection P1 as <-. cbn -[Z.sub Z.gtb] in P2. destruct (v >? 0) eqn:Ev; [|lia]. injection P2 as _ <-. apply P3. discriminate.
  - intros k Hk Hu. assert (Hl : In k l).
    { apply (Permutation_in k (Permutation_sym L1)). apply filter_In. split; [exact Hk|].
      unfold known in Hu. unfold handled, std_eval. cbn in Hu.
      destruct (eq_dec k "loopback") as [->|]; [discriminate|]. destruct (eq_dec k "meta") as [->|]; [discriminate|].
      destruct (eq_dec k "poll") as [->|]; [discriminate|]. 
      destruct (reserved k); [discriminate|reflexivity]. }
    destruct L3 as (m & -> & E); [intros ->; destruct Hl|]. exists m, l. auto.
Qed.

(** Two unknown keys, loopback data and an identifier. *)
Example C55_case :
  let d := [("zeta", JNull); ("loopback", JObj [("a", JInt 1)]); (k_id, JStr "x"); ("alpha", JInt 3)] in
  step (std SA) (None, i_new id_new) (ORecv d) =
  ((None, i_new id_new),
   [[("loopback", JObj [("a", JInt 1)]); (k_ignored, JArr [JStr "alpha"; JStr "zeta"]); (k_id, JStr "x")]], true) /\
  NoDup (dkeys d) /\ not_a_response (i_new id_new) d.
Proof.
  cbn zeta. split; [vm_compute; reflexivity|]. split; [repeat constructor; cbn; intuition discriminate|].
  intros z _. reflexivity.
Qed.

Print Assumptions C55_answer.
Print Assumptions C55_standard_answer.
