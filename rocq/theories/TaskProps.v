(** Properties C41, C42, C56 and the task half of C44. *)
From Verif Require Import Base BaseLemmas PrimModel TaskModel TaskSpec TaskProofs.
From Coq Require Import ZifyBool ZifyNat Lia.
Ltac Zify.zify_post_hook ::= Z.div_mod_to_equations.
Open Scope list_scope.
Open Scope Z_scope.

(** ** C41: the iteration limit *)

Lemma run_start a during ok : limit_kept during ->
  let a' := a_set_enabled (true && ok) (a_cmds (a_set_enabled true (a_reset a)) during) in
  a_max a' = a_max a /\ a_count a' = 0 /\ a_enabled a' = ok.
Proof. intros H. cbn [a_set_enabled a_max a_count a_enabled]. rewrite cmds_max, cmds_count by exact H. repeat split. Qed.

(** C41, for limits up to 255: at most [n] dispatches, whatever the dispatches
    return, whatever commands, cancellations and stop signals arrive, however
    often the task was run before; the limit itself is not changed. *)
Theorem C41_limit_partial : forall a during ok l,
  0 < a_max a <= 255 -> limit_kept during -> limit_fixed l ->
  Z.of_nat (run_dispatches a during ok l) <= a_max a.
Proof.
  intros a during ok l M K F. destruct (run_start a during ok K) as (E1 & E2 & _).
  unfold run_dispatches, a_run. cbn zeta. remember (a_set_enabled (true && ok) _) as a' eqn:Ea; clear Ea. pose proof (loop_limit l a' F) as L. rewrite E1, E2 in L. specialize (L M ltac:(lia)). lia.
Qed.
Print Assumptions C41_limit_partial.

(** C41.  And exactly that many if nothing else ends the run. *)
Theorem C41_exact_partial : forall a during l,
  0 < a_max a <= 255 -> limit_kept during -> limit_fixed l -> Forall quiet l ->
  Z.of_nat (run_dispatches a during true l) = Z.min (Z.of_nat (List.length l)) (a_max a) /\
  (run_ended a during true l = true <-> a_max a <= Z.of_nat (List.length l)).
Proof.
  intros a during l M K F Q. destruct (run_start a during true K) as (E1 & E2 & E3).
  unfold run_dispatches, run_ended, a_run. cbn zeta. remember (a_set_enabled (true && true) _) as a' eqn:Ea; clear Ea. pose proof (loop_exact l a' F Q E3) as L.
  rewrite E1, E2 in L. specialize (L M ltac:(lia)). rewrite Z.sub_0_r in L. exact L.
Qed.
Print Assumptions C41_exact_partial.

(** C41 is false for every limit above 255: the dispatches are counted in a
    uint8, so the limit is never reached and the task never stops. *)
Theorem C41_large_limit_refuted : forall n l,
  256 <= n < 2 ^ 32 -> limit_fixed l -> Forall quiet l ->
  a_max (a_new n) = n /\ run_dispatches (a_new n) [] true l = List.length l /\ run_ended (a_new n) [] true l = false.
Proof.
  intros n l N F Q. assert (E : a_max (a_new n) = n).
  { cbn [a_new a_max]. rewrite store_u32. change (2 ^ 32) with 4294967296 in N. lia. }
  split; [exact E|]. destruct (run_start (a_new n) [] true) as (E1 & E2 & E3); [intros m []|].
  unfold run_dispatches, run_ended, a_run. cbn zeta. apply loop_forever; [exact F|exact Q|exact E3|]. rewrite E1, E. lia.
Qed.
Print Assumptions C41_large_limit_refuted.

(** C41.  Without a limit (zero) only a dispatch that returns False, the stop
    signal, a cancellation or a command ends the run; each of the first three
    does so at once.  Nothing is dispatched when the initialization fails. *)
Theorem C41_no_limit : forall a during l,
  a_max a = 0 -> limit_kept during -> limit_fixed l -> Forall quiet l ->
  run_dispatches a during true l = List.length l /\ run_ended a during true l = false.
Proof.
  intros a during l M K F Q. destruct (run_start a during true K) as (E1 & E2 & E3).
  unfold run_dispatches, run_ended, a_run. cbn zeta. remember (a_set_enabled (true && true) _) as a' eqn:Ea; clear Ea.
  apply loop_unlimited; [exact F|exact Q|exact E3|]. rewrite E1. lia.
Qed.
Print Assumptions C41_no_limit.
Theorem C41_ends_early : forall a during ok l1 i l2,
  it_result i = false \/ it_stop i = true \/ it_cancel i = true ->
  (run_dispatches a during ok (l1 ++ i :: l2) <= S (List.length l1))%nat /\ run_ended a during ok (l1 ++ i :: l2) = true.
Proof. intros a during ok l1 i l2 H. apply loop_ends. exact H. Qed.
Print Assumptions C41_ends_early.
Theorem C41_init_fails : forall a during l,
  run_dispatches a during false l = 0%nat /\ run_ended a during false l = true.
Proof. intros a during l. unfold run_dispatches, run_ended, a_run. cbn zeta. destruct l; split; reflexivity. Qed.
Print Assumptions C41_init_fails.

Definition ok_it : iteration := mkIt [] true false [] false.
(** A run ended by its limit, with a command that arrives in between. *)
Example C41_case :
  let l := [ok_it; mkIt [ASetEnabled false] true false [ASetEnabled true] false; ok_it; ok_it; ok_it] in
  a_max (a_new 3) = 3 /\ limit_fixed l /\ Forall quiet l /\
  run_dispatches (a_new 3) [] true l = 3%nat /\ run_ended (a_new 3) [] true l = true.
Proof.
  cbn zeta. split; [reflexivity|]. split.
  - intros i H. repeat (destruct H as [<-|H]; [split; intros n X; cbn in X; repeat destruct X as [X|X]; discriminate||contradiction|]). destruct H.
  - split; [|split; vm_compute; reflexivity].
    repeat (constructor; [repeat split; cbn; try (intros X; repeat destruct X as [X|X]; discriminate || contradiction)|]). constructor.
Qed.

(** ** C42: periodic tasks *)

(** C42.  While the task is paused, no dispatch starts. *)
Theorem C42_paused_never_dispatches : forall p e, p_paused p = true -> p_started (p_step p e) = p_started p.
Proof.
  intros p e H. destruct e as [b| | |st|st| |i|i r|j]; try (apply started_other; intros; discriminate). cbn [p_step]. rewrite resume_started, H.
  destruct (nth_error (p_loops p) i) as [[pc st c]|]; [|apply app_nil_r].
  destruct pc, c; rewrite ?andb_false_r; apply app_nil_r.
Qed.
Print Assumptions C42_paused_never_dispatches.

(** C42.  Exactly when a dispatch starts: a loop wakes up, or starts on a task
    that is not running, is not cancelled, and the task is not paused. *)
Theorem C42_dispatch_iff : forall p e,
  (exists i r st, e = PLoop i r /\ p_paused p = false /\
     ((loop_at p i LSleep st false /\ p_enabled p = true) \/ (loop_at p i LNew st false /\ p_enabled p = false)) /\
     p_started (p_step p e) = p_started p ++ [i]) \/
  ((forall i r st, e = PLoop i r -> p_paused p = false ->
     ~ (loop_at p i LSleep st false /\ p_enabled p = true) /\ ~ (loop_at p i LNew st false /\ p_enabled p = false)) /\
   p_started (p_step p e) = p_started p).
Proof.
  intros p e. destruct e as [b| | |st|st| |i|i r|j]; try (right; split; [intros; discriminate|apply started_other; intros; discriminate]).
  cbn [p_step]. rewrite resume_started. unfold loop_at.
  destruct (nth_error (p_loops p) i) as [[pc st c]|] eqn:E.
  - destruct pc, c; try (right; split; [|apply app_nil_r]; intros i' r' st' X _; injection X as <- <-; rewrite E; split; intros [Y _]; discriminate).
    + destruct (p_enabled p) eqn:En, (p_paused p) eqn:Ep; cbn [negb andb];
        try (right; split; [|apply app_nil_r]; intros i' r' st' X Z; injection X as <- <-; rewrite E; split; intros [Y W]; congruence).
      left. exists i, r, st. auto 10.
    + destruct (p_enabled p) eqn:En, (p_paused p) eqn:Ep; cbn [negb andb];
        try (right; split; [|apply app_nil_r]; intros i' r' st' X Z; injection X as <- <-; rewrite E; split; intros [Y W]; congruence).
      left. exists i, r, st. auto 10.
  - right. split; [|apply app_nil_r]. intros i' r' st' X _. injection X as <- <-. rewrite E. split; intros [Y _]; discriminate.
Qed.
Print Assumptions C42_dispatch_iff.

(** C42, for a task run without a stop signal: after a dispatch returns False,
    its loop starts no dispatch any more, in any continuation. *)
Theorem C42_false_ends_loop_partial : forall p i over h,
  loop_at p i LDispatch false false ->
  starts (p_run p (PLoop i (DRet false over) :: h)) i = starts p i /\ p_enabled (p_step p (PLoop i (DRet false over))) = false.
Proof.
  intros p i over h H. unfold loop_at in H.
  assert (E : p_step p (PLoop i (DRet false over)) = set_pc i (mkLoop LDispatch false false) LEnd (p_measure over (p_set_enabled false p))).
  { cbn [p_step]. unfold p_resume. rewrite H. cbn [lp_pc lp_cancel]. rewrite tail_spec. reflexivity. }
  split; [|rewrite E; reflexivity].
  change (p_run p (PLoop i (DRet false over) :: h)) with (p_run (p_step p (PLoop i (DRet false over))) h).
  assert (L : nth_error (p_loops (p_step p (PLoop i (DRet false over)))) i = Some (mkLoop LEnd false false)).
  { rewrite E, set_pc_loops. cbn [lp_stop]. apply upd_nth. eapply nth_lt. exact H. }
  destruct (finished_starts h _ _ _ L eq_refl) as [F _]. rewrite F. rewrite E. reflexivity.
Qed.
Print Assumptions C42_false_ends_loop_partial.

(** C42 is false for a task that is given a stop signal, as every task of an
    application is: what the dispatch returned is overwritten.  Whatever the
    state, returning False is the same as returning True. *)
Theorem C42_false_with_signal_refuted : forall p i over,
  loop_at p i LDispatch true false ->
  p_step p (PLoop i (DRet false over)) = p_step p (PLoop i (DRet true over)) /\
  (p_sig p = false -> p_paused p = false ->
   starts (p_run p [PLoop i (DRet false over); PLoop i (DRet true over)]) i = S (starts p i)).
Proof.
  intros p i over H. unfold loop_at in H.
  assert (E : forall ok, p_step p (PLoop i (DRet ok over)) =
     set_pc i (mkLoop LDispatch true false) (if negb (p_sig p) then LSleep else LEnd) (p_set_enabled (negb (p_sig p)) (p_measure over p))).
  { intros ok. cbn [p_step]. unfold p_resume. rewrite H. cbn [lp_pc lp_cancel]. rewrite tail_spec. reflexivity. }
  split; [rewrite !E; reflexivity|]. intros Sg Pz. cbn [p_run fold_left]. rewrite E, Sg. cbn [negb].
  unfold starts. cbn [p_step]. rewrite resume_started.
  assert (L : nth_error (p_loops (set_pc i (mkLoop LDispatch true false) LSleep (p_set_enabled true (p_measure over p)))) i = Some (mkLoop LSleep true false)).
  { rewrite set_pc_loops. apply upd_nth. eapply nth_lt. exact H. }
  rewrite L. cbn [p_enabled p_paused set_pc p_set_loops p_set_enabled p_measure]. rewrite Pz. cbn [negb andb].
  rewrite count_occ_app. cbn [count_occ]. destruct (Nat.eq_dec i i); [|congruence].
  change (p_started _) with (p_started p). lia.
Qed.
Print Assumptions C42_false_with_signal_refuted.

(** C42.  Once the stop signal is set, a loop that was given the signal starts
    at most one dispatch more, and none if it is dispatching. *)
Theorem C42_stop_signal : forall p i pc canc h,
  p_sig p = true -> loop_at p i pc true canc ->
  (starts (p_run p h) i <= starts p i + 1)%nat /\ (pc = LDispatch -> starts (p_run p h) i = starts p i).
Proof.
  intros p i pc canc h S H. pose proof (signal_budget h p i _ S H eq_refl) as B. unfold budget in B. cbn [lp_pc] in B.
  split; [destruct pc; lia|]. intros ->.
  assert (Mono : forall h q, (starts q i <= starts (p_run q h) i)%nat).
  { clear. induction h as [|e h IH]; intros q; [cbn; lia|]. change (p_run q (e :: h)) with (p_run (p_step q e) h).
    specialize (IH (p_step q e)). assert (X : (starts q i <= starts (p_step q e) i)%nat); [|lia].
    unfold starts. destruct e as [b| | |st|st| |k|k r|j]; try (rewrite started_other by (intros; discriminate); lia).
    cbn [p_step]. rewrite resume_started, count_occ_app. lia. }
  specialize (Mono h p). lia.
Qed.
Print Assumptions C42_stop_signal.

(** C42.  As long as task() and stop() are called one after the other, at most
    one run loop is alive, and when stop() returns there is none. *)
Theorem C42_one_loop_partial : forall h, sequential p_new h -> (List.length (live (p_run p_new h)) <= 1)%nat.
Proof. intros h S. apply sq_live, sq_run; [apply sq_new|exact S]. Qed.
Print Assumptions C42_one_loop_partial.

Theorem C42_stop_stops_partial : forall h j c,
  sequential p_new h -> let p := p_run p_new h in
  nth_error (p_calls p) j = Some c -> in_progress c = true -> cl_task c = None ->
  nth_error (p_calls (p_step p (PCall j))) j = Some (mkCall None CDone) ->
  live (p_step p (PCall j)) = [].
Proof.
  intros h j c S p A I K D. pose proof (sq_run h p_new sq_new S) as Q. fold p in Q.
  assert (NL : p_task p = None -> live p = []).
  { intros T. apply live_nil. intros i x H. destruct (finished (lp_pc x)) eqn:F; [reflexivity|]. rewrite (sq_loop p Q i x H F) in T. discriminate. }
  assert (X : forall pc q, p_calls q = p_calls p -> nth_error (p_calls (set_call j c pc q)) j = Some (mkCall None pc)).
  { intros pc q E. cbn [set_call p_set_calls p_calls]. rewrite E, upd_nth by (eapply nth_lt; exact A). rewrite K. reflexivity. }
  cbn [p_step] in *. unfold c_resume in *. rewrite A in *.
  destruct (cl_pc c) as [|l| | |] eqn:Ec; try (unfold in_progress in I; rewrite Ec in I; discriminate).
  - destruct (p_task p) as [i|] eqn:T.
    + destruct (nth_error (p_loops p) i) as [x|].
      * destruct (finished (lp_pc x)); rewrite X in D by (reflexivity || (destruct (cancel_frame i (p_set_enabled false p)) as (_ & F & _); exact F)); discriminate.
      * rewrite A in D. injection D as ->. discriminate.
    + unfold c_finish. rewrite K. apply (NL eq_refl).
  - destruct (nth_error (p_loops p) l) as [x|].
    + destruct (lp_pc x); try (rewrite A in D; injection D as ->; discriminate); rewrite X in D by reflexivity; discriminate.
    + rewrite A in D. injection D as ->. discriminate.
  - unfold c_finish. rewrite K. apply NL. apply (sq_extra p Q j c A Ec).
Qed.
Print Assumptions C42_stop_stops_partial.

(** A task started, run and stopped. *)
Example C42_case :
  let h := [PTask false; PCall 0; PLoop 0 DRaise; PLoop 0 (DRet true true); PPause true; PLoop 0 DRaise; PPause false;
            PLoop 0 DRaise; PLoop 0 (DRet true false); PStop; PCall 1; PLoop 0 DRaise; PCall 1; PCall 1] in
  sequential p_new h /\ starts (p_run p_new h) 0 = 2%nat /\
  p_loops (p_run p_new h) = [mkLoop LEnd false false] /\
  p_calls (p_run p_new h) = [mkCall (Some false) CDone; mkCall None CDone] /\
  returned p_new h = [true; false].
Proof. vm_compute. repeat split. Qed.
Example C42_signal_case :
  let h := [PTask true; PCall 0; PLoop 0 DRaise; PLoop 0 (DRet true false); PSignal; PLoop 0 DRaise; PLoop 0 (DRet true false)] in
  starts (p_run p_new h) 0 = 2%nat /\ loop_at (p_run p_new h) 0 LEnd true false.
Proof. vm_compute. repeat split. Qed.
Example C42_false_case :
  let p := p_run p_new [PTask false; PCall 0; PLoop 0 DRaise] in
  loop_at p 0 LDispatch false false /\ starts (p_run p [PLoop 0 (DRet false false); PLoop 0 DRaise]) 0 = 1%nat.
Proof. vm_compute. repeat split. Qed.

(** C42 is false when two callers start the task at the same time: the loop of
    the first is forgotten, so stop() returns while it goes on running; after a
    disable() both loops run. *)
Definition racing_start : list pev :=
  [PTask false; PCall 0; PLoop 0 DRaise; PLoop 0 (DRet true false);
   PTask false; PTask false; PCall 1; PCall 2; PLoop 0 DRaise; PCall 1; PCall 1; PCall 2; PCall 2].
Theorem C42_concurrent_starts_refuted :
  (let p := p_run p_new (racing_start ++ [PLoop 1 DRaise; PLoop 2 DRaise; PStop; PCall 3; PCall 3; PLoop 1 (DRet true false); PLoop 1 DRaise]) in
   nth_error (p_calls p) 3 = Some (mkCall None CDone) /\ loop_at p 1 LDispatch false false /\ starts p 1 = 2%nat) /\
  (let p := p_run p_new (racing_start ++ [PLoop 1 DRaise; PDisable; PLoop 2 DRaise]) in
   p_loops p = [mkLoop LEnd false false; mkLoop LDispatch false false; mkLoop LDispatch false false] /\ List.length (live p) = 2%nat).
Proof. vm_compute. repeat split. Qed.
Print Assumptions C42_concurrent_starts_refuted.

(** A dispatch that raises leaves the task marked as enabled: starting it again
    fails. *)
Theorem C42_restart_after_exception_refuted :
  let p := p_run p_new [PTask false; PCall 0; PLoop 0 DRaise; PLoop 0 DRaise] in
  loop_at p 0 LRaised false false /\ p_enabled p = true /\
  (let q := p_run p [PTask false; PCall 1; PCall 1; PLoop 1 DRaise] in
   loop_at q 1 LFailed false false /\ starts q 1 = 0%nat /\ sequential p [PTask false; PCall 1; PCall 1; PLoop 1 DRaise]).
Proof. vm_compute. repeat split. Qed.
Print Assumptions C42_restart_after_exception_refuted.

(** C42.  In all other cases a task that has ended, however it ended, can be
    started again. *)
Theorem C42_restartable_partial : forall h st r,
  sequential p_new h -> orderly p_new h -> let p := p_run p_new h in
  live p = [] -> forallb (fun c => negb (in_progress c)) (p_calls p) = true -> p_paused p = false ->
  let j := List.length (p_calls p) in let i := List.length (p_loops p) in
  let q := p_run p [PTask st; PCall j; PCall j; PLoop i r] in
  sequential p [PTask st; PCall j; PCall j; PLoop i r] /\ starts q i = S (starts p i) /\ loop_at q i LDispatch st false.
Proof.
  intros h st r S O p L C P j i q.
  pose proof (sq_run h p_new sq_new S) as Q. fold p in Q.
  assert (R : RS p) by (apply rs_run; auto using sq_new; constructor; [discriminate|intros [|]; discriminate]).
  assert (E : p_enabled p = false).
  { destruct (p_enabled p) eqn:E; [|reflexivity]. destruct (rs_busy p R E) as (k & x & X & B).
    assert (I : In x (live p)) by (apply filter_In; split; [eapply nth_error_In; exact X|destruct B as [-> | ->]; reflexivity]). rewrite L in I. destruct I. }
  assert (N : forall k x, nth_error (p_loops p) k = Some x -> finished (lp_pc x) = true).
  { intros k x X. destruct (finished (lp_pc x)) eqn:F; [reflexivity|]. assert (I : In x (live p)) by (apply filter_In; split; [eapply nth_error_In; exact X|rewrite F; reflexivity]). rewrite L in I. destruct I. }
  split; [cbn [sequential]; auto|].
  pose (p1 := p_set_calls (p_calls p ++ [mkCall (Some st) CNew]) p).
  assert (J : forall d, nth_error (p_calls p ++ [d]) j = Some d) by (intros d; unfold j; rewrite nth_error_app2, Nat.sub_diag by lia; reflexivity).
  assert (Ju : forall d e, nth_error (upd j e (p_calls p ++ [d])) j = Some e) by (intros d e; apply upd_nth; unfold j; rewrite app_length; cbn; lia).
  assert (Z : exists p3, p_run p [PTask st; PCall j; PCall j] = p3 /\ p_enabled p3 = false /\ p_paused p3 = false /\
     p_started p3 = p_started p /\ p_loops p3 = p_loops p ++ [mkLoop LNew st false]).
  { eexists. split; [reflexivity|]. cbn [p_run fold_left p_step].
    assert (X1 : c_resume j p1 = match p_task p with None => c_finish j (mkCall (Some st) CNew) p1 | Some _ => set_call j (mkCall (Some st) CNew) CExtra (p_set_task None p1) end \/
       (exists k, p_task p = Some k /\ nth_error (p_loops p) k = None)).
    { unfold c_resume. change (p_calls p1) with (p_calls p ++ [mkCall (Some st) CNew]). rewrite J. cbn [cl_pc]. change (p_task p1) with (p_task p).
      destruct (p_task p) as [k|]; [|left; reflexivity]. change (p_loops p1) with (p_loops p). destruct (nth_error (p_loops p) k) as [x|] eqn:X; [|right; exists k; auto].
      left. rewrite (N k x X). reflexivity. }
    destruct X1 as [X1|(k & K1 & K2)].
    - change (p_set_calls (p_calls p ++ [mkCall (Some st) CNew]) p) with p1. rewrite X1.
      destruct (p_task p) as [k|].
      + unfold c_resume. cbn [set_call p_set_calls p_calls p_set_task p1]. rewrite Ju. cbn [cl_pc cl_task c_finish set_call p_set_calls p_set_task p_set_loops p_enabled p_paused p_started p_loops].
        unfold c_finish. cbn [cl_task set_call p_set_calls p_set_task p_set_loops p_enabled p_paused p_started p_loops]. auto.
      + unfold c_finish. cbn [cl_task]. unfold c_resume. cbn [set_call p_set_calls p_calls p_set_task p_set_loops p1]. rewrite Ju. cbn [cl_pc]. cbn [set_call p_set_calls p_set_task p_set_loops p_enabled p_paused p_started p_loops]. auto.
    - exfalso. pose proof (tk_run h p_new ltac:(intros k0 H0; discriminate) k K1) as T. fold p in T. apply nth_error_None in K2. lia. }
  destruct Z as (p3 & Z0 & Z1 & Z2 & Z3 & Z4).
  assert (Zq : q = p_resume i r p3) by (unfold q; change [PTask st; PCall j; PCall j; PLoop i r] with ([PTask st; PCall j; PCall j] ++ [PLoop i r]); rewrite run_app, Z0; reflexivity).
  assert (Zi : nth_error (p_loops p3) i = Some (mkLoop LNew st false)) by (rewrite Z4; unfold i; rewrite nth_error_app2, Nat.sub_diag by lia; reflexivity).
  split.
  - rewrite Zq. unfold starts. rewrite resume_started, Zi, Z1, Z2, Z3. cbn [negb andb]. rewrite count_occ_app. cbn. destruct (Nat.eq_dec i i); [lia|congruence].
  - rewrite Zq. unfold loop_at, p_resume. rewrite Zi. cbn [lp_pc lp_cancel]. rewrite Z1. unfold p_head. cbn [p_enabled p_set_enabled p_paused]. rewrite Z2.
    rewrite set_pc_loops. cbn [lp_stop]. apply upd_nth. eapply nth_lt. exact Zi.
Qed.
Print Assumptions C42_restartable_partial.
Example C42_restart_case :
  let h := [PTask false; PCall 0; PLoop 0 DRaise; PLoop 0 (DRet true false); PCancel 0; PLoop 0 DRaise] in
  sequential p_new h /\ orderly p_new h /\ live (p_run p_new h) = [] /\ p_loops (p_run p_new h) = [mkLoop LEnd false false].
Proof. vm_compute. repeat split. Qed.

(** ** C56: disabling a task *)

(** C56, when no dispatch is running: once the task is disabled, no dispatch
    starts until somebody starts the task again. *)
Theorem C56_disabled_partial : forall p h,
  (forall i x, nth_error (p_loops p) i = Some x -> lp_pc x <> LNew /\ lp_pc x <> LDispatch) ->
  (forall c, In c (p_calls p) -> in_progress c = false) -> no_new_run h ->
  p_started (p_run p (PDisable :: h)) = p_started p.
Proof.
  intros p h L C N. change (p_run p (PDisable :: h)) with (p_run (p_set_enabled false p) h).
  rewrite calm_run; [reflexivity| |exact N]. split; [reflexivity|]. split; [exact L|].
  intros j c H I. rewrite (C c (nth_error_In _ _ H)) in I. discriminate.
Qed.
Print Assumptions C56_disabled_partial.

(** C56 is false for a task that is dispatching, even if the dispatch itself
    disables it: the result of the dispatch overwrites it. *)
Theorem C56_disabled_during_dispatch_refuted :
  (forall p i st canc over, loop_at p i LDispatch st canc ->
     p_step (p_step p PDisable) (PLoop i (DRet true over)) = p_step (p_set_enabled true p) (PLoop i (DRet true over)) \/ canc = true) /\
  (let p := p_run p_new [PTask false; PCall 0; PLoop 0 DRaise; PDisable; PLoop 0 (DRet true false); PLoop 0 DRaise] in
   starts p 0 = 2%nat) /\
  (forall a i, a_enabled a = true ->
     a_iter a (mkIt (it_during i ++ [ASetEnabled false]) (it_result i) (it_stop i) (it_asleep i) (it_cancel i)) = a_iter a i).
Proof.
  split; [|split].
  - intros p i st canc over H. destruct canc; [right; reflexivity|left]. unfold loop_at in H. cbn [p_step]. unfold p_resume.
    cbn [p_loops p_set_enabled]. rewrite H. reflexivity.
  - vm_compute. reflexivity.
  - intros a i E. unfold a_iter. cbn [it_during it_result it_stop it_asleep it_cancel]. replace (a_cmds a (it_during i ++ [ASetEnabled false])) with (a_set_enabled false (a_cmds a (it_during i))); [reflexivity|].
    unfold a_cmds. rewrite fold_left_app. reflexivity.
Qed.
Print Assumptions C56_disabled_during_dispatch_refuted.

Example C56_case :
  let p := p_run p_new [PTask false; PCall 0; PLoop 0 DRaise; PLoop 0 (DRet true false)] in
  p_loops p = [mkLoop LSleep false false] /\ p_calls p = [mkCall (Some false) CDone] /\ p_enabled p = true /\
  starts (p_run p [PLoop 0 DRaise]) 0 = 2%nat /\ starts (p_run p [PDisable; PLoop 0 DRaise]) 0 = 1%nat.
Proof. vm_compute. repeat split. Qed.

(** ** C44: task counters *)

(** C44.  The dispatch counter is the number of dispatches that returned,
    modulo 2^32, and the overrun counter the number of those that took longer
    than the period, modulo 2^16. *)
Theorem C44_task_counters : forall h,
  p_dispatches (p_run p_new h) = Z.of_nat (List.length (returned p_new h)) mod 2 ^ 32 /\
  p_overruns (p_run p_new h) = Z.of_nat (List.length (filter (fun b => b) (returned p_new h))) mod 2 ^ 16.
Proof. intros h. apply (run_metrics h p_new); cbn; lia. Qed.
Print Assumptions C44_task_counters.
