(** Properties C45, C57, C58 and part of C44: the life of a connection. *)
From Verif Require Import Base BaseLemmas PrimModel BackoffModel TaskModel TaskProofs ConnModel ConnSpec ConnProofs.
From Coq Require Import ZifyBool ZifyNat Lia.
Open Scope list_scope.

(** ** C45 *)

(** C45.  In every history the disable hook has run exactly once for every time
    the connection went from enabled to disabled. *)
Theorem C45_hook_once : forall auto h, c_hooks (c_run (c_new auto) h) = ends (c_new auto) h.
Proof. intros auto h. rewrite run_hooks. reflexivity. Qed.
Print Assumptions C45_hook_once.

(** C45.  A new connection is enabled.  Disabling a disabled connection does nothing; disabling an enabled one
    disables it. *)
Theorem C45_disable : forall c,
  (forall auto, c_enabled (c_new auto) = true) /\ c_enabled (c_step c EDisable) = false /\ (c_enabled c = false -> c_step c EDisable = c).
Proof. intros c. split; [reflexivity|]. split; [apply disable_hooks|apply disable_off]. Qed.
Print Assumptions C45_disable.

(** C45.  A process() call makes at most 20 attempts to restart (the default
    back-off). *)
Theorem C45_attempts_bounded : forall auto h k, (List.length (attempts_of k (c_run (c_new auto) h)) <= 20)%nat.
Proof.
  intros auto h k. destruct (lga_run h _ (lga_new auto)) as [K L]. destruct (nth_error (c_procs (c_run (c_new auto) h)) k) as [p|] eqn:E.
  - destruct (L k p E) as [L1 [L2 L3] L4]. unfold cnt in L1. assert (0 <= asleep p)%Z by (unfold asleep; destruct (pr_pc p); lia). lia.
  - apply nth_error_None in E. rewrite (known_none _ k K E). cbn. lia.
Qed.
Print Assumptions C45_attempts_bounded.

(** C45.  A process() call that watches the stop signal makes at most one
    attempt after the signal, and none if it was called after the signal. *)
Theorem C45_after_stop_partial : forall auto h k p,
  nth_error (c_procs (c_run (c_new auto) h)) k = Some p -> pr_sig p = true ->
  (List.length (late_attempts k (c_run (c_new auto) h)) <= 1)%nat.
Proof.
  intros auto h k p E S. destruct (lga_run h _ (lga_new auto)) as [K L]. destruct (L k p E) as [L1 L2 L3]. specialize (L3 S). unfold cnt in L3.
  assert (0 <= asleep p)%Z by (unfold asleep; destruct (pr_pc p); lia). destruct (c_stop (c_run (c_new auto) h)); lia.
Qed.
Print Assumptions C45_after_stop_partial.
Theorem C45_called_after_stop : forall auto h1 h2, let c := c_run (c_new auto) h1 in
  c_stop c = true -> attempts_of (List.length (c_procs c)) (c_run c (EProcess true :: h2)) = [].
Proof.
  intros auto h1 h2 c S. destruct (lga_run h1 _ (lga_new auto)) as [K _]. fold c in K.
  change (c_run c (EProcess true :: h2)) with (c_run (set_procs (c_procs c ++ [fresh true]) c) h2).
  rewrite (stopped_run h2 _ _ (fresh true)).
  - apply (known_none c _ K). lia.
  - cbn [set_procs c_procs]. rewrite nth_error_app2, Nat.sub_diag by lia. reflexivity.
  - reflexivity.
  - exact S.
  - discriminate.
Qed.
Print Assumptions C45_called_after_stop.

(** C45.  If process() calls do not overlap, restart() is only called while the
    connection is disabled. *)
Theorem C45_restart_disabled_partial : forall auto h, separate (c_new auto) h ->
  forall a, In a (c_log (c_run (c_new auto) h)) -> at_enabled a = false.
Proof.
  intros auto h S.
  assert (G : forall h c, INV false false c -> separate c h -> (forall a, In a (c_log c) -> at_enabled a = false) -> forall a, In a (c_log (c_run c h)) -> at_enabled a = false).
  { clear. induction h as [|e h IH]; intros c I S L; [exact L|]. destruct S as [S1 S2]. change (c_run c (e :: h)) with (c_run (c_step c e) h).
    apply IH; [|exact S2|].
    - apply inv_step; auto; try discriminate. split; [exact S1|exact Logic.I].
    - intros a Ha. destruct (step_log c e) as [SL|(k & r & p & -> & E & P & SL)]; rewrite SL in Ha; [auto|].
      apply in_app_or in Ha as [Ha|[<-|[]]]; [auto|]. cbn [at_enabled]. apply (i_restart _ _ _ I k p E). auto. }
  apply (G h (c_new auto)); [apply inv_new|exact S|intros a []].
Qed.
Print Assumptions C45_restart_disabled_partial.

(** C45.  In every history the texts handed to the transport are the texts
    queued, in order, with nothing skipped or repeated. *)
Theorem C45_writes_in_order : forall auto h, let c := c_run (c_new auto) h in c_enq c = c_started c ++ c_queue c.
Proof. intros auto h. apply run_writes. reflexivity. Qed.
Print Assumptions C45_writes_in_order.

(** C45.  If process() calls do not overlap, the sends complete in order, too,
    and none is started while the connection is disabled. *)
Theorem C45_sends_complete_in_order_partial : forall auto h, separate (c_new auto) h ->
  let c := c_run (c_new auto) h in subseq (c_sent c) (c_enq c).
Proof.
  intros auto h S c. pose proof (inv_run false false h _ (inv_new false false auto)) as I. specialize (I ltac:(discriminate) ltac:(discriminate) S).
  unfold c. rewrite (C45_writes_in_order auto h). generalize (c_queue (c_run (c_new auto) h)). pose proof (i_sent _ _ _ I) as X. intros q.
  revert X. generalize (c_started (c_run (c_new auto) h)) (c_sent (c_run (c_new auto) h)). clear. intros l s X. revert q. induction X; intros q; cbn [app].
  - induction q; [constructor|apply sub_skip; assumption].
  - apply sub_skip, IHX.
  - apply sub_take, IHX.
Qed.
Print Assumptions C45_sends_complete_in_order_partial.
Theorem C45_no_send_while_disabled_partial : forall auto h e, separate (c_new auto) h ->
  let c := c_run (c_new auto) h in c_enabled c = false -> c_started (c_step c e) = c_started c.
Proof.
  intros auto h e S c Off. pose proof (inv_run false false h _ (inv_new false false auto) ltac:(discriminate) ltac:(discriminate) S) as I. fold c in I.
  destruct e as [|m| |b|sig| |k r|k w r]; cbn [c_step]; try reflexivity.
  - rewrite disable_off by exact Off. reflexivity.
  - unfold c_manager. destruct (c_managed c); [|reflexivity]. rewrite Off. destruct (c_auto c); reflexivity.
  - pose proof (proc_writes k r c) as W. unfold writes in W. congruence.
  - destruct (nth_error (c_procs c) k) as [p|] eqn:A; [|unfold c_sub; rewrite A; reflexivity].
    destruct (pr_pc p) eqn:G; try (unfold c_sub; rewrite A, G; reflexivity).
    destruct (off_sub _ _ c k w r p I A G Off) as [[-> _]| ->]; [reflexivity|]. pose proof (finish_writes k w TDone c) as W. unfold writes in W. congruence.
Qed.
Print Assumptions C45_no_send_while_disabled_partial.

(** C45.  If process() calls do not overlap, then once the connection is
    disabled each of the call's tasks ends at its next move, whatever happens in
    between, and then the call returns. *)
Theorem C45_disable_ends_process_partial : forall auto h1 h2 k r r', separate (c_new auto) (h1 ++ h2 ++ [EProc k r; EProc k r']) ->
  let c := c_run (c_new auto) h1 in
  serving c k -> c_enabled c = false -> (forall w, exists r, In (ESub k w r) h2) ->
  exists p, nth_error (c_procs (c_run c (h2 ++ [EProc k r; EProc k r']))) k = Some p /\ pr_pc p = PReturned.
Proof.
  intros auto h1 h2 k r r' S c (p & A & G) Off Hw.
  assert (Sp : forall h c h', separate c (h ++ h') -> separate c h /\ separate (c_run c h) h').
  { clear. induction h as [|e h IH]; intros c h' S; [split; [exact Logic.I|exact S]|]. destruct S as [S1 S2]. destruct (IH _ _ S2) as [A B]. split; [split; assumption|exact B]. }
  destruct (Sp _ _ _ S) as [Sa Sb]. pose proof (inv_run false false h1 _ (inv_new false false auto) ltac:(discriminate) ltac:(discriminate) Sa) as I. fold c in I, Sb.
  destruct (Sp _ _ _ Sb) as [Sc Sd].
  assert (W : winding c k []) by (exists p; split; [exact A|]; right; right; split; [exact G|]; split; [exact Off|intros w []]).
  pose proof (winding_run false false h2 c k [] I ltac:(discriminate) ltac:(discriminate) Sc W) as W2. cbn [app] in W2.
  assert (RA : c_run c (h2 ++ [EProc k r; EProc k r']) = c_proc k r' (c_proc k r (c_run c h2))) by (unfold c_run; rewrite fold_left_app; reflexivity).
  rewrite RA. clear RA. destruct W2 as (p2 & A2 & W2).
  assert (Last : forall d p r, nth_error (c_procs d) k = Some p -> pr_pc p = PClose \/ pr_pc p = PReturned -> exists q, nth_error (c_procs (c_proc k r d)) k = Some q /\ pr_pc q = PReturned).
  { clear. intros d p r A [P|P]; destruct (proc_control k r d p A) as (q & Q & C); unfold next_control in C; rewrite P in C; injection C as C1 _ _; exists q; split; congruence. }
  destruct W2 as [P|[P|(P & Off2 & Dn)]].
  - destruct (Last _ _ r A2 (or_introl P)) as (q & Q & C). apply (Last _ _ r' Q (or_intror C)).
  - destruct (Last _ _ r A2 (or_intror P)) as (q & Q & C). apply (Last _ _ r' Q (or_intror C)).
  - destruct (proc_control k r (c_run c h2) p2 A2) as (q & Q & C). unfold next_control in C. rewrite P in C.
    assert (All : forall w, done (pr_get w p2) = true).
    { intros w. apply Dn. apply in_flat_map. destruct (Hw w) as (rw & Hin). exists (ESub k w rw). split; [exact Hin|]. destruct (Nat.eq_dec k k); [left; reflexivity|congruence]. }
    pose proof (All Read) as D1. pose proof (All Init) as D2. pose proof (All Write) as D3. pose proof (All WaitSig) as D4. cbn [pr_get] in D1, D2, D3, D4.
    rewrite D1, D2, D3, D4 in C. cbn [andb] in C. injection C as C1 _ _. apply (Last _ _ r' Q). auto.
Qed.
Print Assumptions C45_disable_ends_process_partial.

(** C45.  A process() call leaves no task behind. *)
Theorem C45_no_task_left : forall auto h k p w, nth_error (c_procs (c_run (c_new auto) h)) k = Some p -> pr_pc p <> PGather -> done (pr_get w p) = true.
Proof. intros auto h k p w A N. refine (settled_run h (c_new auto) _ k p A N w). intros [|j] q Hq; discriminate. Qed.
Print Assumptions C45_no_task_left.

(** C45.  A stop signal disables a connection that is being processed, and so
    does the end of the stream or a message that cannot be processed. *)
Theorem C45_stop_disables_partial : forall auto h k p r, separate (c_new auto) h -> let c := c_run (c_new auto) h in
  nth_error (c_procs c) k = Some p -> pr_pc p = PGather -> pr_sig p = true -> c_stop c = true ->
  c_enabled (c_step c (ESub k WaitSig r)) = false.
Proof.
  intros auto h k p r S c A G Sg St. pose proof (inv_run false false h _ (inv_new false false auto) ltac:(discriminate) ltac:(discriminate) S) as I. fold c in I.
  destruct (c_enabled c) eqn:On.
  - destruct (i_gather _ _ _ I k p A G) as (G1 & G2 & G3 & G4 & G5 & G6). specialize (G6 On Sg). specialize (G3 On WaitSig).
    cbn [c_step]. unfold c_sub. rewrite A, G, G3. cbn [pr_get] in *. unfold c_waitsig, disable_and_end, finish. rewrite St.
    assert (W : forall w, s_pc (pr_wait p) <> TWork w).
    { intros w. refine (wait_run h (c_new auto) _ k p A w). intros [|j] q Hq; discriminate. }
    destruct (s_pc (pr_wait p)) eqn:Pc; try (rewrite put_sub_eq; cbn [set_procs c_enabled]; apply disable_hooks).
    + destruct (W m eq_refl).
    + unfold done in G6. rewrite Pc in G6. discriminate.
  - cbn [c_step]. destruct (off_sub _ _ c k WaitSig r p I A G On) as [[-> _]| ->]; [exact On|].
    unfold finish. rewrite put_sub_eq. exact On.
Qed.
Print Assumptions C45_stop_disables_partial.
Theorem C45_end_of_stream : forall c k p m, nth_error (c_procs c) k = Some p -> pr_pc p = PGather ->
  pr_read p = mkSub TWait false \/ pr_read p = mkSub (TWork m) false -> c_enabled (c_step c (ESub k Read (Ret false))) = false.
Proof.
  intros c k p m A G H. cbn [c_step]. unfold c_sub. rewrite A, G. cbn [pr_get].
  destruct H as [-> | ->]; cbn [s_cancel]; unfold c_read, disable_and_end, finish; cbn [s_pc]; rewrite put_sub_eq; cbn [set_procs c_enabled]; apply disable_hooks.
Qed.
Print Assumptions C45_end_of_stream.

(** C45.  A process() call of a disabled connection does restart it, unless the
    stop signal is set: it sleeps, calls restart(), and if that succeeds the
    connection is enabled and served; if not it sleeps again. *)
Theorem C45_restarts : forall auto h (sig : bool), let c := c_run (c_new auto) h in let k := List.length (c_procs c) in
  c_enabled c = false -> (sig = true -> c_stop c = false) -> forall r r' ok,
  let d := c_run c [EProcess sig; EProc k r; EProc k r'; EProc k (Ret ok)] in
  List.length (attempts_of k d) = 1%nat /\ c_enabled d = ok /\
  (ok = true -> serving d k) /\ (ok = false -> exists p, nth_error (c_procs d) k = Some p /\ pr_pc p = PSleep).
Proof.
  intros auto h sig c k Off Sg r r' ok d. destruct (lga_run h _ (lga_new auto)) as [K _]. fold c in K.
  assert (Kn : attempts_of k c = []) by (apply (known_none c k K); unfold k; lia).
  assert (Len : (k < List.length (c_procs c ++ [fresh sig]))%nat) by (rewrite app_length; cbn; unfold k; lia).
  assert (Ss : sig && c_stop c = false) by (destruct sig; [rewrite Sg by reflexivity|]; reflexivity).
  set (p1 := pr_set_bo (snd (bo_sleep bo_default)) (pr_set PSleep (fresh sig))).
  assert (E1 : c_run c [EProcess sig; EProc k r] = set_procs (upd k p1 (c_procs c ++ [fresh sig])) c).
  { cbn [c_run fold_left c_step]. unfold c_proc, c_process. cbn [set_procs c_procs]. rewrite nth_error_app2 by (unfold k; lia). unfold k. rewrite Nat.sub_diag. cbn [nth_error pr_pc].
    unfold c_head. cbn [set_procs c_enabled c_stop pr_bo pr_sig]. rewrite Off, Ss. reflexivity. }
  set (p2 := pr_set PRestart p1).
  assert (E2 : c_run c [EProcess sig; EProc k r; EProc k r'] = set_procs (upd k p2 (upd k p1 (c_procs c ++ [fresh sig]))) (set_log (c_log c ++ [mkAttempt k false (c_stop c)]) c)).
  { change (c_run c [EProcess sig; EProc k r; EProc k r']) with (c_proc k r' (c_run c [EProcess sig; EProc k r])). rewrite E1. unfold c_proc. cbn [set_procs c_procs].
    rewrite upd_nth by exact Len. cbn [p1 pr_set_bo pr_set pr_pc]. unfold put_proc. cbn [set_procs set_log c_procs c_log c_enabled c_stop]. rewrite Off. reflexivity. }
  assert (L2 : nth_error (upd k p2 (upd k p1 (c_procs c ++ [fresh sig]))) k = Some p2) by (apply upd_nth; rewrite upd_length; exact Len).
  assert (Ed : d = c_proc k (Ret ok) (set_procs (upd k p2 (upd k p1 (c_procs c ++ [fresh sig]))) (set_log (c_log c ++ [mkAttempt k false (c_stop c)]) c))).
  { unfold d. change (c_run c [EProcess sig; EProc k r; EProc k r'; EProc k (Ret ok)]) with (c_proc k (Ret ok) (c_run c [EProcess sig; EProc k r; EProc k r'])). rewrite E2. reflexivity. }
  assert (Ln : (k < List.length (upd k p2 (upd k p1 (c_procs c ++ [fresh sig]))))%nat) by (rewrite !upd_length; exact Len).
  rewrite Ed. unfold c_proc. cbn [set_procs c_procs]. rewrite L2. cbn [p2 pr_set pr_pc].
  assert (At : List.length (attempts_of k (set_log (c_log c ++ [mkAttempt k false (c_stop c)]) c)) = 1%nat).
  { unfold attempts_of in *. cbn [set_log c_log]. rewrite filter_app, Kn. cbn [filter by_proc at_proc]. unfold by_proc. cbn [at_proc]. rewrite Nat.eqb_refl. reflexivity. }
  destruct ok.
  - unfold c_head. cbn [set_restarts set_attempts c_set_enabled set_enabled c_enabled negb andb]. split; [exact At|]. split; [reflexivity|]. split; [|discriminate].
    intros _. eexists. split; [unfold put_proc; cbn [set_exited set_cur set_procs c_procs]; apply upd_nth; exact Ln|reflexivity].
  - unfold c_head. cbn [set_attempts set_procs set_log c_enabled c_stop pr_bo pr_sig pr_set pr_set_bo p1 fresh]. rewrite Off. change (pr_sig p2) with sig. rewrite Ss. cbn [negb andb]. 
    change (negb (bo_give_up (pr_bo p2))) with true. cbn [andb]. split; [exact At|]. split; [exact Off|]. split; [discriminate|].
    intros _. eexists. split; [unfold put_proc; cbn [set_procs c_procs]; apply upd_nth; exact Ln|reflexivity].
Qed.
Print Assumptions C45_restarts.

(** C45.  The manager starts process() for a disabled connection that restarts
    automatically, lets go of one that does not, and leaves enabled ones alone. *)
Theorem C45_manager : forall c, c_managed c = true ->
  (c_enabled c = true -> c_step c EManager = c) /\
  (c_enabled c = false -> c_auto c = true -> c_step c EManager = c_step c (EProcess true)) /\
  (c_enabled c = false -> c_auto c = false -> forall h, let d := c_run (c_step c EManager) h in c_managed d = false /\ c_step d EManager = d).
Proof.
  intros c M. cbn [c_step]. unfold c_manager at 1 2. rewrite M. split; [intros ->; reflexivity|]. split; [intros -> ->; reflexivity|].
  intros Off Au h. set (d := c_run (c_manager c) h). assert (G : forall h c, c_managed c = false -> c_managed (c_run c h) = false).
  { clear. induction h as [|e h IH]; intros c Hc; [exact Hc|]. change (c_run c (e :: h)) with (c_run (c_step c e) h). apply IH. apply managed_off. exact Hc. }
  assert (X : c_managed d = false) by (apply G; unfold c_manager; rewrite M, Off, Au; reflexivity). split; [exact X|]. unfold c_manager. rewrite X. reflexivity.
Qed.
Print Assumptions C45_manager.

Definition all_tasks (k : nat) : list cev := [ESub k Read (Ret true); ESub k Init (Ret true); ESub k Write (Ret true); ESub k WaitSig (Ret true)].
Ltac show_separate := cbn [separate app]; repeat split; vm_compute; intros; first [reflexivity|exfalso; lia].
(** Run, disable, restart after one failed attempt, run again. *)
Definition restart_history : list cev :=
  [EProcess true; EProc 0 Raise] ++ all_tasks 0 ++ [ESend 7; ESub 0 Init (Ret true); ESub 0 Write (Ret true); ESend 8; ESub 0 Write (Ret true); EDisable; EDisable] ++ all_tasks 0 ++
  [EProc 0 Raise; EProc 0 Raise; EManager; EProc 1 Raise; EProc 1 Raise; EProc 1 (Ret false); EProc 1 Raise; EProc 1 (Ret true)] ++ all_tasks 1 ++ [ESub 1 Write (Ret true)].
Example C45_case :
  let c := c_run (c_new true) restart_history in
  separate (c_new true) restart_history /\ c_hooks c = 1%nat /\ c_enabled c = true /\ c_restarts c = 1%Z /\ c_attempts c = 2%Z /\
  c_log c = [mkAttempt 1 false false; mkAttempt 1 false false] /\ c_enq c = [7; 8]%Z /\ c_started c = [7; 8]%Z /\ c_sent c = [7]%Z /\ serving c 1.
Proof.
  split; [unfold restart_history, all_tasks; show_separate|]. repeat (split; [reflexivity|]). eexists. split; [vm_compute; reflexivity|reflexivity].
Qed.
Example C45_end_case :
  let h1 := [EProcess true; EProc 0 Raise] ++ all_tasks 0 ++ [EDisable] in
  separate (c_new false) (h1 ++ all_tasks 0 ++ [EProc 0 Raise; EProc 0 Raise]) /\ serving (c_run (c_new false) h1) 0 /\ c_enabled (c_run (c_new false) h1) = false.
Proof.
  cbn zeta. split; [unfold all_tasks; show_separate|]. split; [|reflexivity]. eexists. split; [vm_compute; reflexivity|reflexivity].
Qed.

(** C45 is false in general, and the manager itself is enough to break it: every
    time it wakes up while an auto-restarting connection is disabled it starts
    another process() call.  Two calls then restart the connection, one of them
    while it is enabled, and both read from it; disabling the connection stops
    only the tasks of one, and the other call is left behind. *)
Definition overlapping : list cev :=
  [EProcess true; EDisable; EProc 0 Raise; EProc 0 Raise; EProc 0 (Ret true);
   EDisable] ++ all_tasks 0 ++ [EProc 0 Raise; EProc 0 Raise] ++
  [EManager; EProc 1 Raise; EManager; EProc 2 Raise; EProc 1 Raise; EProc 1 (Ret true); EProc 2 Raise; EProc 2 (Ret true)].
Theorem C45_overlap_refuted :
  (let c := c_run (c_new true) overlapping in
   In (mkAttempt 2 true false) (c_log c) /\ c_restarts c = 3%Z /\ serving c 1 /\ serving c 2) /\
  (let c := c_run (c_new true) (overlapping ++ all_tasks 1 ++ all_tasks 2 ++ [EDisable] ++ all_tasks 1 ++ all_tasks 2 ++ [ESend 5; ESub 1 Write (Ret true)]) in
   c_enabled c = false /\ c_started c = [5]%Z /\ serving c 1 /\ ~ task_done c 1 Read /\ task_done c 2 Read).
Proof.
  split; cbn zeta.
  - split; [vm_compute; auto 10|]. split; [reflexivity|]. split; (eexists; split; [vm_compute; reflexivity|reflexivity]).
  - split; [reflexivity|]. split; [reflexivity|]. split; [eexists; split; [vm_compute; reflexivity|reflexivity]|]. split.
    + intros (p & A & D). vm_compute in A. injection A as <-. discriminate.
    + eexists; split; [vm_compute; reflexivity|reflexivity].
Qed.
Print Assumptions C45_overlap_refuted.
(** C45 is false when the stop signal is set during the sleep of the back-off:
    the connection is restarted afterwards. *)
Theorem C45_restart_after_stop_refuted :
  let c := c_run (c_new false) [EDisable; EProcess true; EProc 0 Raise; EStop; EProc 0 Raise; EProc 0 (Ret true)] in
  c_log c = [mkAttempt 0 false true] /\ c_enabled c = true /\ c_restarts c = 1%Z.
Proof. vm_compute. repeat split. Qed.
Print Assumptions C45_restart_after_stop_refuted.

(** ** C57: an enabled connection is served *)

(** C57.  If no message handler and no send raises, the reader and the writer of
    an enabled connection that is being processed are running, and the writer
    takes the next text within two moves. *)
Theorem C57_served_partial : forall auto h k, separate (c_new auto) h -> no_raise h ->
  let c := c_run (c_new auto) h in
  serving c k -> c_enabled c = true -> ~ task_done c k Read /\ ~ task_done c k Write /\
  forall m q b, c_queue c = m :: q -> exists n, (n <= 2)%nat /\ c_started (c_run c (repeat (ESub k Write (Ret b)) n)) = c_started c ++ [m].
Proof.
  intros auto h k S N c (p & A & G) On.
  assert (I : INV true false c).
  { apply inv_run; [apply inv_new| |discriminate|exact S]. intros _ e He. destruct e as [| | | | | | |j w r]; try reflexivity. destruct r as [b|]; [destruct w; reflexivity|].
    destruct (N j w He) as [-> | ->]; reflexivity. }
  destruct (i_gather _ _ _ I k p A G) as (G1 & G2 & G3 & G4 & G5 & G6). destruct (G5 eq_refl On) as [R W].
  split; [|split].
  - intros (p' & A' & D). rewrite A in A'. injection A' as <-. cbn [pr_get] in D. congruence.
  - intros (p' & A' & D). rewrite A in A'. injection A' as <-. cbn [pr_get] in D. congruence.
  - intros m q b Q. assert (Ca : s_cancel (pr_write p) = false) by (apply (G3 On Write)).
    assert (L : loop_pc c = TWait) by (unfold loop_pc; rewrite On; reflexivity).
    assert (Pop : forall d pd, nth_error (c_procs d) k = Some pd -> pr_pc pd = PGather -> pr_write pd = mkSub TWait false -> c_queue d = m :: q -> c_started (c_step d (ESub k Write (Ret b))) = c_started d ++ [m]).
    { intros d pd Ad Gd Wd Qd. cbn [c_step]. unfold c_sub. rewrite Ad, Gd. cbn [pr_get]. rewrite Wd. cbn [s_cancel]. unfold c_write. cbn [s_pc]. rewrite Qd.
      match goal with |- c_started (finish ?k ?w ?pc ?x) = _ => pose proof (finish_writes k w pc x) as Wr end. unfold writes in Wr. cbn [set_started set_queue c_started] in Wr. congruence. }
    assert (St : forall d, c_step c (ESub k Write (Ret b)) = finish k Write TWait d -> c_procs d = c_procs c -> c_queue d = c_queue c -> c_started d = c_started c -> c_started (c_run c (repeat (ESub k Write (Ret b)) 2)) = c_started c ++ [m]).
    { intros d E1 E2 E3 E4. cbn [repeat c_run fold_left]. rewrite E1. pose proof (finish_writes k Write TWait d) as Wr. unfold writes in Wr.
      rewrite (Pop (finish k Write TWait d) (pr_put Write (mkSub TWait false) p)).
      - congruence.
      - apply finish_get. congruence.
      - rewrite put_pc. exact G.
      - reflexivity.
      - congruence. }
    destruct (pr_write p) as [pc ca] eqn:Wp. cbn [s_cancel] in Ca. subst ca. destruct pc as [| |m'|]; [| | |discriminate].
    + exists 2%nat. split; [lia|]. apply (St c); auto. cbn [c_step]. unfold c_sub. rewrite A, G. cbn [pr_get]. rewrite Wp. cbn [s_cancel]. unfold c_write. cbn [s_pc]. rewrite L. reflexivity.
    + exists 1%nat. split; [lia|]. cbn [repeat c_run fold_left]. apply (Pop c p A G Wp Q).
    + exists 2%nat. split; [lia|]. apply (St (set_sent (c_sent c ++ [m']) c)); auto. cbn [c_step]. unfold c_sub. rewrite A, G. cbn [pr_get]. rewrite Wp. cbn [s_cancel]. unfold c_write. cbn [s_pc]. rewrite L. reflexivity.
Qed.
Print Assumptions C57_served_partial.
Example C57_case :
  let h := [EProcess true; EProc 0 Raise] ++ all_tasks 0 ++ [ESend 7; ESub 0 Write (Ret true); ESend 8] in
  separate (c_new false) h /\ no_raise h /\ serving (c_run (c_new false) h) 0 /\ c_enabled (c_run (c_new false) h) = true /\ c_queue (c_run (c_new false) h) = [8]%Z.
Proof.
  cbn zeta. split; [unfold all_tasks; show_separate|]. split; [intros k w H; cbn in H; repeat (destruct H as [H|H]; [discriminate|]); destruct H|].
  split; [eexists; split; [vm_compute; reflexivity|reflexivity]|]. split; reflexivity.
Qed.

(** C57 is false when a message handler raises: the reader is gone, the
    connection stays enabled, and no later event makes this process() call read
    again. *)
Theorem C57_handler_exception_refuted :
  (let c := c_run (c_new true) ([EProcess true; EProc 0 Raise] ++ all_tasks 0 ++ [ESub 0 Read (Ret true); ESub 0 Read Raise]) in
   c_enabled c = true /\ serving c 0 /\ task_done c 0 Read) /\
  (forall c k p h, nth_error (c_procs c) k = Some p -> pr_pc p = PGather -> done (pr_read p) = true ->
     (forall e, In e h -> match e with EProc j _ => j <> k | _ => True end) -> serving (c_run c h) k /\ task_done (c_run c h) k Read).
Proof.
  split.
  - split; [reflexivity|]. split; (eexists; split; [vm_compute; reflexivity|reflexivity]).
  - intros c k p h. revert c p. induction h as [|e h IH]; intros c p A G D N.
    { split; exists p; auto. }
    change (c_run c (e :: h)) with (c_run (c_step c e) h).
    assert (Ne : forall r, e <> EProc k r) by (intros r ->; apply (N (EProc k r) (or_introl eq_refl)); reflexivity).
    assert (X : exists q, nth_error (c_procs (c_step c e)) k = Some q /\ pr_pc q = PGather /\ done (pr_read q) = true).
    { destruct (step_control c e k p A Ne) as (q & Q & C). injection C as C1 _ _. exists q. split; [exact Q|]. split; [congruence|].
      destruct e as [|m| |b|sig| |j r|j w r]; cbn [c_step] in Q; try (change (nth_error (c_procs c) k = Some q) in Q; congruence).
      - destruct (cancelled_done c k p A) as (q' & Q' & _ & D'). rewrite Q in Q'. injection Q' as <-. rewrite <- D. apply (D' Read).
      - unfold c_process in Q; cbn [set_procs c_procs] in Q. rewrite nth_error_app1 in Q by (eapply nth_lt; exact A). congruence.
      - unfold c_manager in Q. destruct (c_managed c); [|congruence]. destruct (c_enabled c); [congruence|]. destruct (c_auto c); [|cbn [set_managed c_procs] in Q; congruence].
        unfold c_process in Q; cbn [set_procs c_procs] in Q. rewrite nth_error_app1 in Q by (eapply nth_lt; exact A). congruence.
      - rewrite (proc_other j r c k p) in Q; [congruence| |exact A]. intros ->. apply (Ne r). reflexivity.
      - assert (F : forall w pc d pd, nth_error (c_procs d) k = Some pd -> done (pr_read pd) = true -> (w = Read -> j = k -> pc = TDone) ->
          exists pq, nth_error (c_procs (finish j w pc d)) k = Some pq /\ done (pr_read pq) = true).
        { intros w0 pc d pd Ad Dd Hw. unfold finish. rewrite put_sub_eq. cbn [set_procs c_procs]. rewrite alter_nth. destruct (Nat.eq_dec k j) as [<-|].
          - rewrite Ad. cbn [option_map]. eexists; split; [reflexivity|]. destruct w0; cbn [pr_put pr_read]; try exact Dd. rewrite Hw by reflexivity. reflexivity.
          - exists pd. auto. }
        assert (Dis : exists q', nth_error (c_procs (c_disable c)) k = Some q' /\ done (pr_read q') = true).
        { destruct (cancelled_done c k p A) as (q' & Q' & _ & D'). exists q'. split; [exact Q'|]. rewrite <- D. apply (D' Read). }
        destruct Dis as (q' & Q' & D').
        enough (E : exists pq, nth_error (c_procs (c_sub j w r c)) k = Some pq /\ done (pr_read pq) = true) by (destruct E as (pq & E1 & E2); congruence).
        destruct (which_eq w Read) as [->|Nw].
        + destruct (Nat.eq_dec j k) as [->|Nj].
          * unfold c_sub. rewrite A, G. destruct (s_cancel (pr_get Read p)); [apply (F Read TDone c p A D); auto|]. unfold c_read. cbn [pr_get].
            apply done_pc in D as D0. rewrite D0. exists p. auto.
          * destruct (sub_moved j Read r c) as [w0|w0 pc|w0| | |m q0|m]; try (eapply F; [exact A|exact D|congruence]); [exists p; auto| |].
            -- eapply F; [exact Q'|exact D'|congruence].
            -- eapply F; [exact Q'|exact D'|congruence].
        + destruct (sub_moved j w r c) as [w0|w0 pc|w0| | |m q0|m]; try (eapply F; [exact A|exact D|congruence]); [exists p; auto| |].
          -- eapply F; [exact Q'|exact D'|congruence].
          -- eapply F; [exact Q'|exact D'|congruence]. }
    destruct X as (q & Q & X1 & X2). apply (IH (c_step c e) q Q X1 X2). intros e' He. apply N. right. exact He.
Qed.
Print Assumptions C57_handler_exception_refuted.

(** ** C58: the initialized event *)

(** C58.  If no initialization fails, a connection that reports to be initialized
    is enabled. *)
Theorem C58_initialized_partial : forall auto h, separate (c_new auto) h -> init_succeeds h ->
  let c := c_run (c_new auto) h in c_init c = true -> c_enabled c = true.
Proof.
  intros auto h S N c Hi.
  assert (I : INV false true c).
  { apply inv_run; [apply inv_new|discriminate| |exact S]. intros _ e He. destruct e as [| | | | | | |j w [[|]|]]; try reflexivity; try (destruct w; reflexivity).
    destruct w; try reflexivity. destruct (N j He). }
  apply (i_init _ _ _ I eq_refl Hi).
Qed.
Print Assumptions C58_initialized_partial.
(** C58.  A successful initialization sets the event; it stays set while the
    connection is enabled; disabling the connection clears it; and nothing but
    the end of an initialization sets it. *)
Theorem C58_event : forall c,
  (forall k p, nth_error (c_procs c) k = Some p -> pr_pc p = PGather -> pr_init p = mkSub TWait false -> c_init (c_step c (ESub k Init (Ret true))) = true) /\
  (forall e, c_init c = true -> c_init (c_step c e) = true \/ c_enabled (c_step c e) = false) /\
  (forall e, (forall k, e <> ESub k Init (Ret false)) -> c_enabled c = true -> c_enabled (c_step c e) = false -> c_init (c_step c e) = false) /\
  (forall e, c_init c = false -> c_init (c_step c e) = true -> exists k b p, e = ESub k Init (Ret b) /\ nth_error (c_procs c) k = Some p /\ pr_init p = mkSub TWait false).
Proof.
  intros c.
  assert (Fi : forall k w pc d, c_init (finish k w pc d) = c_init d /\ c_enabled (finish k w pc d) = c_enabled d).
  { intros k w pc d. unfold finish. rewrite put_sub_eq. split; reflexivity. }
  assert (Di : c_init (c_disable c) = (if c_enabled c then false else c_init c) /\ c_enabled (c_disable c) = false).
  { split; [|apply disable_hooks]. destruct (c_enabled c) eqn:On; [rewrite disable_eq by exact On; reflexivity|rewrite disable_off by exact On; reflexivity]. }
  destruct Di as [Di De].
  assert (Hh : forall k p d, c_init (c_head k p d) = c_init d /\ c_enabled (c_head k p d) = c_enabled d).
  { intros k p d. unfold c_head. destruct (negb _ && _ && _); [split; reflexivity|]. destruct (negb _); split; reflexivity. }
  split; [|split; [|split]].
  - intros k p A G I. cbn [c_step]. unfold c_sub. rewrite A, G. cbn [pr_get]. rewrite I. cbn [s_cancel]. unfold c_init_task. cbn [s_pc]. destruct (Fi k Init TDone (set_init true c)) as [-> _]. reflexivity.
  - intros e Hi. destruct e as [|m| |b|sig| |k r|k w r]; cbn [c_step]; auto.
    + left. unfold c_manager. destruct (c_managed c); [|exact Hi]. destruct (c_enabled c); [exact Hi|]. destruct (c_auto c); exact Hi.
    + left. unfold c_proc. destruct (nth_error (c_procs c) k) as [p|]; [|exact Hi]. destruct (pr_pc p); try exact Hi.
      * destruct (Hh k p c) as [-> _]. exact Hi.
      * destruct r as [[|]|]; [| |exact Hi]; match goal with |- c_init (c_head ?k ?p ?d) = _ => destruct (Hh k p d) as [-> _] end; exact Hi.
      * destruct (_ && _); exact Hi.
    + destruct (sub_moved k w r c) as [w0|w0 pc|w0| | |m q0|m];
        try (match goal with |- c_init (finish ?k ?w ?pc ?d) = _ \/ _ => destruct (Fi k w pc d) as [-> ->] end); auto.
  - intros e Ne On Off. destruct e as [|m| |b|sig| |k r|k w r]; cbn [c_step] in *; try (exfalso; change (c_enabled c = false) in Off; congruence).
    + rewrite Di, On. reflexivity.
    + exfalso. unfold c_manager in Off. destruct (c_managed c); [|congruence]. rewrite On in Off. congruence.
    + exfalso. unfold c_proc in Off. destruct (nth_error (c_procs c) k) as [p|]; [|congruence]. destruct (pr_pc p); try (rewrite On in Off; discriminate).
      * destruct (Hh k p c) as [_ X]. congruence.
      * cbn [put_proc set_procs set_log c_enabled] in Off. congruence.
      * destruct r as [[|]|].
        -- match type of Off with c_enabled (c_head ?k ?p ?d) = _ => destruct (Hh k p d) as [_ X] end. rewrite X in Off. discriminate.
        -- match type of Off with c_enabled (c_head ?k ?p ?d) = _ => destruct (Hh k p d) as [_ X] end. rewrite X in Off. cbn [set_attempts c_enabled] in Off. congruence.
        -- cbn [put_proc set_procs c_enabled] in Off. congruence.
      * destruct (_ && _); [cbn [put_proc set_procs c_enabled] in Off|]; congruence.
      * cbn [put_proc set_procs set_exited c_enabled] in Off. congruence.
    + assert (Hw : w = Init -> r <> Ret false) by (intros -> ->; apply (Ne k); reflexivity). clear Ne.
      unfold c_sub in *. destruct (nth_error (c_procs c) k) as [p|]; [|congruence]. destruct (pr_pc p); try (rewrite On in Off; discriminate).
      assert (NF : forall w pc, c_enabled (finish k w pc c) = false -> False) by (intros w' pc X; destruct (Fi k w' pc c); congruence).
      assert (DF : forall w pc, c_init (finish k w pc (c_disable c)) = false) by (intros w' pc; destruct (Fi k w' pc (c_disable c)) as [-> _]; rewrite Di, On; reflexivity).
      revert Off. destruct (s_cancel (pr_get w p)); [intros Off; destruct (NF _ _ Off)|].
      destruct w; [unfold c_read, disable_and_end|unfold c_init_task|unfold c_write|unfold c_waitsig, disable_and_end]; cbn [pr_get].
      * destruct (s_pc (pr_read p)); [intros Off; destruct (NF _ _ Off)| | |congruence]; (destruct r as [[|]|]; intros Off; [destruct (NF _ _ Off)|apply DF|destruct (NF _ _ Off)]).
      * destruct (s_pc (pr_init p)); [intros Off; destruct (NF _ _ Off)| |congruence|congruence]. destruct r as [[|]|]; intros Off; [|destruct (Hw eq_refl eq_refl)|destruct (NF _ _ Off)].
        match type of Off with c_enabled (finish ?k ?w ?pc ?d) = _ => destruct (Fi k w pc d) as [_ X] end. rewrite X in Off. cbn [set_init c_enabled] in Off. congruence.
      * destruct (s_pc (pr_write p)); [intros Off; destruct (NF _ _ Off)| | |congruence].
        -- destruct (c_queue c); [congruence|]. intros Off. match type of Off with c_enabled (finish ?k ?w ?pc ?d) = _ => destruct (Fi k w pc d) as [_ X] end. rewrite X in Off. cbn [set_started set_queue c_enabled] in Off. congruence.
        -- destruct r as [b|]; intros Off; [|destruct (NF _ _ Off)]. match type of Off with c_enabled (finish ?k ?w ?pc ?d) = _ => destruct (Fi k w pc d) as [_ X] end. rewrite X in Off. cbn [set_sent c_enabled] in Off. congruence.
      * destruct (s_pc (pr_wait p)); [| |congruence|congruence]; (destruct (c_stop c); intros Off; [apply DF|destruct (NF _ _ Off)]).
  - intros e Hi Hs. assert (Dn : c_init (c_disable c) = false) by (rewrite Di; destruct (c_enabled c); auto).
    destruct e as [|m| |b|sig| |k r|k w r]; cbn [c_step] in *; try (exfalso; change (c_init c = true) in Hs; congruence).
    + congruence.
    + exfalso. unfold c_manager in Hs. destruct (c_managed c); [|congruence]. destruct (c_enabled c); [congruence|]. destruct (c_auto c); (change (c_init c = true) in Hs; congruence).
    + exfalso. unfold c_proc in Hs. destruct (nth_error (c_procs c) k) as [p|]; [|congruence]. destruct (pr_pc p); try (change (c_init c = true) in Hs; congruence).
      * destruct (Hh k p c) as [X _]. congruence.
      * destruct r as [[|]|]; [| |change (c_init c = true) in Hs; congruence];
          match type of Hs with c_init (c_head ?k ?p ?d) = _ => destruct (Hh k p d) as [X _] end; rewrite X in Hs; (change (c_init c = true) in Hs; congruence).
      * destruct (_ && _); [change (c_init c = true) in Hs|]; congruence.
    + assert (NF : forall w pc, c_init (finish k w pc c) = true -> False) by (intros w' pc X; destruct (Fi k w' pc c); congruence).
      assert (DF : forall w pc, c_init (finish k w pc (c_disable c)) = true -> False) by (intros w' pc X; destruct (Fi k w' pc (c_disable c)); congruence).
      assert (W : w = Init).
      { revert Hs. destruct (sub_moved k w r c) as [w0|w0 pc|w0| | |m q0|m]; intros Hs; try reflexivity; exfalso; try congruence; try (apply (NF _ _ Hs)); try (apply (DF _ _ Hs));
          match type of Hs with c_init (finish ?k ?w ?pc ?d) = _ => destruct (Fi k w pc d) as [X _] end; rewrite X in Hs; (change (c_init c = true) in Hs; congruence). }
      subst w. revert Hs. unfold c_sub. destruct (nth_error (c_procs c) k) as [p|] eqn:A; [|congruence]. destruct (pr_pc p); try congruence.
      cbn [pr_get]. destruct (pr_init p) as [pc ca] eqn:Ip. cbn [s_cancel]. destruct ca; [intros Hs; destruct (NF _ _ Hs)|]. unfold c_init_task. cbn [s_pc].
      destruct pc; [intros Hs; destruct (NF _ _ Hs)| |congruence|congruence]. destruct r as [b|]; [|intros Hs; destruct (NF _ _ Hs)]. intros _. exists k, b, p. auto.
Qed.
Print Assumptions C58_event.
(** C58 is false when the initialization fails: the event is set all the same,
    on a connection that has just been disabled; and when it raises, the event
    is never set although the connection stays enabled. *)
Theorem C58_failed_init_refuted :
  (let c := c_run (c_new false) [EProcess true; EProc 0 Raise; ESub 0 Init (Ret true); ESub 0 Init (Ret false)] in
   c_init c = true /\ c_enabled c = false) /\
  (let c := c_run (c_new false) [EProcess true; EProc 0 Raise; ESub 0 Init (Ret true); ESub 0 Init Raise] in
   c_init c = false /\ c_enabled c = true /\ task_done c 0 Init).
Proof. split; [vm_compute; split; reflexivity|]. split; [reflexivity|]. split; [reflexivity|]. eexists. split; [vm_compute; reflexivity|reflexivity]. Qed.
Print Assumptions C58_failed_init_refuted.
Example C58_case :
  let h := [EProcess true; EProc 0 Raise; ESub 0 Init (Ret true); ESub 0 Init (Ret true)] in
  separate (c_new false) h /\ c_init (c_run (c_new false) h) = true /\ c_init (c_run (c_new false) (h ++ [EDisable])) = false.
Proof. cbn zeta. split; [show_separate|]. split; reflexivity. Qed.

(** ** C44: restart counters *)

(** C44.  The counters behind the channels are the numbers of restart() calls
    that returned True, and that returned, modulo 2^8. *)
Theorem C44_restart_counters : forall auto h,
  let c := c_run (c_new auto) h in
  c_restarts c = (Z.of_nat (List.length (filter (fun b => b) (restarted (c_new auto) h))) mod 2 ^ 8)%Z /\
  c_attempts c = (Z.of_nat (List.length (restarted (c_new auto) h)) mod 2 ^ 8)%Z /\
  channel "restarts" c = Some (c_restarts c).
Proof.
  intros auto h c. destruct (run_counters h (c_new auto)) as [A B]. destruct (counters_range h (c_new auto)) as [R1 R2]; try (cbn; lia). fold c in A, B, R1, R2.
  rewrite Z.mod_small in A, B by assumption. unfold trues, cnt in A, B. cbn [c_new c_attempts c_restarts] in A, B. change (2 ^ 8)%Z with 256%Z. split; [|split]; [| |reflexivity]; first [rewrite A|rewrite B]; f_equal; lia.
Qed.
Print Assumptions C44_restart_counters.
(** C44 is false for the channel restart_attempts: it shows the number of
    successful restarts. *)
Theorem C44_restart_attempts_refuted :
  (forall c, channel "restart_attempts" c = channel "restarts" c) /\
  (let h := [EDisable; EProcess false; EProc 0 Raise; EProc 0 Raise; EProc 0 (Ret false)] in
   restarted (c_new false) h = [false] /\ channel "restart_attempts" (c_run (c_new false) h) = Some 0%Z).
Proof. split; [reflexivity|]. vm_compute. split; reflexivity. Qed.
Print Assumptions C44_restart_attempts_refuted.
