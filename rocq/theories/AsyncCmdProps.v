(** C49: queued asynchronous commands are handled once and in order. *)
From Verif Require Import Base BaseLemmas TaskModel TaskProofs AsyncCmdModel AsyncCmdSpec AsyncCmdProofs.
From Coq Require Import ZifyBool ZifyNat Lia.
Open Scope list_scope.

(** C49.  At any time the commands taken out of the queue, followed by those that
    wait in it, are exactly the commands issued since the object was set up, in
    the order they were issued: none is lost, doubled or overtaken.  This holds
    for any number of processors, however often the object is set up, and
    whatever the handlers do. *)
Theorem C49_fifo : forall h, ac_taken (ac_run ac_new h) ++ ac_queue (ac_run ac_new h) = issued false h.
Proof. intros h. rewrite (run_taken h ac_new) by (cbn; lia). reflexivity. Qed.
Print Assumptions C49_fifo.

(** C49.  Every command taken out of the queue is given to one handler (the right
    one), in the order of the queue, or it is a custom command that nobody
    registered. *)
Theorem C49_dispatch : forall h, let s := ac_run ac_new h in
  merged (map fst (ac_begun s)) (ac_unknown s) (ac_taken s) /\
  (forall c t, In (c, t) (ac_begun s) -> right_target (ac_customs s) c t) /\
  (forall c, In c (ac_unknown s) -> cm_custom c = true).
Proof.
  intros h s. destruct (run_targets h ac_new) as (M & B & U).
  - split; [constructor|]. split; constructor.
  - split; [exact M|]. rewrite Forall_forall in B, U. split; [|exact U]. intros c t H. apply (B (c, t) H).
Qed.
Print Assumptions C49_dispatch.

(** C49.  With all custom commands registered first, the handlers started and the
    commands waiting are exactly the commands issued, in order. *)
Theorem C49_exactly_once : forall names h, NoDup names ->
  (forall c p, In (EIssue c p) h -> cm_custom c = true -> In (cm_name c) names) ->
  let s := ac_run ac_new (ESetup names :: h) in
  map fst (ac_begun s) ++ ac_queue s = issued true h.
Proof.
  intros names h ND I s. pose proof (C49_fifo (ESetup names :: h)) as F. cbn [issued] in F. fold s in F. rewrite <- F. f_equal.
  destruct (C49_dispatch (ESetup names :: h)) as (M & _ & _). fold s in M.
  assert (U : ac_unknown s = []).
  { unfold s. cbn [ac_run fold_left]. apply (run_known names h); [|exact I]. cbn [ac_step]. unfold ac_setup.
    pose proof (register_all names [] ND) as R. cbn [app] in R. cbn [ac_customs ac_new]. destruct (register names []) as [l ok]. cbn [fst] in R. subst l.
    split; [intros n H; exact H|]. split; [reflexivity|intros c []]. }
  rewrite U in M. clear -M. remember (@nil cmd) as u eqn:Hu. induction M; [reflexivity|f_equal; apply IHM, Hu|discriminate].
Qed.
Print Assumptions C49_exactly_once.

(** C49.  A second registration of a name is rejected. *)
Theorem C49_duplicate_name : forall names s n, In n names -> In n (ac_customs s) -> snd (ac_setup names s) = false.
Proof. intros names s n H K. unfold ac_setup. pose proof (register_dup names _ n H K) as R. destruct (register names (ac_customs s)) as [l ok]. exact R. Qed.
Print Assumptions C49_duplicate_name.

(** C49, when a processor is only called while no other is at work: a handler is
    started only after the one before it has ended. *)
Theorem C49_one_by_one_partial : forall h, one_at_a_time ac_new h -> (List.length (handling (ac_run ac_new h)) <= 1)%nat.
Proof.
  intros h O. destruct (run_only h ac_new) as [k K]; [exists 0%nat; intros [|j] p Hj; discriminate|exact O|].
  unfold handling. change (List.length (handled (ac_procs (ac_run ac_new h))) <= 1)%nat. rewrite (only_handled k _ K).
  destruct (nth_error _ k) as [[|c| |]|]; cbn; lia.
Qed.
Print Assumptions C49_one_by_one_partial.

(** C49.  ... and if no handler raises, the handlers end in the order in which the
    commands were taken. *)
Theorem C49_ends_in_order_partial : forall h, one_at_a_time ac_new h -> no_failure h ->
  let s := ac_run ac_new h in map fst (ac_begun s) = ac_ended s ++ handling s.
Proof.
  intros h O F s. apply (run_prog h ac_new); [|exact O|exact F|reflexivity]. exists 0%nat. intros [|j] p Hj; discriminate.
Qed.
Print Assumptions C49_ends_in_order_partial.

(** C49.  A processor that returns leaves the queue empty ... *)
Theorem C49_returns_when_empty : forall s k ok,
  nth_error (ac_procs s) k <> Some PDone -> nth_error (ac_procs (ac_step s (EMove k ok))) k = Some PDone ->
  ac_queue (ac_step s (EMove k ok)) = [].
Proof. exact done_empty. Qed.
Print Assumptions C49_returns_when_empty.

(** C49.  ... and it does return if its handlers do: whatever was queued when it
    was called is handled, also what earlier processors left behind. *)
Theorem C49_drains : forall s, exists m, (m <= 1 + List.length (ac_queue s))%nat /\
  let s' := ac_run s (ECall :: repeat (EMove (List.length (ac_procs s)) true) m) in
  nth_error (ac_procs s') (List.length (ac_procs s)) = Some PDone /\ ac_queue s' = [].
Proof.
  intros s. set (k := List.length (ac_procs s)). set (s1 := ac_step s ECall).
  assert (P : nth_error (ac_procs s1) k = Some PCalled) by (cbn; rewrite nth_error_app2 by (unfold k; lia); unfold k; rewrite Nat.sub_diag; reflexivity).
  assert (Lt : (k < List.length (ac_procs s1))%nat) by (apply nth_error_Some; rewrite P; discriminate).
  assert (M : ac_step s1 (EMove k true) = ac_go k s1) by (cbn [ac_step]; unfold ac_move; rewrite P; reflexivity).
  destruct (go_cases k s1 Lt) as [[D E]|(c & P' & L)].
  - exists 1%nat. split; [lia|]. cbn [repeat ac_run fold_left]. fold s1. rewrite M. auto.
  - change (ac_queue s1) with (ac_queue s) in L. destruct (handle_drains (List.length (ac_queue s) - 1) (ac_go k s1) k c ltac:(lia) P') as (m & Hm & R).
    destruct (Nat.eq_dec (List.length (ac_queue s)) 0) as [Z|Z]; [lia|]. exists (S m). split; [lia|].
    cbn [repeat ac_run fold_left]. fold s1. rewrite M. exact R.
Qed.
Print Assumptions C49_drains.

(** C49, one command after the other.  Refuted when two processors are at work
    (two tasks may call process_command_queue for one object): the handlers
    overlap and the second command is complete before the first. *)
Definition first := mkCmd false "set" 1.
Definition second := mkCmd false "set" 2.
Theorem C49_concurrent_refuted :
  let h := [ESetup []; EIssue first true; EIssue second true; ECall; ECall; EMove 0 true; EMove 1 true] in
  handling (ac_run ac_new h) = [first; second] /\ ac_ended (ac_run ac_new (h ++ [EMove 1 true])) = [second].
Proof. vm_compute. split; reflexivity. Qed.
Print Assumptions C49_concurrent_refuted.

(** C49.  Housekeeping: as long as no handler raises, each dispatch leaves all
    queues empty ... *)
Theorem C49_housekeeping_partial : forall s, hk_alive s = true -> (forall q, In q (hk_queues s) -> ~ In true q) ->
  hk_alive (hk_dispatch s) = true /\ forall q, In q (hk_queues (hk_dispatch s)) -> q = [].
Proof.
  intros s A H. unfold hk_dispatch. rewrite A. cbn [hk_alive hk_queues]. split.
  - apply forallb_forall. intros q Hq. rewrite drain_ok by (apply H, Hq). reflexivity.
  - intros q Hq. apply in_map_iff in Hq. destruct Hq as (q0 & <- & Hq). rewrite drain_ok by (apply H, Hq). reflexivity.
Qed.
Print Assumptions C49_housekeeping_partial.

(** C49.  Refuted: after one handler of one object has raised, no command of any
    object is handled any more: a command issued later stays in its queue. *)
Theorem C49_housekeeping_refuted : forall s q, hk_alive s = true -> In q (hk_queues s) -> In true q ->
  forall k r h, (k < List.length (hk_queues s))%nat ->
  exists q', nth_error (hk_queues (fold_left hk_step (HDispatch :: HIssue k r :: h) s)) k = Some q' /\ In r q'.
Proof.
  intros s q A Hq Hr k r h Lt. cbn [fold_left]. set (s1 := hk_step s HDispatch).
  assert (A1 : hk_alive s1 = false).
  { unfold s1. cbn [hk_step]. unfold hk_dispatch. rewrite A. cbn [hk_alive]. destruct (forallb _ _) eqn:F; [|reflexivity].
    rewrite forallb_forall in F. specialize (F q Hq). rewrite drain_raises in F by exact Hr. discriminate. }
  assert (L1 : List.length (hk_queues s1) = List.length (hk_queues s)) by (unfold s1; cbn [hk_step]; unfold hk_dispatch; rewrite A; cbn [hk_queues]; apply map_length).
  set (s2 := hk_step s1 (HIssue k r)).
  assert (S2 : hk_alive s2 = false /\ exists q', nth_error (hk_queues s2) k = Some q' /\ In r q').
  { unfold s2. cbn [hk_step]. unfold hk_issue. destruct (nth_error (hk_queues s1) k) as [q1|] eqn:N.
    - cbn [hk_alive hk_queues]. split; [exact A1|]. exists (q1 ++ [r]). rewrite upd_nth by lia. split; [reflexivity|]. apply in_app_iff. right. left. reflexivity.
    - apply nth_error_None in N. lia. }
  clearbody s2. clear - S2. revert s2 S2. induction h as [|e h IH]; intros s (A & q' & N & I); [exists q'; auto|]. cbn [fold_left]. apply IH.
  destruct e as [j x|]; cbn [hk_step].
  - unfold hk_issue. destruct (nth_error (hk_queues s) j) as [qj|] eqn:J; [|split; [exact A|exists q'; auto]]. cbn [hk_alive hk_queues]. split; [exact A|].
    destruct (Nat.eq_dec k j) as [<-|Ne].
    + rewrite N in J. injection J as <-. exists (q' ++ [x]). rewrite upd_nth by (apply nth_error_Some; rewrite N; discriminate). split; [reflexivity|]. apply in_app_iff. auto.
    + exists q'. rewrite upd_nth_ne by congruence. auto.
  - unfold hk_dispatch. rewrite A. split; [exact A|]. exists q'. auto.
Qed.
Print Assumptions C49_housekeeping_refuted.

(** A run: a command before the setup, three commands (one with an unknown name),
    a handler that raises, and a second processor that goes on. *)
Example C49_case :
  let c := mkCmd true "reload" 7 in let u := mkCmd true "nope" 8 in
  let h := [EIssue first true; ESetup ["reload"%string]; ESetup []; EIssue u true; EIssue c true; EIssue first false; EIssue second true; ECall; EMove 0 true; EMove 0 false] in
  let h' := h ++ [ECall; EMove 1 true; EMove 1 true] in
  one_at_a_time ac_new h' /\
  ac_queue (ac_run ac_new h) = [second] /\ ac_begun (ac_run ac_new h) = [(c, TCustom "reload")] /\ ac_unknown (ac_run ac_new h) = [u] /\
  ac_ended (ac_run ac_new h') = [second] /\ ac_queue (ac_run ac_new h') = [] /\ issued false h' = [u; c; second] /\
  ac_procs (ac_run ac_new h') = [PFailed; PDone].
Proof. vm_compute. repeat split; discriminate. Qed.
Example C49_case_housekeeping : let s := mkHk true [[false; true; false]; [false]] in
  hk_dispatch s = mkHk false [[false]; []] /\ hk_dispatch (hk_issue 1 false (hk_dispatch s)) = mkHk false [[false]; [false]].
Proof. vm_compute. split; reflexivity. Qed.
