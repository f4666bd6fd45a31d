(** Proofs about the connection lifecycle. *)
From Verif Require Import Base BaseLemmas PrimModel BackoffModel TaskModel TaskProofs ConnModel ConnSpec.
From Coq Require Import ZifyBool ZifyNat Lia.
Open Scope list_scope.

Definition alter {A} (k : nat) (f : A -> A) (l : list A) : list A :=
  match nth_error l k with Some x => upd k (f x) l | None => l end.
Lemma alter_nth {A} k (f : A -> A) l j :
  nth_error (alter k f l) j = if Nat.eq_dec j k then option_map f (nth_error l j) else nth_error l j.
Proof.
  unfold alter. destruct (Nat.eq_dec j k) as [->|N].
  - destruct (nth_error l k) as [x|] eqn:E; [|rewrite E; reflexivity]. cbn. apply upd_nth. eapply nth_lt; exact E.
  - destruct (nth_error l k); [apply upd_nth_ne; congruence|reflexivity].
Qed.
Lemma alter_length {A} k (f : A -> A) l : List.length (alter k f l) = List.length l.
Proof. unfold alter. destruct (nth_error l k); [apply upd_length|reflexivity]. Qed.
Lemma set_procs_same c : set_procs (c_procs c) c = c.
Proof. destruct c; reflexivity. Qed.

Lemma put_proc_eq k p q c : nth_error (c_procs c) k = Some p -> put_proc k q c = set_procs (alter k (fun _ => q) (c_procs c)) c.
Proof. intros H. unfold put_proc, alter. rewrite H. reflexivity. Qed.
Lemma put_sub_eq k w s c : put_sub k w s c = set_procs (alter k (pr_put w s) (c_procs c)) c.
Proof. unfold put_sub, alter. destruct (nth_error (c_procs c) k); [reflexivity|symmetry; apply set_procs_same]. Qed.
Definition cancelled (c : conn) : list proc :=
  match c_cur c with Some k => alter k (pr_map s_cancelled) (c_procs c) | None => c_procs c end.
Lemma disable_eq c : c_enabled c = true ->
  c_disable c = set_procs (cancelled c) (set_init false (set_enabled false (set_hooks (S (c_hooks c)) c))).
Proof.
  intros E. unfold c_disable, cancelled, alter. rewrite E. destruct c as [en ho ini ex st au ma re at' qu enq sta sen log cur pr]. cbn.
  destruct cur as [k|]; [|reflexivity]. destruct (nth_error pr k); reflexivity.
Qed.
Lemma disable_off c : c_enabled c = false -> c_disable c = c.
Proof. intros E. unfold c_disable. rewrite E. reflexivity. Qed.

(** ** The control part of a process() call changes only when it moves. *)
Definition control (p : proc) : prpc * backoff * bool := (pr_pc p, pr_bo p, pr_sig p).
Lemma control_put w s p : control (pr_put w s p) = control p.
Proof. destruct w; reflexivity. Qed.
Lemma control_map f p : control (pr_map f p) = control p.
Proof. reflexivity. Qed.
Lemma alter_control k (f : proc -> proc) l j p : (forall q, control (f q) = control q) ->
  nth_error l j = Some p -> exists q, nth_error (alter k f l) j = Some q /\ control q = control p.
Proof.
  intros H E. rewrite alter_nth. destruct (Nat.eq_dec j k); rewrite E; cbn; [exists (f p); split; [reflexivity|apply H]|exists p; auto].
Qed.
Lemma finish_control k w pc c j p : nth_error (c_procs c) j = Some p ->
  exists q, nth_error (c_procs (finish k w pc c)) j = Some q /\ control q = control p.
Proof. intros E. unfold finish. rewrite put_sub_eq. cbn [set_procs c_procs]. apply alter_control; [apply control_put|exact E]. Qed.
Lemma disable_control c j p : nth_error (c_procs c) j = Some p ->
  exists q, nth_error (c_procs (c_disable c)) j = Some q /\ control q = control p.
Proof.
  intros E. destruct (c_enabled c) eqn:B; [|rewrite disable_off by exact B; exists p; auto]. rewrite disable_eq by exact B. cbn [set_procs c_procs]. unfold cancelled.
  destruct (c_cur c); [apply alter_control; [apply control_map|exact E]|exists p; auto].
Qed.

(** What a move of a task does to the other fields. *)
Definition rest (c : conn) := (c_stop c, c_auto c, c_managed c, c_restarts c, c_attempts c, c_enq c, c_log c, c_cur c, c_exited c).
Lemma finish_rest k w pc c : rest (finish k w pc c) = rest c.
Proof. unfold finish. rewrite put_sub_eq. reflexivity. Qed.
Lemma disable_rest c : rest (c_disable c) = rest c.
Proof. destruct (c_enabled c) eqn:B; [rewrite disable_eq by exact B|rewrite disable_off by exact B]; reflexivity. Qed.

(** The possible effects of a task's move. *)
Inductive moved (k : nat) (c : conn) : which -> conn -> Prop :=
| mv_same w : moved k c w c
| mv_finish w pc : moved k c w (finish k w pc c)
| mv_disable w : moved k c w (finish k w TDone (c_disable c))
| mv_init_ok : moved k c Init (finish k Init TDone (set_init true c))
| mv_init_bad : moved k c Init (finish k Init TDone (set_init true (c_disable c)))
| mv_pop m q : c_queue c = m :: q -> moved k c Write (finish k Write (TWork m) (set_started (c_started c ++ [m]) (set_queue q c)))
| mv_sent m : moved k c Write (finish k Write (loop_pc c) (set_sent (c_sent c ++ [m]) c)).
Lemma sub_moved k w r c : moved k c w (c_sub k w r c).
Proof.
  unfold c_sub. destruct (nth_error (c_procs c) k) as [p|]; [|constructor]. destruct (pr_pc p); try constructor.
  destruct (s_cancel (pr_get w p)); [constructor|]. destruct w.
  - unfold c_read, disable_and_end. destruct (s_pc (pr_get Read p)), r as [[|]|]; constructor.
  - unfold c_init_task. destruct (s_pc (pr_get Init p)), r as [[|]|]; constructor.
  - unfold c_write. destruct (s_pc (pr_get Write p)); [constructor| | |constructor].
    + destruct (c_queue c) eqn:E; constructor. exact E.
    + destruct r; constructor.
  - unfold c_waitsig, disable_and_end. destruct (s_pc (pr_get WaitSig p)), (c_stop c); constructor.
Qed.
Lemma moved_control k w c c' j p : moved k c w c' -> nth_error (c_procs c) j = Some p ->
  exists q, nth_error (c_procs c') j = Some q /\ control q = control p.
Proof.
  intros M E. destruct M; try (apply finish_control; exact E).
  - exists p; auto.
  - destruct (disable_control c j p E) as (q & Q & C). destruct (finish_control k w TDone (c_disable c) j q Q) as (q' & Q' & C'). exists q'. split; congruence.
  - destruct (disable_control c j p E) as (q & Q & C). destruct (finish_control k Init TDone (set_init true (c_disable c)) j q Q) as (q' & Q' & C'). exists q'. split; congruence.
Qed.
Lemma moved_rest k w c c' : moved k c w c' -> rest c' = rest c.
Proof.
  intros M. destruct M; try reflexivity; rewrite finish_rest; try reflexivity; [apply disable_rest|].
  change (rest (set_init true (c_disable c))) with (rest (c_disable c)). apply disable_rest.
Qed.
Lemma moved_length k w c c' : moved k c w c' -> List.length (c_procs c') = List.length (c_procs c).
Proof.
  assert (F : forall pc w c, List.length (c_procs (finish k w pc c)) = List.length (c_procs c)) by (intros; unfold finish; rewrite put_sub_eq; apply alter_length).
  assert (D : List.length (c_procs (c_disable c)) = List.length (c_procs c)).
  { destruct (c_enabled c) eqn:B; [rewrite disable_eq by exact B|rewrite disable_off by exact B; reflexivity]. cbn [set_procs c_procs]. unfold cancelled. destruct (c_cur c); [apply alter_length|reflexivity]. }
  intros M. destruct M; rewrite ?F; try reflexivity; exact D.
Qed.

(** ** Hooks *)
Lemma disable_hooks c : c_hooks (c_disable c) = (c_hooks c + if c_enabled c then 1 else 0)%nat /\ c_enabled (c_disable c) = false.
Proof.
  destruct (c_enabled c) eqn:B; [rewrite disable_eq by exact B; cbn; split; [lia|reflexivity]|rewrite disable_off by exact B; split; [lia|exact B]].
Qed.
Lemma finish_enabled k w pc c : c_enabled (finish k w pc c) = c_enabled c /\ c_hooks (finish k w pc c) = c_hooks c.
Proof. unfold finish. rewrite put_sub_eq. split; reflexivity. Qed.
Lemma put_proc_enabled k p c : c_enabled (put_proc k p c) = c_enabled c /\ c_hooks (put_proc k p c) = c_hooks c.
Proof. split; reflexivity. Qed.
Lemma head_enabled k p c : c_enabled (c_head k p c) = c_enabled c /\ c_hooks (c_head k p c) = c_hooks c.
Proof. unfold c_head. destruct (negb (c_enabled c) && _ && _); [split; reflexivity|]. destruct (negb (c_enabled c)); split; reflexivity. Qed.

Lemma step_hooks c e : c_hooks (c_step c e) = (c_hooks c + if c_enabled c && negb (c_enabled (c_step c e)) then 1 else 0)%nat.
Proof.
  assert (Z : forall c', c_hooks c' = c_hooks c -> (c_enabled c = true -> c_enabled c' = true) -> c_hooks c' = (c_hooks c + if c_enabled c && negb (c_enabled c') then 1 else 0)%nat).
  { intros c' H1 H2. rewrite H1. destruct (c_enabled c); [rewrite H2 by reflexivity|]; cbn; lia. }
  assert (D : c_hooks (c_disable c) = (c_hooks c + if c_enabled c && negb (c_enabled (c_disable c)) then 1 else 0)%nat).
  { destruct (disable_hooks c) as [-> ->]. rewrite andb_true_r. reflexivity. }
  destruct e as [|m| |b|sig| |k r|k w r]; cbn [c_step]; try (apply Z; [reflexivity|intros; assumption]); [exact D| | |].
  - unfold c_manager. destruct (c_managed c); [|apply Z; auto]. destruct (c_enabled c) eqn:B; [rewrite B; cbn; lia|]. destruct (c_auto c); cbn; lia.
  - unfold c_proc. destruct (nth_error (c_procs c) k) as [p|]; [|apply Z; auto]. destruct (pr_pc p); try (apply Z; [reflexivity|auto]).
    + destruct (head_enabled k p c) as [H1 H2]. apply Z; [exact H2|rewrite H1; auto].
    + destruct r as [[|]|]; [| |apply Z; [reflexivity|auto]].
      * match goal with |- c_hooks (c_head k p ?x) = _ => destruct (head_enabled k p x) as [H1 H2] end. apply Z; [rewrite H2; reflexivity|rewrite H1; reflexivity].
      * match goal with |- c_hooks (c_head k p ?x) = _ => destruct (head_enabled k p x) as [H1 H2] end. apply Z; [rewrite H2; reflexivity|rewrite H1; auto].
    + destruct (done (pr_read p) && _ && _ && _); apply Z; auto.
  - destruct (sub_moved k w r c); try (apply Z; auto; fail).
    + destruct (finish_enabled k w pc c) as [H1 H2]. apply Z; [exact H2|rewrite H1; auto].
    + destruct (finish_enabled k w TDone (c_disable c)) as [-> ->]. exact D.
    + destruct (finish_enabled k Init TDone (set_init true c)) as [H1 H2]. apply Z; [rewrite H2; reflexivity|rewrite H1; auto].
    + destruct (finish_enabled k Init TDone (set_init true (c_disable c))) as [-> ->]. exact D.
    + match goal with |- c_hooks (finish _ _ ?pc ?x) = _ => destruct (finish_enabled k Write pc x) as [H1 H2] end. apply Z; [rewrite H2; reflexivity|rewrite H1; auto].
    + match goal with |- c_hooks (finish _ _ ?pc ?x) = _ => destruct (finish_enabled k Write pc x) as [H1 H2] end. apply Z; [rewrite H2; reflexivity|rewrite H1; auto].
Qed.
Lemma run_hooks h : forall c, c_hooks (c_run c h) = (c_hooks c + ends c h)%nat.
Proof.
  induction h as [|e h IH]; intros c; [cbn; lia|]. change (c_run c (e :: h)) with (c_run (c_step c e) h). rewrite IH, step_hooks. cbn [ends]. lia.
Qed.

(** ** Restart attempts *)
(** How one step changes process() call [k]. *)
Lemma proc_other k r c j p : j <> k -> nth_error (c_procs c) j = Some p -> nth_error (c_procs (c_proc k r c)) j = Some p.
Proof.
  intros N E. assert (P : forall q d, c_procs d = c_procs c -> nth_error (c_procs (put_proc k q d)) j = Some p).
  { intros q d L. unfold put_proc. cbn [set_procs c_procs]. rewrite L, upd_nth_ne by congruence. exact E. }
  assert (H : forall q d, c_procs d = c_procs c -> nth_error (c_procs (c_head k q d)) j = Some p).
  { intros q d L. unfold c_head. destruct (negb (c_enabled d) && _ && _); [apply P; exact L|]. destruct (negb (c_enabled d)); [apply P; exact L|]. apply (P _ d L). }
  unfold c_proc. destruct (nth_error (c_procs c) k) as [q|]; [|exact E]. destruct (pr_pc q); try exact E; try (apply P; reflexivity).
  - apply H. reflexivity.
  - destruct r as [[|]|]; [apply H; reflexivity|apply H; reflexivity|apply P; reflexivity].
  - destruct (done (pr_read q) && _ && _ && _); [apply P; reflexivity|exact E].
Qed.
Lemma step_control c e k p : nth_error (c_procs c) k = Some p -> (forall r, e <> EProc k r) ->
  exists q, nth_error (c_procs (c_step c e)) k = Some q /\ control q = control p.
Proof.
  intros E N. assert (A : forall x, nth_error (c_procs c ++ [x]) k = Some p) by (intros x; rewrite nth_error_app1 by (eapply nth_lt; exact E); exact E).
  destruct e as [|m| |b|sig| |j r|j w r]; cbn [c_step]; try (exists p; split; [exact E|reflexivity]).
  - apply disable_control. exact E.
  - exists p. split; [apply A|reflexivity].
  - unfold c_manager. destruct (c_managed c); [|exists p; auto]. destruct (c_enabled c); [exists p; auto|]. destruct (c_auto c); [|exists p; auto].
    exists p. split; [apply A|reflexivity].
  - exists p. split; [|reflexivity]. apply proc_other; [intros ->; apply (N r); reflexivity|exact E].
  - apply (moved_control j w c _ k p (sub_moved j w r c) E).
Qed.
Lemma head_log k p c : c_log (c_head k p c) = c_log c /\ c_stop (c_head k p c) = c_stop c.
Proof. unfold c_head. destruct (negb (c_enabled c) && _ && _); [split; reflexivity|]. destruct (negb (c_enabled c)); split; reflexivity. Qed.
Lemma step_log c e : (c_log (c_step c e) = c_log c) \/
  (exists k r p, e = EProc k r /\ nth_error (c_procs c) k = Some p /\ pr_pc p = PSleep /\ c_log (c_step c e) = c_log c ++ [mkAttempt k (c_enabled c) (c_stop c)]).
Proof.
  destruct e as [|m| |b|sig| |k r|k w r]; cbn [c_step]; try (left; reflexivity).
  - left. pose proof (disable_rest c) as H. unfold rest in H. congruence.
  - left. unfold c_manager. destruct (c_managed c); [|reflexivity]. destruct (c_enabled c); [reflexivity|]. destruct (c_auto c); reflexivity.
  - unfold c_proc. destruct (nth_error (c_procs c) k) as [p|] eqn:E; [|left; reflexivity]. destruct (pr_pc p) eqn:P; try (left; reflexivity).
    + left. apply head_log.
    + right. exists k, r, p. rewrite E. auto.
    + left. destruct r as [[|]|]; [| |reflexivity]; rewrite (proj1 (head_log k p _)); reflexivity.
    + left. destruct (done (pr_read p) && _ && _ && _); reflexivity.
  - left. pose proof (moved_rest k w c _ (sub_moved k w r c)) as H. unfold rest in H. congruence.
Qed.
Lemma step_stop c e : c_stop (c_step c e) = (match e with EStop => true | _ => c_stop c end).
Proof.
  destruct e as [|m| |b|sig| |k r|k w r]; cbn [c_step]; try reflexivity.
  - pose proof (disable_rest c) as H. unfold rest in H. congruence.
  - unfold c_manager. destruct (c_managed c); [|reflexivity]. destruct (c_enabled c); [reflexivity|]. destruct (c_auto c); reflexivity.
  - unfold c_proc. destruct (nth_error (c_procs c) k) as [p|] eqn:E; [|reflexivity]. destruct (pr_pc p) eqn:P; try reflexivity.
    + apply head_log.
    + destruct r as [[|]|]; [| |reflexivity]; rewrite (proj2 (head_log k p _)); reflexivity.
    + destruct (done (pr_read p) && _ && _ && _); reflexivity.
  - pose proof (moved_rest k w c _ (sub_moved k w r c)) as H. unfold rest in H. congruence.
Qed.

(** The control of process() call [k] after it moved. *)
Definition next_control (p : proc) (r : res) (enabled stop all_done : bool) : prpc * backoff * bool :=
  let head (en : bool) :=
    if negb en && negb (bo_give_up (pr_bo p)) && negb (pr_sig p && stop) then (PSleep, snd (bo_sleep (pr_bo p)), pr_sig p)
    else if negb en then (PReturned, pr_bo p, pr_sig p) else (PGather, pr_bo p, pr_sig p) in
  match pr_pc p with
  | PStart => head enabled
  | PSleep => (PRestart, pr_bo p, pr_sig p)
  | PRestart => match r with Raise => (PRaised, pr_bo p, pr_sig p) | Ret ok => head (ok || enabled) end
  | PGather => if all_done then (PClose, pr_bo p, pr_sig p) else control p
  | PClose => (PReturned, pr_bo p, pr_sig p)
  | _ => control p
  end.
Lemma proc_control k r c p : nth_error (c_procs c) k = Some p ->
  exists q, nth_error (c_procs (c_proc k r c)) k = Some q /\
    control q = next_control p r (c_enabled c) (c_stop c) (done (pr_read p) && done (pr_init p) && done (pr_write p) && done (pr_wait p)).
Proof.
  intros E. assert (P : forall q d, c_procs d = c_procs c -> nth_error (c_procs (put_proc k q d)) k = Some q).
  { intros q d L. unfold put_proc. cbn [set_procs c_procs]. rewrite L. apply upd_nth. eapply nth_lt; exact E. }
  assert (H : forall d, c_procs d = c_procs c -> exists q, nth_error (c_procs (c_head k p d)) k = Some q /\
     control q = (if negb (c_enabled d) && negb (bo_give_up (pr_bo p)) && negb (pr_sig p && c_stop d) then (PSleep, snd (bo_sleep (pr_bo p)), pr_sig p)
    else if negb (c_enabled d) then (PReturned, pr_bo p, pr_sig p) else (PGather, pr_bo p, pr_sig p))).
  { intros d L. unfold c_head. destruct (negb (c_enabled d) && _ && _); [eexists; split; [apply P; exact L|reflexivity]|].
    destruct (negb (c_enabled d)); [eexists; split; [apply P; exact L|reflexivity]|]. eexists; split; [apply (P _ d L)|reflexivity]. }
  unfold c_proc, next_control. rewrite E. destruct (pr_pc p) eqn:Pc; cbn zeta; try (eexists; split; [apply P; reflexivity|reflexivity]); try (exists p; split; [exact E|reflexivity]).
  - apply (H c eq_refl).
  - destruct r as [[|]|]; cbn zeta; [| |eexists; split; [apply P; reflexivity|reflexivity]].
    + match goal with |- exists q, nth_error (c_procs (c_head k p ?x)) k = _ /\ _ => apply (H x eq_refl) end.
    + match goal with |- exists q, nth_error (c_procs (c_head k p ?x)) k = _ /\ _ => apply (H x eq_refl) end.
  - destruct (done (pr_read p) && _ && _ && _); [eexists; split; [apply P; reflexivity|reflexivity]|exists p; split; [exact E|reflexivity]].
Qed.

(** ** The log of one process() call *)
Open Scope Z_scope.
Definition asleep (p : proc) : Z := match pr_pc p with PSleep => 1 | _ => 0 end.
Definition cnt {A} (l : list A) : Z := Z.of_nat (List.length l).
Lemma cnt_app {A} (l l' : list A) : cnt (l ++ l') = cnt l + cnt l'.
Proof. unfold cnt. rewrite app_length. lia. Qed.
(** What the log says about call [k]. *)
Record LG (c : conn) (k : nat) (p : proc) : Prop := {
  lg_count : cnt (attempts_of k c) + asleep p = bo_attempt (pr_bo p);
  lg_max : bo_max_tries (pr_bo p) = 20 /\ bo_attempt (pr_bo p) <= 20;
  lg_late : pr_sig p = true -> cnt (late_attempts k c) + (if c_stop c then asleep p else 0) <= (if c_stop c then 1 else 0)
}.
Lemma asleep_control p q : control p = control q -> asleep p = asleep q /\ pr_bo p = pr_bo q /\ pr_sig p = pr_sig q.
Proof. unfold control, asleep. intros H. injection H as H1 H2 H3. rewrite H1. auto. Qed.
Lemma attempts_step c e k : (c_log (c_step c e) = c_log c) -> attempts_of k (c_step c e) = attempts_of k c /\ late_attempts k (c_step c e) = late_attempts k c.
Proof. unfold late_attempts, attempts_of. intros ->. auto. Qed.
Lemma late_le k c : cnt (late_attempts k c) <= cnt (attempts_of k c).
Proof. unfold late_attempts, cnt. induction (attempts_of k c) as [|x l IH]; [cbn; lia|]. cbn [filter]. destruct (at_stop x); cbn [List.length]; lia. Qed.

Lemma lg_step c e k p : nth_error (c_procs c) k = Some p -> LG c k p ->
  exists q, nth_error (c_procs (c_step c e)) k = Some q /\ LG (c_step c e) k q.
Proof.
  intros E [L1 L2 L3].
  assert (D : (exists r, e = EProc k r) \/ forall r, e <> EProc k r).
  { destruct e as [| | | | | |j r|]; try (right; intros; discriminate). destruct (Nat.eq_dec j k) as [->|N]; [left; exists r; reflexivity|right; intros r' H; injection H as H _; auto]. }
  destruct D as [(r & ->)|N].
  - destruct (proc_control k r c p E) as (q & Q & C). exists q. split; [exact Q|].
    assert (S : c_stop (c_step c (EProc k r)) = c_stop c) by apply (step_stop c (EProc k r)).
    destruct (step_log c (EProc k r)) as [SL|(j & r' & p' & EQ & E' & PC & SL)].
    + destruct (attempts_step c (EProc k r) k SL) as [A1 A2].
      assert (NS : pr_pc p <> PSleep).
      { intros PC. assert (X : c_log (c_step c (EProc k r)) = c_log c ++ [mkAttempt k (c_enabled c) (c_stop c)]) by (cbn [c_step]; unfold c_proc; rewrite E, PC; reflexivity).
        rewrite X in SL. apply (f_equal (@List.length attempt)) in SL. rewrite app_length in SL. cbn in SL. lia. }
      assert (AS : asleep p = 0) by (unfold asleep; destruct (pr_pc p); congruence).
      assert (HD : forall en, control q = (if negb en && negb (bo_give_up (pr_bo p)) && negb (pr_sig p && c_stop c) then (PSleep, snd (bo_sleep (pr_bo p)), pr_sig p)
          else if negb en then (PReturned, pr_bo p, pr_sig p) else (PGather, pr_bo p, pr_sig p)) -> LG (c_step c (EProc k r)) k q).
      { intros en Cq. destruct (negb en && _ && _) eqn:B.
        - apply andb_prop in B as [B1 B3]. apply andb_prop in B1 as [B1 B2]. injection Cq as Q1 Q2 Q3.
          unfold bo_give_up in B2. assert (AQ : asleep q = 1) by (unfold asleep; rewrite Q1; reflexivity).
          constructor; rewrite ?A1, ?A2, ?Q2, ?Q3, ?AQ, ?S; cbn [bo_sleep snd bo_attempt bo_max_tries].
          + lia.
          + lia.
          + intros Hs. specialize (L3 Hs). rewrite Hs in B3. cbn in B3. destruct (c_stop c); [discriminate|]. lia.
        - assert (Cq' : asleep q = 0 /\ pr_bo q = pr_bo p /\ pr_sig q = pr_sig p) by (unfold asleep; destruct (negb en); injection Cq as Q1 Q2 Q3; rewrite Q1; auto).
          destruct Cq' as (Q1 & Q2 & Q3). constructor; rewrite ?A1, ?A2, ?Q1, ?Q2, ?Q3, ?S; [lia|exact L2|].
          intros Hs. specialize (L3 Hs). rewrite AS in L3. destruct (c_stop c); lia. }
      assert (KEEP : asleep q = 0 /\ pr_bo q = pr_bo p /\ pr_sig q = pr_sig p -> LG (c_step c (EProc k r)) k q).
      { intros (Q1 & Q2 & Q3). constructor; rewrite ?A1, ?A2, ?Q1, ?Q2, ?Q3, ?S; [lia|exact L2|].
        intros Hs. specialize (L3 Hs). rewrite AS in L3. destruct (c_stop c); lia. }
      unfold next_control in C. destruct (pr_pc p) eqn:PC; try congruence; cbn zeta in C.
      * apply (HD (c_enabled c) C).
      * destruct r as [ok|]; [apply (HD (ok || c_enabled c)%bool C)|]. apply KEEP. injection C as C1 C2 C3. unfold asleep. rewrite C1. auto.
      * apply KEEP. destruct (done (pr_read p) && _ && _ && _); injection C as C1 C2 C3; unfold asleep; rewrite C1; rewrite ?PC; auto.
      * apply KEEP. injection C as C1 C2 C3. unfold asleep. rewrite C1. auto.
      * apply KEEP. injection C as C1 C2 C3. unfold asleep. rewrite C1, PC. auto.
      * apply KEEP. injection C as C1 C2 C3. unfold asleep. rewrite C1, PC. auto.
    + injection EQ as <- <-. rewrite E in E'. injection E' as <-. unfold next_control in C. rewrite PC in C. injection C as C1 C2 C3.
      assert (AS : asleep p = 1) by (unfold asleep; rewrite PC; reflexivity). assert (AQ : asleep q = 0) by (unfold asleep; rewrite C1; reflexivity).
      assert (A1 : attempts_of k (c_step c (EProc k r)) = attempts_of k c ++ [mkAttempt k (c_enabled c) (c_stop c)]).
      { unfold attempts_of. rewrite SL, filter_app. cbn [filter by_proc at_proc]. unfold by_proc at 2. cbn [at_proc]. rewrite Nat.eqb_refl. reflexivity. }
      assert (A2 : cnt (late_attempts k (c_step c (EProc k r))) = cnt (late_attempts k c) + (if c_stop c then 1 else 0)).
      { unfold late_attempts. rewrite A1, filter_app, cnt_app. cbn [filter at_stop]. destruct (c_stop c); reflexivity. }
      constructor; rewrite ?AQ, ?C2, ?C3, ?S.
      * rewrite A1, cnt_app. unfold cnt at 2. cbn [List.length]. lia.
      * exact L2.
      * intros Hs. specialize (L3 Hs). rewrite A2. rewrite AS in L3. destruct (c_stop c); lia.
  - destruct (step_control c e k p E N) as (q & Q & C). exists q. split; [exact Q|]. destruct (asleep_control q p C) as (C1 & C2 & C3).
    assert (A : attempts_of k (c_step c e) = attempts_of k c).
    { destruct (step_log c e) as [SL|(j & r' & p' & -> & E' & PC & SL)]; [apply (attempts_step c e k SL)|].
      unfold attempts_of. rewrite SL, filter_app. cbn [filter]. unfold by_proc at 2. cbn [at_proc].
      destruct (Nat.eqb_spec j k) as [->|]; [destruct (N r'); reflexivity|]. apply app_nil_r. }
    assert (A2 : late_attempts k (c_step c e) = late_attempts k c) by (unfold late_attempts; rewrite A; reflexivity).
    constructor; rewrite ?A, ?A2, ?C1, ?C2, ?C3, ?step_stop; auto.
    intros Hs. specialize (L3 Hs). destruct e; auto. destruct (c_stop c); [auto|]. unfold asleep. destruct (pr_pc p); lia.
Qed.

(** New process() calls. *)
Lemma proc_length k r c : List.length (c_procs (c_proc k r c)) = List.length (c_procs c).
Proof.
  assert (P : forall q d, List.length (c_procs (put_proc k q d)) = List.length (c_procs d)) by (intros; apply upd_length).
  assert (H : forall q d, List.length (c_procs (c_head k q d)) = List.length (c_procs d)).
  { intros q d. unfold c_head. destruct (negb (c_enabled d) && _ && _); [apply P|]. destruct (negb (c_enabled d)); [apply P|]. apply (P _ d). }
  unfold c_proc. destruct (nth_error (c_procs c) k) as [q|]; [|reflexivity]. destruct (pr_pc q); try reflexivity; rewrite ?H, ?P; try reflexivity.
  - destruct r as [[|]|]; rewrite ?H, ?P; reflexivity.
  - destruct (done (pr_read q) && _ && _ && _); rewrite ?P; reflexivity.
Qed.
Definition fresh (sig : bool) : proc := mkProc PStart bo_default sig sub_done sub_done sub_done sub_done.
Lemma step_length c e : List.length (c_procs (c_step c e)) = List.length (c_procs c) \/
  exists sig, c_step c e = set_procs (c_procs c ++ [fresh sig]) c.
Proof.
  destruct e as [|m| |b|sig| |k r|k w r]; cbn [c_step]; try (left; reflexivity).
  - left. destruct (c_enabled c) eqn:B; [rewrite disable_eq by exact B|rewrite disable_off by exact B; reflexivity]. cbn [set_procs c_procs]. unfold cancelled. destruct (c_cur c); [apply alter_length|reflexivity].
  - right. exists sig. reflexivity.
  - unfold c_manager. destruct (c_managed c); [|left; reflexivity]. destruct (c_enabled c); [left; reflexivity|]. destruct (c_auto c); [|left; reflexivity]. right. exists true. reflexivity.
  - left. apply proc_length.
  - left. apply (moved_length k w c _ (sub_moved k w r c)).
Qed.
Definition known (c : conn) : Prop := forall a, In a (c_log c) -> (at_proc a < List.length (c_procs c))%nat.
Lemma known_none c k : known c -> (List.length (c_procs c) <= k)%nat -> attempts_of k c = [].
Proof.
  intros K L. unfold attempts_of. unfold known in K. induction (c_log c) as [|a l IH]; [reflexivity|]. cbn [filter]. unfold by_proc at 1.
  specialize (K a (or_introl eq_refl)) as Ka. destruct (Nat.eqb_spec (at_proc a) k); [lia|]. apply IH. intros b Hb. apply K. right. exact Hb.
Qed.
Lemma known_step c e : known c -> known (c_step c e).
Proof.
  intros K a H. assert (L : (List.length (c_procs c) <= List.length (c_procs (c_step c e)))%nat).
  { destruct (step_length c e) as [->|(sig & ->)]; [lia|]. cbn [set_procs c_procs]. rewrite app_length. lia. }
  destruct (step_log c e) as [SL|(k & r & p & -> & E & PC & SL)]; rewrite SL in H.
  - specialize (K a H). lia.
  - apply in_app_or in H as [H|[<-|[]]]; [specialize (K a H); lia|]. cbn [at_proc]. pose proof (nth_lt k _ p E). lia.
Qed.
Definition LGA (c : conn) : Prop := known c /\ forall k p, nth_error (c_procs c) k = Some p -> LG c k p.
Lemma lga_step c e : LGA c -> LGA (c_step c e).
Proof.
  intros [K L]. split; [apply known_step; exact K|]. intros k q Q. destruct (nth_error (c_procs c) k) as [p|] eqn:E.
  - destruct (lg_step c e k p E (L k p E)) as (q' & Q' & L'). congruence.
  - destruct (step_length c e) as [Len|(sig & S)].
    + apply nth_error_None in E. apply nth_lt in Q. lia.
    + rewrite S in *. cbn [set_procs c_procs] in Q. apply nth_error_None in E.
      assert (KN : attempts_of k (set_procs (c_procs c ++ [fresh sig]) c) = []) by (apply (known_none c k K E)).
      rewrite nth_error_app2 in Q by exact E. destruct (k - _)%nat as [|[|n]]; [|discriminate|discriminate]. injection Q as <-.
      constructor; unfold late_attempts; rewrite ?KN; [reflexivity|cbn; split; [reflexivity|lia]|]. intros _. cbn. destruct (c_stop c); lia.
Qed.
Lemma lga_run h : forall c, LGA c -> LGA (c_run c h).
Proof. induction h as [|e h IH]; intros c L; [exact L|]. apply (IH (c_step c e)). apply lga_step. exact L. Qed.
Lemma lga_new a : LGA (c_new a).
Proof. split; [intros x []|intros [|k] p H; discriminate]. Qed.

(** A call made after the stop signal makes no attempt. *)
Lemma stopped_step c e k p : nth_error (c_procs c) k = Some p -> pr_sig p = true -> c_stop c = true -> pr_pc p <> PSleep ->
  exists q, nth_error (c_procs (c_step c e)) k = Some q /\ pr_sig q = true /\ c_stop (c_step c e) = true /\ pr_pc q <> PSleep /\
    attempts_of k (c_step c e) = attempts_of k c.
Proof.
  intros E Sg St NP. assert (St' : c_stop (c_step c e) = true) by (rewrite step_stop; destruct e; auto).
  assert (A : attempts_of k (c_step c e) = attempts_of k c).
  { destruct (step_log c e) as [SL|(j & r' & p' & -> & E' & PC & SL)]; [apply (attempts_step c e k SL)|].
    unfold attempts_of. rewrite SL, filter_app. cbn [filter]. unfold by_proc at 2. cbn [at_proc].
    destruct (Nat.eqb_spec j k) as [->|]; [congruence|]. apply app_nil_r. }
  assert (D : (exists r, e = EProc k r) \/ forall r, e <> EProc k r).
  { destruct e as [| | | | | |j r|]; try (right; intros; discriminate). destruct (Nat.eq_dec j k) as [->|N]; [left; exists r; reflexivity|right; intros r' H; injection H as H _; auto]. }
  destruct D as [(r & ->)|N].
  - destruct (proc_control k r c p E) as (q & Q & C). exists q. unfold next_control in C. rewrite Sg, St in C. cbn [andb negb] in C. rewrite !andb_false_r in C. cbn zeta in C.
    assert (X : pr_sig q = true /\ pr_pc q <> PSleep).
    { destruct (pr_pc p) eqn:PC; try congruence.
      - destruct (negb (c_enabled c)); injection C as C1 C2 C3; split; congruence.
      - destruct r as [ok|]; cbn iota beta in C; rewrite ?andb_false_r in C; [destruct (negb (ok || c_enabled c))|]; injection C as C1 C2 C3; split; congruence.
      - destruct (done (pr_read p) && _ && _ && _); injection C as C1 C2 C3; split; congruence.
      - injection C as C1 C2 C3; split; congruence.
      - injection C as C1 C2 C3; split; congruence.
      - injection C as C1 C2 C3; split; congruence. }
    destruct X. auto.
  - destruct (step_control c e k p E N) as (q & Q & C). exists q. injection C as C1 C2 C3. rewrite C1, C3. auto.
Qed.
Lemma stopped_run h : forall c k p, nth_error (c_procs c) k = Some p -> pr_sig p = true -> c_stop c = true -> pr_pc p <> PSleep ->
  attempts_of k (c_run c h) = attempts_of k c.
Proof.
  induction h as [|e h IH]; intros c k p E Sg St NP; [reflexivity|]. change (c_run c (e :: h)) with (c_run (c_step c e) h).
  destruct (stopped_step c e k p E Sg St NP) as (q & Q & A & B & C & D). rewrite (IH _ k q Q A B C). exact D.
Qed.

(** ** Writes *)
Lemma head_writes k p c : c_enq (c_head k p c) = c_enq c /\ c_started (c_head k p c) = c_started c /\ c_queue (c_head k p c) = c_queue c /\ c_sent (c_head k p c) = c_sent c.
Proof. unfold c_head. destruct (negb (c_enabled c) && _ && _); [repeat split|]. destruct (negb (c_enabled c)); repeat split. Qed.
Definition writes (c : conn) := (c_enq c, c_started c, c_queue c, c_sent c).
Lemma finish_writes k w pc c : writes (finish k w pc c) = writes c.
Proof. unfold finish. rewrite put_sub_eq. reflexivity. Qed.
Lemma disable_writes c : writes (c_disable c) = writes c.
Proof. destruct (c_enabled c) eqn:B; [rewrite disable_eq by exact B|rewrite disable_off by exact B]; reflexivity. Qed.
Lemma proc_writes k r c : writes (c_proc k r c) = writes c.
Proof.
  assert (H : forall p d, writes (c_head k p d) = writes d) by (intros p d; unfold writes; destruct (head_writes k p d) as (-> & -> & -> & ->); reflexivity).
  unfold c_proc. destruct (nth_error (c_procs c) k) as [p|]; [|reflexivity]. destruct (pr_pc p); try reflexivity; rewrite ?H; try reflexivity.
  - destruct r as [[|]|]; rewrite ?H; reflexivity.
  - destruct (done (pr_read p) && _ && _ && _); reflexivity.
Qed.
Lemma step_writes c e : c_enq c = c_started c ++ c_queue c -> c_enq (c_step c e) = c_started (c_step c e) ++ c_queue (c_step c e).
Proof.
  intros H. assert (Z : forall d, writes d = writes c -> c_enq d = c_started d ++ c_queue d) by (intros d W; unfold writes in W; injection W as W1 W2 W3 W4; congruence).
  destruct e as [|m| |b|sig| |k r|k w r]; cbn [c_step]; try (apply Z; reflexivity).
  - apply Z, disable_writes.
  - cbn [set_enq c_enq set_queue c_started c_queue]. rewrite H, app_assoc. reflexivity.
  - apply Z. unfold c_manager. destruct (c_managed c); [|reflexivity]. destruct (c_enabled c); [reflexivity|]. destruct (c_auto c); reflexivity.
  - apply Z, proc_writes.
  - destruct (sub_moved k w r c); try (apply Z; rewrite ?finish_writes; reflexivity); try exact H.
    + apply Z. rewrite finish_writes. apply disable_writes.
    + apply Z. rewrite finish_writes. change (writes (set_init true (c_disable c))) with (writes (c_disable c)). apply disable_writes.
    + match goal with |- c_enq (finish ?k ?w ?pc ?d) = _ => pose proof (finish_writes k w pc d) as W end. unfold writes in W. injection W as W1 W2 W3 W4. rewrite W1, W2, W3.
      cbn [set_started set_queue c_enq c_started c_queue]. rewrite H, H0, <- app_assoc. reflexivity.
    + match goal with |- c_enq (finish ?k ?w ?pc ?d) = _ => pose proof (finish_writes k w pc d) as W end. unfold writes in W. injection W as W1 W2 W3 W4. rewrite W1, W2, W3. exact H.
Qed.
Lemma run_writes h : forall c, c_enq c = c_started c ++ c_queue c -> c_enq (c_run c h) = c_started (c_run c h) ++ c_queue (c_run c h).
Proof. induction h as [|e h IH]; intros c H; [exact H|]. apply (IH (c_step c e)). apply step_writes. exact H. Qed.

(** ** process() calls that do not overlap *)
Definition gather_ok (nr : bool) (c : conn) (k : nat) (p : proc) : Prop :=
  c_cur c = Some k /\
  (c_enabled c = false -> forall w, done (pr_get w p) = false -> s_cancel (pr_get w p) = true) /\
  (c_enabled c = true -> forall w, s_cancel (pr_get w p) = false) /\
  (forall m, s_pc (pr_write p) = TWork m -> exists pre, c_started c = pre ++ [m] /\ subseq (c_sent c) pre) /\
  (nr = true -> c_enabled c = true -> done (pr_read p) = false /\ done (pr_write p) = false) /\
  (c_enabled c = true -> pr_sig p = true -> done (pr_wait p) = false).
Record INV (nr ni : bool) (c : conn) : Prop := {
  i_seq : forall k p, nth_error (c_procs c) k = Some p -> over p = false -> S k = List.length (c_procs c);
  i_restart : forall k p, nth_error (c_procs c) k = Some p -> pr_pc p = PSleep \/ pr_pc p = PRestart -> c_enabled c = false;
  i_gather : forall k p, nth_error (c_procs c) k = Some p -> pr_pc p = PGather -> gather_ok nr c k p;
  i_sent : subseq (c_sent c) (c_started c);
  i_init : ni = true -> c_init c = true -> c_enabled c = true
}.
Lemma inv_new nr ni a : INV nr ni (c_new a).
Proof. constructor; try (intros [|k] p H; discriminate); [constructor|discriminate]. Qed.

Lemma over_pc p : over p = true -> pr_pc p = PReturned \/ pr_pc p = PRaised.
Proof. unfold over. destruct (pr_pc p); try discriminate; auto. Qed.
Lemma others_over nr ni c k p j q : INV nr ni c -> nth_error (c_procs c) k = Some p -> over p = false ->
  nth_error (c_procs c) j = Some q -> j <> k -> over q = true.
Proof.
  intros I A B C N. destruct (over q) eqn:O; [reflexivity|]. pose proof (i_seq _ _ _ I k p A B). pose proof (i_seq _ _ _ I j q C O). lia.
Qed.

(** The only unfinished call changes. *)
Lemma inv_put nr ni c d k p q : INV nr ni c -> nth_error (c_procs c) k = Some p -> over p = false ->
  c_procs d = upd k q (c_procs c) ->
  (pr_pc q = PSleep \/ pr_pc q = PRestart -> c_enabled d = false) ->
  (pr_pc q = PGather -> gather_ok nr d k q) ->
  subseq (c_sent d) (c_started d) -> (ni = true -> c_init d = true -> c_enabled d = true) -> INV nr ni d.
Proof.
  intros I A B E H1 H2 H3 H4.
  assert (N : forall j r, nth_error (c_procs d) j = Some r -> (j = k /\ r = q) \/ (j <> k /\ over r = true)).
  { intros j r R. rewrite E in R. destruct (Nat.eq_dec k j) as [<-|Ne].
    - rewrite upd_nth in R by (eapply nth_lt; exact A). injection R as <-. auto.
    - rewrite upd_nth_ne in R by exact Ne. right. split; [congruence|]. apply (others_over nr ni c k p j r I A B R). congruence. }
  constructor; auto.
  - intros j r R O. destruct (N j r R) as [[-> ->]|[_ X]]; [|congruence]. rewrite E, upd_length. apply (i_seq _ _ _ I k p A B).
  - intros j r R P. destruct (N j r R) as [[-> ->]|[_ X]]; [auto|]. apply over_pc in X as [X|X]; rewrite X in P; destruct P; discriminate.
  - intros j r R P. destruct (N j r R) as [[-> ->]|[_ X]]; [auto|]. apply over_pc in X as [X|X]; rewrite X in P; discriminate.
Qed.
Lemma inv_frame nr ni c d : INV nr ni c -> c_procs d = c_procs c -> c_enabled d = c_enabled c -> c_cur d = c_cur c ->
  c_sent d = c_sent c -> c_started d = c_started c -> (ni = true -> c_init d = true -> c_enabled d = true) -> INV nr ni d.
Proof.
  intros I E1 E2 E3 E4 E5 E6. destruct I as [A B C D F]. constructor; rewrite ?E1, ?E2, ?E4, ?E5; auto.
  - intros k p N G. unfold gather_ok. rewrite E2, E3, E4, E5. apply (C k p N G).
  - rewrite <- E2. exact E6.
Qed.

Lemma map_get f w p : pr_get w (pr_map f p) = f (pr_get w p).
Proof. destruct w; reflexivity. Qed.
Lemma inv_disable nr ni c : INV nr ni c -> INV nr ni (c_disable c).
Proof.
  intros I. destruct (c_enabled c) eqn:B; [|rewrite disable_off by exact B; exact I]. rewrite disable_eq by exact B. unfold cancelled.
  assert (N : forall k p', nth_error (match c_cur c with Some k => alter k (pr_map s_cancelled) (c_procs c) | None => c_procs c end) k = Some p' ->
     exists p, nth_error (c_procs c) k = Some p /\ ((p' = p /\ c_cur c <> Some k) \/ p' = pr_map s_cancelled p)).
  { intros k p' H. destruct (c_cur c) as [j|].
    - rewrite alter_nth in H. destruct (Nat.eq_dec k j) as [->|Ne]; [destruct (nth_error (c_procs c) j) as [p|]; [|discriminate]; injection H as <-; exists p; auto|].
      exists p'. split; [exact H|left; split; [reflexivity|congruence]].
    - exists p'. split; [exact H|left; split; [reflexivity|discriminate]]. }
  destruct I as [A R G S J]. constructor; cbn [set_procs set_init set_enabled set_hooks c_procs c_enabled c_sent c_started c_init]; auto; try discriminate.
  - intros k p' H O. destruct (N k p' H) as (p & P & D). replace (List.length _) with (List.length (c_procs c)).
    + apply (A k p P). destruct D as [[-> _]| ->]; exact O.
    + destruct (c_cur c); [symmetry; apply alter_length|reflexivity].
  - intros k p' H X. destruct (N k p' H) as (p & P & D).
    assert (X' : pr_pc p = PGather) by (destruct D as [[-> _]| ->]; exact X). destruct (G k p P X') as (G1 & G2 & G3 & G4 & G5 & G6).
    destruct D as [[_ D]| ->]; [congruence|]. split; [exact G1|]. cbn [c_enabled c_started c_sent].
    split; [|split; [discriminate|split; [|split; discriminate]]].
    + intros _ w. rewrite map_get. unfold s_cancelled. destruct (done (pr_get w p)) eqn:Dn; [rewrite Dn; discriminate|reflexivity].
    + intros m Hm. apply (G4 m). cbn [pr_map pr_write] in Hm. unfold s_cancelled in Hm. destruct (done (pr_write p)); exact Hm.
Qed.

Lemma put_get w v s p : pr_get w (pr_put v s p) = if match w, v with Read, Read | Init, Init | Write, Write | WaitSig, WaitSig => true | _, _ => false end then s else pr_get w p.
Proof. destruct w, v; reflexivity. Qed.
Lemma put_pc w s p : pr_pc (pr_put w s p) = pr_pc p.
Proof. destruct w; reflexivity. Qed.

(** A task of the only unfinished call moves on. [d] is the state before the
    task's own position is updated. *)
Lemma inv_finish nr ni c d k w pc p : INV nr ni c -> nth_error (c_procs c) k = Some p -> pr_pc p = PGather ->
  c_procs d = c_procs c -> c_enabled d = c_enabled c -> c_cur d = c_cur c ->
  (pc = TDone \/ c_enabled c = true) ->
  (nr = true -> c_enabled c = true -> w = Read \/ w = Write -> pc <> TDone) ->
  (c_enabled c = true -> w = WaitSig -> pr_sig p = true -> pc <> TDone) ->
  (forall m, (if match w with Write => true | _ => false end then pc else s_pc (pr_write p)) = TWork m -> exists pre, c_started d = pre ++ [m] /\ subseq (c_sent d) pre) ->
  subseq (c_sent d) (c_started d) -> (ni = true -> c_init d = true -> c_enabled d = true) ->
  INV nr ni (finish k w pc d).
Proof.
  intros I A G E1 E2 E3 H1 H2 H6 H3 H4 H5. unfold finish. rewrite put_sub_eq. destruct (i_gather _ _ _ I k p A G) as (G1 & G2 & G3 & G4 & G5 & G6).
  assert (O : over p = false) by (unfold over; rewrite G; reflexivity).
  assert (Z : INV nr ni (set_procs (upd k (pr_put w (mkSub pc false) p) (c_procs c)) d)).
  { apply (inv_put nr ni c _ k p (pr_put w (mkSub pc false) p) I A O); cbn [set_procs c_procs c_enabled c_cur c_sent c_started c_init]; auto.
    - rewrite put_pc, G. intros [X|X]; discriminate.
    - intros _. unfold gather_ok. cbn [set_procs c_procs c_enabled c_cur c_sent c_started c_init]. rewrite E2, E3. split; [exact G1|].
      split; [|split; [|split; [|split]]].
      + intros Off v. rewrite put_get. destruct (match v, w with Read, Read | Init, Init | Write, Write | WaitSig, WaitSig => true | _, _ => false end); [|apply (G2 Off)].
        destruct H1 as [->|H1]; [discriminate|congruence].
      + intros On v. rewrite put_get. destruct (match v, w with Read, Read | Init, Init | Write, Write | WaitSig, WaitSig => true | _, _ => false end); [reflexivity|apply (G3 On)].
      + intros m Hm. apply H3. destruct w; exact Hm.
      + intros Hn On. destruct (G5 Hn On) as [R W]. destruct w; cbn [pr_put pr_read pr_write]; auto.
        * split; [|exact W]. specialize (H2 Hn On (or_introl eq_refl)). unfold done. cbn [s_pc]. destruct pc; congruence.
        * split; [exact R|]. specialize (H2 Hn On (or_intror eq_refl)). unfold done. cbn [s_pc]. destruct pc; congruence.
      + intros On Sg. assert (Sg' : pr_sig p = true) by (destruct w; exact Sg). destruct w; cbn [pr_put pr_wait]; auto.
        specialize (H6 On eq_refl Sg'). unfold done. cbn [s_pc]. destruct pc; congruence. }
  replace (alter k (pr_put w (mkSub pc false)) (c_procs d)) with (upd k (pr_put w (mkSub pc false) p) (c_procs c)); [exact Z|].
  unfold alter. rewrite E1, A. reflexivity.
Qed.

Lemma subseq_app {A} (l l' : list A) m : subseq l l' -> subseq (l ++ [m]) (l' ++ [m]).
Proof. induction 1; cbn; [apply sub_take, sub_nil|apply sub_skip; assumption|apply sub_take; assumption]. Qed.
Lemma subseq_snoc {A} (l l' : list A) m : subseq l l' -> subseq l (l' ++ [m]).
Proof. induction 1; cbn; [apply sub_skip, sub_nil|apply sub_skip; assumption|apply sub_take; assumption]. Qed.

(** A task ends after having disabled the connection. *)
Lemma inv_disable_end nr ni c k w p : INV nr ni c -> nth_error (c_procs c) k = Some p -> pr_pc p = PGather ->
  forall d, c_procs d = c_procs (c_disable c) -> c_enabled d = false -> c_cur d = c_cur c -> c_sent d = c_sent c -> c_started d = c_started c ->
  (ni = true -> c_init d = false) -> INV nr ni (finish k w TDone d).
Proof.
  intros I A G d E1 E2 E3 E4 E5 E6. pose proof (inv_disable nr ni c I) as I'. destruct (disable_control c k p A) as (p' & A' & C). injection C as C1 _ _.
  assert (G' : pr_pc p' = PGather) by congruence. destruct (disable_hooks c) as [_ Off].
  destruct (i_gather _ _ _ I' k p' A' G') as (G1 & G2 & G3 & G4 & G5 & G6). pose proof (disable_writes c) as W. unfold writes in W. injection W as _ W1 _ W2.
  pose proof (disable_rest c) as R. unfold rest in R.
  apply (inv_finish nr ni (c_disable c) d k w TDone p' I' A' G'); auto; try congruence.
  - intros m Hm. rewrite E4, E5, <- W1, <- W2. apply G4. destruct w; [exact Hm|exact Hm|discriminate|exact Hm].
  - rewrite E4, E5. apply (i_sent _ _ _ I).
  - intros Hn Hi. rewrite E6 in Hi by exact Hn. discriminate.
Qed.

Lemma done_pc s : done s = true <-> s_pc s = TDone.
Proof. unfold done. destruct (s_pc s); split; congruence. Qed.
Definition raising (e : cev) : bool := match e with ESub _ Read Raise | ESub _ Write Raise => true | _ => false end.
Definition init_failing (e : cev) : bool := match e with ESub _ Init (Ret false) => true | _ => false end.

Lemma inv_sub nr ni c k w r : INV nr ni c -> (nr = true -> raising (ESub k w r) = false) -> (ni = true -> init_failing (ESub k w r) = false) ->
  INV nr ni (c_sub k w r c).
Proof.
  intros I HR HI. unfold c_sub. destruct (nth_error (c_procs c) k) as [p|] eqn:A; [|exact I]. destruct (pr_pc p) eqn:G; try exact I.
  destruct (i_gather _ _ _ I k p A G) as (G1 & G2 & G3 & G4 & G5 & G6). pose proof (i_sent _ _ _ I) as S. pose proof (i_init _ _ _ I) as N.
  assert (FD : c_enabled c = false -> INV nr ni (finish k w TDone c)).
  { intros Off. apply (inv_finish nr ni c c k w TDone p I A G); auto; try congruence. intros m Hm. apply G4. destruct w; [exact Hm|exact Hm|discriminate|exact Hm]. }
  destruct (c_enabled c) eqn:On.
  2: { destruct (s_cancel (pr_get w p)) eqn:Ca; [apply FD; reflexivity|]. destruct (done (pr_get w p)) eqn:Dn; [|rewrite (G2 eq_refl w Dn) in Ca; discriminate].
       apply done_pc in Dn. destruct w; [unfold c_read|unfold c_init_task|unfold c_write|unfold c_waitsig]; rewrite Dn; exact I. }
  rewrite (G3 eq_refl w).
  assert (F : forall pc, w <> Write -> (w = WaitSig -> pc <> TDone) -> (nr = true -> w = Read -> pc <> TDone) -> INV nr ni (finish k w pc c)).
  { intros pc Hw Hs Hn. apply (inv_finish nr ni c c k w pc p I A G); auto; [intros X _ [Y|Y]; [apply Hn; auto|congruence]|].
    intros m Hm. apply G4. destruct w; [exact Hm|exact Hm|congruence|exact Hm]. }
  assert (L : loop_pc c = TWait) by (unfold loop_pc; rewrite On; reflexivity).
  assert (D : INV nr ni (finish k w TDone (c_disable c))).
  { destruct (disable_hooks c) as [_ Off]. pose proof (disable_writes c) as W. unfold writes in W. injection W as _ W1 _ W2. pose proof (disable_rest c) as R. unfold rest in R.
    apply (inv_disable_end nr ni c k w p I A G); auto; try congruence. intros _. rewrite disable_eq by exact On. reflexivity. }
  destruct w.
  - unfold c_read. destruct (s_pc (pr_get Read p)) eqn:Pc; [| | |exact I].
    + rewrite L. apply F; discriminate.
    + destruct r as [[|]|]; [apply F; discriminate|exact D|]. apply F; [discriminate|discriminate|]. intros Hn. specialize (HR Hn). discriminate.
    + destruct r as [[|]|]; [rewrite L; apply F; discriminate|exact D|]. apply F; [discriminate|discriminate|]. intros Hn. specialize (HR Hn). discriminate.
  - unfold c_init_task. destruct (s_pc (pr_get Init p)) eqn:Pc; [|  |exact I|exact I].
    + apply F; discriminate.
    + destruct r as [[|]|].
      * apply (inv_finish nr ni c (set_init true c) k Init TDone p I A G); auto; [intros _ _ [X|X]; discriminate|discriminate].
      * destruct (disable_hooks c) as [_ Off]. pose proof (disable_writes c) as W. unfold writes in W. injection W as _ W1 _ W2. pose proof (disable_rest c) as R. unfold rest in R.
        apply (inv_disable_end nr ni c k Init p I A G); auto; try (cbn [set_init c_enabled c_cur c_sent c_started]; congruence).
      * apply F; discriminate.
  - unfold c_write. destruct (s_pc (pr_get Write p)) eqn:Pc; [| | |exact I].
    + rewrite L. apply (inv_finish nr ni c c k Write TWait p I A G); auto; discriminate.
    + destruct (c_queue c) as [|m q] eqn:Q; [exact I|].
      apply (inv_finish nr ni c (set_started (c_started c ++ [m]) (set_queue q c)) k Write (TWork m) p I A G); auto; cbn [set_started set_queue c_started c_sent c_init c_enabled]; try discriminate.
      * intros m' Hm. injection Hm as <-. exists (c_started c). auto.
      * apply subseq_snoc. exact S.
    + destruct r as [b|].
      * rewrite L. destruct (G4 m Pc) as (pre & P1 & P2).
        apply (inv_finish nr ni c (set_sent (c_sent c ++ [m]) c) k Write TWait p I A G); auto; cbn [set_sent c_started c_sent c_init c_enabled]; try discriminate.
        rewrite P1. apply subseq_app. exact P2.
      * apply (inv_finish nr ni c c k Write TDone p I A G); auto; try discriminate. intros Hn. specialize (HR Hn). discriminate.
  - unfold c_waitsig, disable_and_end. destruct (s_pc (pr_get WaitSig p)) eqn:Pc; [| |exact I|exact I]; (destruct (c_stop c); [exact D|apply F; discriminate]).
Qed.

Lemma inv_head nr ni c d k p : INV nr ni c -> nth_error (c_procs c) k = Some p -> over p = false ->
  c_procs d = c_procs c -> c_sent d = c_sent c -> c_started d = c_started c -> (ni = true -> c_init d = true -> c_enabled d = true) ->
  INV nr ni (c_head k p d).
Proof.
  intros I A O E1 E2 E3 E4. pose proof (i_sent _ _ _ I) as S. unfold c_head. destruct (c_enabled d) eqn:En; cbn [negb andb].
  - apply (inv_put nr ni c _ k p (mkProc PGather (pr_bo p) (pr_sig p) sub_new sub_new sub_new (if pr_sig p then sub_new else sub_done)) I A O); auto.
    + unfold put_proc. cbn [set_exited set_cur set_procs c_procs]. rewrite E1. reflexivity.
    + intros [X|X]; discriminate.
    + intros _. unfold gather_ok. unfold put_proc. cbn [set_exited set_cur set_procs c_cur c_enabled c_started c_sent]. rewrite En.
      split; [reflexivity|]. split; [discriminate|]. split; [|split; [discriminate|split; [intros; split; reflexivity|cbn [pr_sig pr_wait]; intros _ ->; reflexivity]]].
      intros _ w. destruct w; cbn [pr_get pr_read pr_init pr_write pr_wait]; try reflexivity. destruct (pr_sig p); reflexivity.
    + unfold put_proc. cbn [set_exited set_cur set_procs c_sent c_started]. rewrite E2, E3. exact S.
  - destruct (negb (bo_give_up (pr_bo p)) && negb (pr_sig p && c_stop d)).
    + apply (inv_put nr ni c _ k p (pr_set_bo (snd (bo_sleep (pr_bo p))) (pr_set PSleep p)) I A O); auto.
      * unfold put_proc. cbn [set_procs c_procs]. rewrite E1. reflexivity.
      * discriminate.
      * unfold put_proc. cbn [set_procs c_sent c_started]. rewrite E2, E3. exact S.
      * cbn [put_proc set_procs c_init c_enabled]. rewrite En. exact E4.
    + apply (inv_put nr ni c _ k p (pr_set PReturned p) I A O); auto.
      * unfold put_proc. cbn [set_procs c_procs]. rewrite E1. reflexivity.
      * discriminate.
      * unfold put_proc. cbn [set_procs c_sent c_started]. rewrite E2, E3. exact S.
      * cbn [put_proc set_procs c_init c_enabled]. rewrite En. exact E4.
Qed.
Lemma inv_proc nr ni c k r : INV nr ni c -> INV nr ni (c_proc k r c).
Proof.
  intros I. unfold c_proc. destruct (nth_error (c_procs c) k) as [p|] eqn:A; [|exact I].
  pose proof (i_sent _ _ _ I) as S. pose proof (i_init _ _ _ I) as N.
  destruct (pr_pc p) eqn:P; try exact I; assert (O : over p = false) by (unfold over; rewrite P; reflexivity).
  - apply (inv_head nr ni c c k p I A O); auto.
  - apply (inv_put nr ni c _ k p (pr_set PRestart p) I A O); auto; [|discriminate]. intros _. apply (i_restart _ _ _ I k p A). auto.
  - destruct r as [[|]|].
    + apply (inv_head nr ni c _ k p I A O); auto.
    + apply (inv_head nr ni c _ k p I A O); auto.
    + apply (inv_put nr ni c _ k p (pr_set PRaised p) I A O); auto; [intros [X|X]; discriminate|discriminate].
  - destruct (done (pr_read p) && _ && _ && _); [|exact I].
    apply (inv_put nr ni c _ k p (pr_set PClose p) I A O); auto; [intros [X|X]; discriminate|discriminate].
  - apply (inv_put nr ni c _ k p (pr_set PReturned p) I A O); auto; [intros [X|X]; discriminate|discriminate].
Qed.
Lemma inv_fresh nr ni c sig : INV nr ni c -> forallb over (c_procs c) = true -> INV nr ni (set_procs (c_procs c ++ [fresh sig]) c).
Proof.
  intros I O. rewrite forallb_forall in O.
  assert (N : forall k p, nth_error (c_procs c ++ [fresh sig]) k = Some p -> over p = true \/ (k = List.length (c_procs c) /\ p = fresh sig)).
  { intros k p H. destruct (Nat.lt_ge_cases k (List.length (c_procs c))) as [L|L].
    - rewrite nth_error_app1 in H by exact L. left. apply O. eapply nth_error_In; exact H.
    - rewrite nth_error_app2 in H by exact L. destruct (k - _)%nat as [|[|n]] eqn:Ek; [|discriminate|discriminate]. injection H as <-. right. split; [lia|reflexivity]. }
  destruct I as [A R G S J]. constructor; cbn [set_procs c_procs c_enabled c_sent c_started c_init]; auto.
  - intros k p H X. destruct (N k p H) as [Y|[-> _]]; [congruence|]. rewrite app_length. cbn. lia.
  - intros k p H X. destruct (N k p H) as [Y|[_ ->]]; [apply over_pc in Y as [Y|Y]; rewrite Y in X|]; destruct X; discriminate.
  - intros k p H X. destruct (N k p H) as [Y|[_ ->]]; [apply over_pc in Y as [Y|Y]; rewrite Y in X|]; discriminate.
Qed.

Lemma inv_step nr ni c e : INV nr ni c -> (nr = true -> raising e = false) -> (ni = true -> init_failing e = false) -> separate c [e] -> INV nr ni (c_step c e).
Proof.
  intros I HR HI [Sep _]. destruct (step_length c e) as [_|(sig & St)].
  2: { assert (Lt : (List.length (c_procs c) < List.length (c_procs (c_step c e)))%nat) by (rewrite St; cbn [set_procs c_procs]; rewrite app_length; cbn; lia).
       rewrite St. apply inv_fresh; [exact I|]. apply Sep. exact Lt. }
  assert (P : forall sig, (List.length (c_procs c) < List.length (c_procs (c_process sig c)))%nat) by (intros sig; cbn [c_process set_procs c_procs]; rewrite app_length; cbn; lia).
  pose proof (i_init _ _ _ I) as N.
  destruct e as [|m| |b|sig| |k r|k w r]; cbn [c_step] in *; try (apply (inv_frame nr ni c); auto; fail).
  - apply inv_disable. exact I.
  - apply inv_fresh; [exact I|]. apply Sep, P.
  - unfold c_manager in *. destruct (c_managed c); [|exact I]. destruct (c_enabled c) eqn:B; [exact I|]. destruct (c_auto c); [apply inv_fresh; [exact I|]; apply Sep, P|].
    apply (inv_frame nr ni c); auto. intros H1 H2. specialize (N H1 H2). congruence.
  - apply inv_proc. exact I.
  - apply inv_sub; assumption.
Qed.
Lemma inv_run nr ni h : forall c, INV nr ni c -> (nr = true -> forall e, In e h -> raising e = false) -> (ni = true -> forall e, In e h -> init_failing e = false) ->
  separate c h -> INV nr ni (c_run c h).
Proof.
  induction h as [|e h IH]; intros c I HR HI Sep; [exact I|]. destruct Sep as [S1 S2]. apply (IH (c_step c e)).
  - apply inv_step; auto; [intros Hn; apply HR; [exact Hn|left; reflexivity]|intros Hn; apply HI; [exact Hn|left; reflexivity]|split; [exact S1|exact Logic.I]].
  - intros Hn x Hx. apply HR; [exact Hn|right; exact Hx].
  - intros Hn x Hx. apply HI; [exact Hn|right; exact Hx].
  - exact S2.
Qed.

(** ** After disabling *)
Lemma done_cancelled s : done (s_cancelled s) = done s.
Proof. unfold s_cancelled. destruct (done s) eqn:D; [exact D|]. unfold done in *. exact D. Qed.
Lemma cancelled_done c k p : nth_error (c_procs c) k = Some p ->
  exists q, nth_error (c_procs (c_disable c)) k = Some q /\ control q = control p /\ forall w, done (pr_get w q) = done (pr_get w p).
Proof.
  intros A. destruct (c_enabled c) eqn:B; [|rewrite disable_off by exact B; exists p; auto]. rewrite disable_eq by exact B. cbn [set_procs c_procs]. unfold cancelled.
  destruct (c_cur c) as [j|]; [|exists p; auto]. rewrite alter_nth. destruct (Nat.eq_dec k j) as [->|]; [|exists p; auto]. rewrite A. cbn [option_map].
  exists (pr_map s_cancelled p). split; [reflexivity|]. split; [reflexivity|]. intros w. rewrite map_get. apply done_cancelled.
Qed.
Definition winding (c : conn) (k : nat) (ws : list which) : Prop :=
  exists p, nth_error (c_procs c) k = Some p /\
    (pr_pc p = PClose \/ pr_pc p = PReturned \/
     (pr_pc p = PGather /\ c_enabled c = false /\ forall w, In w ws -> done (pr_get w p) = true)).
Lemma finish_get k w pc c p : nth_error (c_procs c) k = Some p ->
  nth_error (c_procs (finish k w pc c)) k = Some (pr_put w (mkSub pc false) p).
Proof. intros A. unfold finish. rewrite put_sub_eq. cbn [set_procs c_procs]. rewrite alter_nth. destruct (Nat.eq_dec k k); [|congruence]. rewrite A. reflexivity. Qed.
Lemma which_eq (w v : which) : {w = v} + {w <> v}.
Proof. decide equality. Qed.
(** A disabled connection's tasks end when they move. *)
Lemma off_sub nr ni c k w r p : INV nr ni c -> nth_error (c_procs c) k = Some p -> pr_pc p = PGather -> c_enabled c = false ->
  (c_sub k w r c = c /\ done (pr_get w p) = true) \/ c_sub k w r c = finish k w TDone c.
Proof.
  intros I A G Off. destruct (i_gather _ _ _ I k p A G) as (G1 & G2 & G3 & G4 & G5 & G6). unfold c_sub. rewrite A, G.
  destruct (s_cancel (pr_get w p)) eqn:Ca; [right; reflexivity|]. destruct (done (pr_get w p)) eqn:Dn; [|rewrite (G2 Off w Dn) in Ca; discriminate].
  left. split; [|reflexivity]. apply done_pc in Dn. destruct w; [unfold c_read|unfold c_init_task|unfold c_write|unfold c_waitsig]; rewrite Dn; reflexivity.
Qed.
Lemma sub_other k w r c j p : j <> k -> nth_error (c_procs c) j = Some p -> (c_enabled c = false) -> nth_error (c_procs (c_sub k w r c)) j = Some p.
Proof.
  intros N A Off. assert (F : forall v pc d, nth_error (c_procs d) j = Some p -> nth_error (c_procs (finish k v pc d)) j = Some p).
  { intros v pc d H. unfold finish. rewrite put_sub_eq. cbn [set_procs c_procs]. rewrite alter_nth. destruct (Nat.eq_dec j k); [congruence|exact H]. }
  destruct (sub_moved k w r c); try (apply F; cbn [set_init set_started set_queue set_sent c_procs]; rewrite ?disable_off by exact Off); exact A.
Qed.
Lemma winding_step nr ni c e k ws : INV nr ni c -> winding c k ws ->
  winding (c_step c e) k (ws ++ match e with ESub j w _ => if Nat.eq_dec j k then [w] else [] | _ => [] end).
Proof.
  intros I (p & A & W).
  assert (D : (exists r, e = EProc k r) \/ forall r, e <> EProc k r).
  { destruct e as [| | | | | |j r|]; try (right; intros; discriminate). destruct (Nat.eq_dec j k) as [->|N]; [left; exists r; reflexivity|right; intros r' H; injection H as H _; auto]. }
  destruct D as [(r & ->)|N].
  - destruct (proc_control k r c p A) as (q & Q & C). cbn [c_step]. unfold next_control in C. destruct W as [W|[W|(W & Off & Dn)]].
    + rewrite W in C. injection C as C1 _ _. exists q. auto.
    + rewrite W in C. injection C as C1 _ _. exists q. rewrite C1, W. auto.
    + rewrite W in C. destruct (done (pr_read p) && _ && _ && _) eqn:All; [injection C as C1 _ _; exists q; auto|].
      assert (E : c_proc k r c = c) by (unfold c_proc; rewrite A, W, All; reflexivity). rewrite E. exists p. split; [exact A|]. right. right. split; [exact W|]. split; [exact Off|]. intros w Hw. rewrite app_nil_r in Hw. auto.
  - destruct (step_control c e k p A N) as (q & Q & C). injection C as C1 _ _. destruct W as [W|[W|(W & Off & Dn)]]; [exists q; rewrite C1; auto|exists q; rewrite C1; auto|].
    assert (O : over p = false) by (unfold over; rewrite W; reflexivity).
    assert (Same : forall d, nth_error (c_procs d) k = Some p -> c_enabled d = false -> winding d k (ws ++ [])).
    { intros d Ad Od. exists p. split; [exact Ad|]. right. right. rewrite app_nil_r. auto. }
    destruct e as [|m| |b|sig| |j r|j w r]; cbn [c_step]; try (apply Same; [exact A|exact Off]).
    + rewrite disable_off by exact Off. apply Same; assumption.
    + apply Same; [|exact Off]. cbn [c_process set_procs c_procs]. rewrite nth_error_app1 by (eapply nth_lt; exact A). exact A.
    + unfold c_manager. destruct (c_managed c); [|apply Same; assumption]. rewrite Off. destruct (c_auto c); [|apply Same; [exact A|exact Off]].
      apply Same; [|exact Off]. cbn [c_process set_procs c_procs]. rewrite nth_error_app1 by (eapply nth_lt; exact A). exact A.
    + assert (Nj : j <> k) by (intros ->; apply (N r); reflexivity).
      assert (E : c_proc j r c = c).
      { unfold c_proc. destruct (nth_error (c_procs c) j) as [q'|] eqn:Aj; [|reflexivity]. destruct (over_pc q' (others_over nr ni c k p j q' I A O Aj Nj)) as [-> | ->]; reflexivity. }
      rewrite E. apply Same; assumption.
    + destruct (Nat.eq_dec j k) as [->|Nj].
      * destruct (off_sub nr ni c k w r p I A W Off) as [[-> Dw]| ->].
        -- exists p. split; [exact A|]. right. right. split; [exact W|]. split; [exact Off|]. intros v Hv. apply in_app_or in Hv as [Hv|[<-|[]]]; auto.
        -- exists (pr_put w (mkSub TDone false) p). split; [apply finish_get; exact A|]. right. right. rewrite put_pc. split; [exact W|].
           destruct (finish_enabled k w TDone c) as [-> _]. split; [exact Off|]. intros v Hv. rewrite put_get.
           destruct (match v, w with Read, Read | Init, Init | Write, Write | WaitSig, WaitSig => true | _, _ => false end) eqn:Ev; [reflexivity|].
           apply in_app_or in Hv as [Hv|[<-|[]]]; [auto|]. destruct w; discriminate.
      * assert (E : c_sub j w r c = c).
        { unfold c_sub. destruct (nth_error (c_procs c) j) as [q'|] eqn:Aj; [|reflexivity]. destruct (over_pc q' (others_over nr ni c k p j q' I A O Aj Nj)) as [-> | ->]; reflexivity. }
        rewrite E. apply Same; assumption.
Qed.
Lemma winding_run nr ni h : forall c k ws, INV nr ni c -> (nr = true -> forall e, In e h -> raising e = false) -> (ni = true -> forall e, In e h -> init_failing e = false) ->
  separate c h -> winding c k ws -> winding (c_run c h) k (ws ++ flat_map (fun e => match e with ESub j w _ => if Nat.eq_dec j k then [w] else [] | _ => [] end) h).
Proof.
  induction h as [|e h IH]; intros c k ws I HR HI Sep W; [cbn; rewrite app_nil_r; exact W|]. cbn [flat_map]. rewrite app_assoc. destruct Sep as [S1 S2].
  apply (IH (c_step c e)).
  - apply inv_step; auto; [intros Hn; apply HR; [exact Hn|left; reflexivity]|intros Hn; apply HI; [exact Hn|left; reflexivity]|split; [exact S1|exact Logic.I]].
  - intros Hn x Hx. apply HR; [exact Hn|right; exact Hx].
  - intros Hn x Hx. apply HI; [exact Hn|right; exact Hx].
  - exact S2.
  - apply (winding_step nr ni); assumption.
Qed.

(** ** Restart counters *)
Lemma finish_counters k w pc c : (c_restarts (finish k w pc c), c_attempts (finish k w pc c)) = (c_restarts c, c_attempts c).
Proof. unfold finish. rewrite put_sub_eq. reflexivity. Qed.
Lemma head_counters k p c : c_restarts (c_head k p c) = c_restarts c /\ c_attempts (c_head k p c) = c_attempts c.
Proof. unfold c_head. destruct (negb (c_enabled c) && _ && _); [split; reflexivity|]. destruct (negb (c_enabled c)); split; reflexivity. Qed.
Definition trues (l : list bool) : Z := cnt (filter (fun b => b) l).
Lemma step_counters c e :
  c_attempts (c_step c e) mod 256 = (c_attempts c + cnt (restarted c [e])) mod 256 /\
  c_restarts (c_step c e) mod 256 = (c_restarts c + trues (restarted c [e])) mod 256.
Proof.
  assert (Z : forall d, c_restarts d = c_restarts c -> c_attempts d = c_attempts c -> c_attempts d mod 256 = (c_attempts c + 0) mod 256 /\ c_restarts d mod 256 = (c_restarts c + 0) mod 256).
  { intros d -> ->. rewrite !Z.add_0_r. auto. }
  destruct e as [|m| |b|sig| |k r|k w r]; cbn [restarted c_step app]; try (apply Z; reflexivity).
  - pose proof (disable_rest c) as R. unfold rest in R. apply Z; congruence.
  - unfold c_manager. destruct (c_managed c); [|apply Z; reflexivity]. destruct (c_enabled c); [apply Z; reflexivity|]. destruct (c_auto c); apply Z; reflexivity.
  - unfold c_proc. destruct (nth_error (c_procs c) k) as [p|] eqn:A; [|destruct r as [ok|]; apply Z; reflexivity].
    destruct (pr_pc p) eqn:P; try (destruct r as [ok|]; apply Z; reflexivity).
    + destruct (head_counters k p c) as [H1 H2]. destruct r as [ok|]; apply Z; assumption.
    + destruct r as [ok|]; [|apply Z; reflexivity]. cbn [app].
      match goal with |- c_attempts (c_head k p ?x) mod _ = _ /\ _ => destruct (head_counters k p x) as [H1 H2] end. rewrite H1, H2.
      destruct ok; cbn [set_attempts set_restarts c_set_enabled set_enabled c_attempts c_restarts]; rewrite ?store_u8, ?Z.mod_mod by lia;
        (split; [reflexivity|]); unfold trues; cbn [filter cnt List.length]; [reflexivity|]. change (cnt (@nil bool)) with 0. f_equal; lia.
    + destruct (done (pr_read p) && _ && _ && _), r as [ok|]; apply Z; reflexivity.
  - pose proof (moved_rest k w c _ (sub_moved k w r c)) as R. unfold rest in R. apply Z; congruence.
Qed.
Lemma restarted_cons c e h : restarted c (e :: h) = restarted c [e] ++ restarted (c_step c e) h.
Proof. cbn [restarted]. rewrite app_nil_r. reflexivity. Qed.
Lemma run_counters h : forall c,
  c_attempts (c_run c h) mod 256 = (c_attempts c + cnt (restarted c h)) mod 256 /\
  c_restarts (c_run c h) mod 256 = (c_restarts c + trues (restarted c h)) mod 256.
Proof.
  induction h as [|e h IH]; intros c; [cbn; rewrite !Z.add_0_r; auto|]. change (c_run c (e :: h)) with (c_run (c_step c e) h).
  destruct (IH (c_step c e)) as [-> ->]. destruct (step_counters c e) as [S1 S2]. rewrite restarted_cons. unfold trues. rewrite filter_app, !cnt_app. fold (trues (restarted c [e])).
  rewrite <- (Z.add_mod_idemp_l (c_attempts (c_step c e))), <- (Z.add_mod_idemp_l (c_restarts (c_step c e))), S1, S2, !Z.add_mod_idemp_l by lia. split; f_equal; lia.
Qed.
Lemma counters_range h : forall c, 0 <= c_restarts c < 256 -> 0 <= c_attempts c < 256 -> 0 <= c_restarts (c_run c h) < 256 /\ 0 <= c_attempts (c_run c h) < 256.
Proof.
  induction h as [|e h IH]; intros c R A; [auto|]. apply (IH (c_step c e)).
  - destruct e as [|m| |b|sig| |k r|k w r]; cbn [c_step]; try exact R.
    + pose proof (disable_rest c) as X. unfold rest in X. replace (c_restarts (c_disable c)) with (c_restarts c) by congruence. exact R.
    + unfold c_manager. destruct (c_managed c); [|exact R]. destruct (c_enabled c); [exact R|]. destruct (c_auto c); exact R.
    + unfold c_proc. destruct (nth_error (c_procs c) k) as [p|]; [|exact R]. destruct (pr_pc p); try exact R.
      * destruct (head_counters k p c) as [-> _]. exact R.
      * destruct r as [[|]|]; [| |exact R]; match goal with |- 0 <= c_restarts (c_head k p ?x) < _ => destruct (head_counters k p x) as [-> _] end; cbn [set_attempts set_restarts c_restarts]; [|exact R].
        rewrite store_u8. apply Z.mod_pos_bound. lia.
      * destruct (done (pr_read p) && _ && _ && _); exact R.
    + pose proof (moved_rest k w c _ (sub_moved k w r c)) as X. unfold rest in X. replace (c_restarts (c_sub k w r c)) with (c_restarts c) by congruence. exact R.
  - destruct e as [|m| |b|sig| |k r|k w r]; cbn [c_step]; try exact A.
    + pose proof (disable_rest c) as X. unfold rest in X. replace (c_attempts (c_disable c)) with (c_attempts c) by congruence. exact A.
    + unfold c_manager. destruct (c_managed c); [|exact A]. destruct (c_enabled c); [exact A|]. destruct (c_auto c); exact A.
    + unfold c_proc. destruct (nth_error (c_procs c) k) as [p|]; [|exact A]. destruct (pr_pc p); try exact A.
      * destruct (head_counters k p c) as [_ ->]. exact A.
      * destruct r as [[|]|]; [| |exact A]; match goal with |- 0 <= c_attempts (c_head k p ?x) < _ => destruct (head_counters k p x) as [_ ->] end; cbn [set_attempts set_restarts c_attempts];
        rewrite store_u8; apply Z.mod_pos_bound; lia.
      * destruct (done (pr_read p) && _ && _ && _); exact A.
    + pose proof (moved_rest k w c _ (sub_moved k w r c)) as X. unfold rest in X. replace (c_attempts (c_sub k w r c)) with (c_attempts c) by congruence. exact A.
Qed.

(** ** Fields that few events touch *)
Lemma wait_put c k q : (forall j p, nth_error (c_procs c) j = Some p -> forall m, s_pc (pr_wait p) <> TWork m) -> (forall m, s_pc (pr_wait q) <> TWork m) ->
  forall j p, nth_error (upd k q (c_procs c)) j = Some p -> forall m, s_pc (pr_wait p) <> TWork m.
Proof.
  intros H Hq j p E m. destruct (Nat.eq_dec k j) as [<-|Ne].
  - destruct (Nat.lt_ge_cases k (List.length (c_procs c))) as [L|L].
    + rewrite upd_nth in E by exact L. injection E as <-. apply Hq.
    + assert (X : nth_error (upd k q (c_procs c)) k = None) by (apply nth_error_None; rewrite upd_length; exact L). congruence.
  - rewrite upd_nth_ne in E by exact Ne. apply (H j p E).
Qed.
Definition wait_ok (c : conn) : Prop := forall j p, nth_error (c_procs c) j = Some p -> forall m, s_pc (pr_wait p) <> TWork m.
Lemma wait_disable c : wait_ok c -> wait_ok (c_disable c).
Proof.
  intros H j p E m. destruct (c_enabled c) eqn:On; [|rewrite disable_off in E by exact On; apply (H j p E)].
  unfold c_disable in E. rewrite On in E. cbn [c_cur set_hooks] in E. destruct (c_cur c) as [k|]; [|apply (H j p E)].
  cbn [set_hooks c_procs] in E. destruct (nth_error (c_procs c) k) as [q|] eqn:A; [|apply (H j p E)].
  change (nth_error (upd k (pr_map s_cancelled q) (c_procs c)) j = Some p) in E. revert m. apply (wait_put c k (pr_map s_cancelled q) H) with (j := j); [|exact E].
  intros m. cbn [pr_map pr_wait]. unfold s_cancelled. destruct (done (pr_wait q)); apply (H k q A).
Qed.
Lemma wait_step c e : wait_ok c -> wait_ok (c_step c e).
Proof.
  intros H. destruct e as [|m0| |b|sig| |k r|k w r]; cbn [c_step]; try exact H.
  - apply wait_disable, H.
  - intros j p E m. unfold c_process in E. cbn [set_procs c_procs] in E. destruct (Nat.lt_ge_cases j (List.length (c_procs c))) as [L|L].
    + rewrite nth_error_app1 in E by exact L. apply (H j p E).
    + rewrite nth_error_app2 in E by exact L. destruct (j - _)%nat as [|[|n]]; [|discriminate|discriminate]. injection E as <-. discriminate.
  - unfold c_manager. destruct (c_managed c); [|exact H]. destruct (c_enabled c); [exact H|]. destruct (c_auto c); [|exact H].
    intros j p E m. unfold c_process in E. cbn [set_procs c_procs] in E. destruct (Nat.lt_ge_cases j (List.length (c_procs c))) as [L|L].
    + rewrite nth_error_app1 in E by exact L. apply (H j p E).
    + rewrite nth_error_app2 in E by exact L. destruct (j - _)%nat as [|[|n]]; [|discriminate|discriminate]. injection E as <-. discriminate.
  - unfold c_proc. destruct (nth_error (c_procs c) k) as [p|] eqn:A; [|exact H].
    assert (Hd : forall d, c_procs d = c_procs c -> wait_ok (c_head k p d)).
    { intros d Ed j q E m. unfold c_head in E. destruct (negb (c_enabled d) && _ && _).
      - unfold put_proc in E. cbn [set_procs c_procs] in E. rewrite Ed in E. revert m. eapply (wait_put c k _ H); [|exact E]. intros m. apply (H k p A).
      - destruct (negb (c_enabled d)); unfold put_proc in E; cbn [set_exited set_cur set_procs c_procs] in E; rewrite Ed in E; revert m; (eapply (wait_put c k _ H); [|exact E]); intros m.
        + apply (H k p A).
        + cbn [pr_wait]. destruct (pr_sig p); discriminate. }
    destruct (pr_pc p); try exact H; try (apply Hd; reflexivity).
    + intros j q E m. unfold put_proc in E. cbn [set_procs set_log c_procs] in E. revert m. eapply (wait_put c k _ H); [|exact E]. intros m. apply (H k p A).
    + destruct r as [[|]|]; try (apply Hd; reflexivity). intros j q E m. unfold put_proc in E. cbn [set_procs c_procs] in E. revert m. eapply (wait_put c k _ H); [|exact E]. intros m. apply (H k p A).
    + destruct (done _ && _ && _ && _); [|exact H]. intros j q E m. unfold put_proc in E. cbn [set_procs c_procs] in E. revert m. eapply (wait_put c k _ H); [|exact E]. intros m. apply (H k p A).
    + intros j q E m. unfold put_proc in E. cbn [set_procs set_exited c_procs] in E. revert m. eapply (wait_put c k _ H); [|exact E]. intros m. apply (H k p A).
  - assert (F : forall w pc d, wait_ok d -> (w = WaitSig -> forall m, pc <> TWork m) -> wait_ok (finish k w pc d)).
    { intros v pc d Hd Hv. unfold finish, put_sub. destruct (nth_error (c_procs d) k) as [p|] eqn:A; [|exact Hd].
      intros j q E m. unfold put_proc in E. cbn [set_procs c_procs] in E. revert m. eapply (wait_put d k _ Hd); [|exact E]. intros m.
      destruct v; cbn [pr_put pr_wait]; try apply (Hd k p A). apply Hv. reflexivity. }
    assert (D : wait_ok (c_disable c)) by (apply wait_disable, H).
    unfold c_sub. destruct (nth_error (c_procs c) k) as [p|]; [|exact H]. destruct (pr_pc p); try exact H. destruct (s_cancel (pr_get w p)); [apply F; [exact H|discriminate]|].
    destruct w; [unfold c_read|unfold c_init_task|unfold c_write|unfold c_waitsig].
    + destruct (s_pc _); [| | |exact H]; [apply F; [exact H|discriminate]| |]; (destruct r as [[|]|]; unfold disable_and_end; apply F; auto; discriminate).
    + destruct (s_pc _); [| |exact H|exact H]; [apply F; [exact H|discriminate]|]. destruct r as [[|]|]; apply F; auto; discriminate.
    + destruct (s_pc _); [| | |exact H]; [apply F; [exact H|discriminate]| |].
      * destruct (c_queue c); [exact H|apply F; [exact H|discriminate]].
      * destruct r; apply F; auto; discriminate.
    + destruct (s_pc _); [| |exact H|exact H]; (destruct (c_stop c); unfold disable_and_end; apply F; auto; discriminate).
Qed.
Lemma wait_run h : forall c, wait_ok c -> wait_ok (c_run c h).
Proof. induction h as [|e h IH]; intros c H; [exact H|]. apply (IH (c_step c e)), wait_step, H. Qed.

Lemma disable_managed c : c_managed (c_disable c) = c_managed c.
Proof.
  unfold c_disable. destruct (c_enabled c); [|reflexivity]. cbn [set_hooks c_cur c_procs]. destruct (c_cur c) as [k|]; [|reflexivity]. destruct (nth_error _ k); reflexivity.
Qed.
Lemma finish_managed k w pc c : c_managed (finish k w pc c) = c_managed c.
Proof. unfold finish, put_sub. destruct (nth_error (c_procs c) k); reflexivity. Qed.
Lemma managed_off c e : c_managed c = false -> c_managed (c_step c e) = false.
Proof.
  intros H. destruct e as [|m| |b|sig| |k r|k w r]; cbn [c_step]; try exact H.
  - rewrite disable_managed. exact H.
  - unfold c_manager. rewrite H. exact H.
  - assert (Hd : forall p d, c_managed d = false -> c_managed (c_head k p d) = false).
    { intros p d Hd. unfold c_head. destruct (negb _ && _ && _); [exact Hd|]. destruct (negb _); exact Hd. }
    unfold c_proc. destruct (nth_error (c_procs c) k) as [p|]; [|exact H]. destruct (pr_pc p); try exact H; try (apply Hd; exact H).
    + destruct r as [[|]|]; try (apply Hd; exact H). exact H.
    + destruct (_ && _); exact H.
  - destruct (sub_moved k w r c); rewrite ?finish_managed, ?disable_managed; try exact H; cbn [set_init set_started set_queue set_sent c_managed]; rewrite ?disable_managed; exact H.
Qed.

(** A process() call that is not waiting for its tasks has none running. *)
Definition settled (p : proc) : Prop := pr_pc p <> PGather -> forall w, done (pr_get w p) = true.
Definition all_settled (c : conn) : Prop := forall j p, nth_error (c_procs c) j = Some p -> settled p.
Lemma settled_put c d k q : all_settled c -> settled q -> c_procs d = upd k q (c_procs c) -> all_settled d.
Proof.
  intros H Hq Ed j p E. rewrite Ed in E. destruct (Nat.eq_dec k j) as [<-|Ne].
  - destruct (Nat.lt_ge_cases k (List.length (c_procs c))) as [L|L].
    + rewrite upd_nth in E by exact L. injection E as <-. exact Hq.
    + assert (X : nth_error (upd k q (c_procs c)) k = None) by (apply nth_error_None; rewrite upd_length; exact L). congruence.
  - rewrite upd_nth_ne in E by exact Ne. apply (H j p E).
Qed.
Lemma settled_disable c : all_settled c -> all_settled (c_disable c).
Proof.
  intros H j q E. destruct (nth_error (c_procs c) j) as [p|] eqn:A.
  - destruct (cancelled_done c j p A) as (q' & Q & C & D). rewrite E in Q. injection Q as <-. injection C as C1 _ _. intros N w. rewrite D. apply (H j p A). congruence.
  - exfalso. assert (L : List.length (c_procs (c_disable c)) = List.length (c_procs c)).
    { unfold c_disable. destruct (c_enabled c); [|reflexivity]. cbn [set_hooks c_cur c_procs]. destruct (c_cur c) as [k|]; [|reflexivity]. destruct (nth_error (c_procs c) k); [|reflexivity].
      unfold put_proc. cbn [c_set_enabled set_init set_enabled set_procs set_hooks c_procs]. apply upd_length. }
    apply nth_error_None in A. apply nth_lt in E. lia.
Qed.
Lemma settled_step c e : all_settled c -> all_settled (c_step c e).
Proof.
  intros H.
  assert (Pr : forall sig, all_settled (c_process sig c)).
  { intros sig j p E. unfold c_process in E. cbn [set_procs c_procs] in E. destruct (Nat.lt_ge_cases j (List.length (c_procs c))) as [L|L].
    - rewrite nth_error_app1 in E by exact L. apply (H j p E).
    - rewrite nth_error_app2 in E by exact L. destruct (j - _)%nat as [|[|n]]; [|discriminate|discriminate]. injection E as <-. intros _ [ | | | ]; reflexivity. }
  destruct e as [|m0| |b|sig| |k r|k w r]; cbn [c_step]; try exact H.
  - apply settled_disable, H.
  - apply Pr.
  - unfold c_manager. destruct (c_managed c); [|exact H]. destruct (c_enabled c); [exact H|]. destruct (c_auto c); [apply Pr|exact H].
  - unfold c_proc. destruct (nth_error (c_procs c) k) as [p|] eqn:A; [|exact H]. pose proof (H k p A) as Sp.
    assert (Hd : forall d, pr_pc p <> PGather -> c_procs d = c_procs c -> all_settled (c_head k p d)).
    { intros d Ng Ed. unfold c_head. destruct (negb (c_enabled d) && _ && _).
      - eapply (settled_put c _ k); [exact H| |unfold put_proc; cbn [set_procs c_procs]; rewrite Ed; reflexivity]. intros _ w. rewrite <- (Sp Ng w). destruct w; reflexivity.
      - destruct (negb (c_enabled d)); (eapply (settled_put c _ k); [exact H| |unfold put_proc; cbn [set_exited set_cur set_procs c_procs]; rewrite Ed; reflexivity]).
        + intros _ w. rewrite <- (Sp Ng w). destruct w; reflexivity.
        + intros X. cbn [pr_pc] in X. congruence. }
    assert (Same : forall d q, pr_pc p <> PGather -> (forall w, pr_get w q = pr_get w p) -> c_procs d = upd k q (c_procs c) -> all_settled d).
    { intros d q Ng Hq Ed. apply (settled_put c d k q H); [|exact Ed]. intros _ w. rewrite Hq. apply Sp, Ng. }
    destruct (pr_pc p) eqn:P; try exact H; try (apply Hd; [discriminate|reflexivity]).
    + apply (Same _ (pr_set PRestart p)); [discriminate|intros [ | | | ]; reflexivity|reflexivity].
    + destruct r as [[|]|]; try (apply Hd; [discriminate|reflexivity]). apply (Same _ (pr_set PRaised p)); [discriminate|intros [ | | | ]; reflexivity|reflexivity].
    + destruct (done (pr_read p)) eqn:D1; [|exact H]. destruct (done (pr_init p)) eqn:D2; [|exact H]. destruct (done (pr_write p)) eqn:D3; [|exact H]. destruct (done (pr_wait p)) eqn:D4; [|exact H].
      cbn [andb]. apply (settled_put c _ k (pr_set PClose p) H); [|reflexivity]. intros _ [ | | | ]; assumption.
    + apply (Same _ (pr_set PReturned p)); [discriminate|intros [ | | | ]; reflexivity|reflexivity].
  - destruct (nth_error (c_procs c) k) as [p|] eqn:A; [|unfold c_sub; rewrite A; exact H].
    assert (G : pr_pc p = PGather \/ c_sub k w r c = c) by (unfold c_sub; rewrite A; destruct (pr_pc p); auto). destruct G as [G| ->]; [|exact H].
    assert (F : forall w pc d, all_settled d -> (exists q, nth_error (c_procs d) k = Some q /\ pr_pc q = PGather) -> all_settled (finish k w pc d)).
    { intros v pc d Hd (q & Q & Gq). unfold finish, put_sub. rewrite Q. eapply (settled_put d _ k); [exact Hd| |reflexivity]. intros X. rewrite put_pc in X. congruence. }
    assert (Own : exists q, nth_error (c_procs c) k = Some q /\ pr_pc q = PGather) by eauto.
    assert (D : all_settled (c_disable c)) by (apply settled_disable, H).
    assert (DOwn : exists q, nth_error (c_procs (c_disable c)) k = Some q /\ pr_pc q = PGather).
    { destruct (cancelled_done c k p A) as (q & Q & C & _). injection C as C1 _ _. exists q. split; [exact Q|congruence]. }
    destruct (sub_moved k w r c) as [w0|w0 pc|w0| | |m q0|m]; try exact H; apply F; auto.
Qed.
Lemma settled_run h : forall c, all_settled c -> all_settled (c_run c h).
Proof. induction h as [|e h IH]; intros c H; [exact H|]. apply (IH (c_step c e)), settled_step, H. Qed.
