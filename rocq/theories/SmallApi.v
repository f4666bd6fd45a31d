(** Smaller statements about file transfers, waiting for a state, custom commands,
    back-off and instrument replies. *)
From Verif Require Import Base BaseLemmas.
From Coq Require Import ZifyBool ZifyNat Lia.
Open Scope list_scope.
Open Scope Z_scope.

(** ** File transfers *)
From Verif Require Import TftpModel TftpSpec TftpProofs TftpProps.

(** C30.  Nothing is received (written) or served (read) unless a request arrives. *)
Theorem C30_only_on_request : forall size file ops, requests ops = 0%nat ->
  (let t := TftpModel.run KWrite size file (initial KWrite) ops in rcv t = RIdle /\ rcv_file t = []) /\
  snd_ (TftpModel.run KRead size file (initial KRead) ops) = SIdle.
Proof.
  intros size file ops R. split.
  - assert (G : forall ops t, requests ops = 0%nat -> rcv t = RIdle -> rcv_file t = [] -> rcv_pending t = 0%nat ->
      rcv (TftpModel.run KWrite size file t ops) = RIdle /\ rcv_file (TftpModel.run KWrite size file t ops) = []); [|apply G; auto].
    clear. induction ops as [|o ops IH]; intros t R A B C; [auto|]. unfold TftpModel.run in *. cbn [fold_left]. apply IH.
    + destruct o as [[]| | | | | | | |]; cbn [requests] in R; try discriminate; exact R.
    + destruct o as [m| | | | | | | |]; cbn [TftpModel.step]; rewrite ?A, ?C; auto.
      * destruct (in_dec _ _ _); [|exact A]. destruct m; cbn [deliver]; [discriminate R| |].
        -- rewrite A. exact A.
        -- destruct (snd_ t) as [|[]|? []| |]; try exact A; destruct (_ =? _); exact A.
      * unfold sent. destruct (sender_msg _ _ _); exact A.
      * destruct (snd_ t) as [|[]|? []| |]; exact A.
      * destruct (snd_ t) as [|[]|? []| |]; exact A.
      * unfold sent, receiver_msg. rewrite A. exact A.
    + destruct o as [m| | | | | | | |]; cbn [TftpModel.step]; rewrite ?A, ?C; auto.
      * destruct (in_dec _ _ _); [|exact B]. destruct m; cbn [deliver]; [discriminate R| |].
        -- rewrite A. exact B.
        -- destruct (snd_ t) as [|[]|? []| |]; try exact B; destruct (_ =? _); exact B.
      * unfold sent. destruct (sender_msg _ _ _); exact B.
      * destruct (snd_ t) as [|[]|? []| |]; exact B.
      * destruct (snd_ t) as [|[]|? []| |]; exact B.
      * unfold sent, receiver_msg. rewrite A. exact B.
    + destruct o as [m| | | | | | | |]; cbn [TftpModel.step]; rewrite ?A, ?C; auto.
      * destruct (in_dec _ _ _); [|exact C]. destruct m; cbn [deliver]; [discriminate R| |].
        -- rewrite A. exact C.
        -- destruct (snd_ t) as [|[]|? []| |]; try exact C; destruct (_ =? _); exact C.
      * unfold sent. destruct (sender_msg _ _ _); exact C.
      * destruct (snd_ t) as [|[]|? []| |]; exact C.
      * destruct (snd_ t) as [|[]|? []| |]; exact C.
      * unfold sent, receiver_msg. rewrite A. exact C.
  - assert (G : forall ops t, requests ops = 0%nat -> snd_ t = SIdle -> snd_pending t = 0%nat ->
      snd_ (TftpModel.run KRead size file t ops) = SIdle); [|apply G; auto].
    clear. induction ops as [|o ops IH]; intros t R A C; [auto|]. unfold TftpModel.run in *. cbn [fold_left].
    assert (X : snd_ (TftpModel.step KRead size file t o) = SIdle /\ snd_pending (TftpModel.step KRead size file t o) = 0%nat).
    { destruct o as [m| | | | | | | |]; cbn [TftpModel.step]; rewrite ?A, ?C; auto.
      - destruct (in_dec _ _ _); [|auto]. destruct m; cbn [deliver]; [discriminate R| |].
        + destruct (rcv t) as [|[]| |]; auto. destruct (_ =? _); auto.
        + rewrite A. auto.
      - unfold sent, sender_msg. rewrite A. auto.
      - unfold sent. destruct (receiver_msg _ _); auto.
      - destruct (rcv t) as [|[d|]| |]; auto. unfold receive_block. destruct (_ <=? _)%nat; auto.
      - destruct (rcv t) as [|[d|]| |]; auto. }
    apply IH; [|apply X|apply X]. destruct o as [[]| | | | | | | |]; cbn [requests] in R; try discriminate; exact R.
Qed.
Print Assumptions C30_only_on_request.

(** C30.  Giving up ends the transfer without success, unless the acknowledgement
    (or block) waited for has already arrived. *)
Theorem C30_giving_up : forall k size file t,
  (forall got, snd_ t = SAwaitFirst got -> snd_ (TftpModel.step k size file t STimeout) = if got then snd_ t else SDone false) /\
  (forall i got, snd_ t = SServe i got -> snd_ (TftpModel.step k size file t STimeout) = if got then snd_ t else SDone false) /\
  (forall got, rcv t = RWait got -> rcv (TftpModel.step k size file t RTimeout) = match got with Some _ => rcv t | None => RDone false end) /\
  rcv_file (TftpModel.step k size file t RTimeout) = rcv_file t.
Proof.
  intros k size file t. cbn [TftpModel.step]. split; [|split; [|split]].
  - intros got E. rewrite E. destruct got; [exact E|reflexivity].
  - intros i got E. rewrite E. destruct got; [exact E|reflexivity].
  - intros got E. rewrite E. destruct got; [exact E|reflexivity].
  - destruct (rcv t) as [|[]| |]; reflexivity.
Qed.
Print Assumptions C30_giving_up.
Example C30_idle_case : requests [RSend; SSend; SStart; RTimeout] = 0%nat /\
  snd_ (TftpModel.run KRead 3 [1; 2] (initial KRead) [RSend; SSend; SStart; RTimeout]) = SIdle /\
  rcv (TftpModel.run KRead 3 [1; 2] (initial KRead) [RSend; SSend; SStart; RTimeout]) = RDone false.
Proof. vm_compute. auto. Qed.

(** ** Custom commands *)
From Verif Require Import AsyncCmdModel AsyncCmdSpec AsyncCmdProofs AsyncCmdProps.

(** C49.  Registering commands succeeds exactly when no name comes twice; then all
    of them are known. *)
Theorem C49_setup_iff : forall names s, NoDup (ac_customs s) ->
  (snd (ac_setup names s) = true <-> NoDup (ac_customs s ++ names)) /\
  (snd (ac_setup names s) = true -> ac_customs (fst (ac_setup names s)) = ac_customs s ++ names).
Proof.
  intros names s. unfold ac_setup. set (l := ac_customs s). clearbody l.
  assert (G : forall names l, NoDup l -> (snd (register names l) = true <-> NoDup (l ++ names)) /\ (snd (register names l) = true -> fst (register names l) = l ++ names)).
  { clear. induction names as [|n names IH]; intros l N; cbn [register]; [rewrite app_nil_r; cbn; tauto|].
    destruct (existsb (String.eqb n) l) eqn:E; cbn [fst snd].
    - apply existsb_exists in E. destruct E as (x & Hx & E). apply String.eqb_eq in E. subst x. split; [|discriminate]. split; [discriminate|].
      intros K. exfalso. apply NoDup_remove in K. apply (proj2 K). apply in_app_iff. left. exact Hx.
    - assert (Nn : ~ In n l). { intros H. assert (existsb (String.eqb n) l = true) by (apply existsb_exists; exists n; split; [exact H|apply String.eqb_refl]). congruence. }
      assert (N' : NoDup (l ++ [n])). { apply (NoDup_Add (a := n) (l := l)); [rewrite <- (app_nil_r l) at 1; apply Add_app|]. auto. }
      destruct (IH (l ++ [n]) N') as [A B]. rewrite <- !app_assoc in A, B. cbn [app] in A, B. split; assumption. }
  intros N. destruct (G names l N) as [A B]. destruct (register names l) as [l' ok]. cbn [fst snd ac_customs] in *. split; assumption.
Qed.
Print Assumptions C49_setup_iff.

(** ** Back-off *)
From Coq Require Import QArith.
From Verif Require Import BackoffModel BackoffSpec BackoffProps.

(** C40.  With the default settings: exactly twenty attempts, if none succeeds, after
    17.3 seconds of waiting in all, never more than 1.9 at once; the limit of ten
    seconds is never reached (it would be, without the limit of attempts). *)
Theorem C40_defaults : forall results, Forall (eq false) results -> (20 <= List.length results)%nat ->
  exists ts b, bo_connect bo_default results = (ts, GaveUp, b) /\ List.length ts = 20%nat /\
    (fold_right Qplus 0 ts == 173 # 10)%Q /\ Forall (fun t => (t <= 19 # 10)%Q) ts.
Proof.
  intros results F L. destruct (bo_connect bo_default results) as [[ts o] b] eqn:E.
  pose proof (C40_stops_after_max_tries (1 # 10) 10 20 results ts o b ltac:(lia) E) as (A & B & C).
  assert (K : o = GaveUp /\ List.length ts = 20%nat).
  { destruct o.
    - exfalso. destruct C as (k & _ & C & _). apply nth_error_In in C. rewrite Forall_forall in F. specialize (F _ C). discriminate.
    - split; [reflexivity|]. lia.
    - exfalso. lia. }
  destruct K as [-> K]. exists ts, b. split; [reflexivity|]. split; [exact K|]. rewrite B, K. split.
  - apply Qeq_bool_iff. vm_compute. reflexivity.
  - apply Forall_forall. intros t Ht. apply Qle_bool_iff.
    assert (X : forallb (fun t => Qle_bool t (19 # 10)) (waits (bo_new (1 # 10) 10 20) 20) = true) by (vm_compute; reflexivity).
    rewrite forallb_forall in X. apply X, Ht.
Qed.
Print Assumptions C40_defaults.
Theorem C40_default_limit : forall n k w, (103 <= k)%nat -> nth_error (waits bo_default n) (S k) = Some w -> w = 10%Q.
Proof.
  intros n k w K H. apply waits_exact in H. subst w. unfold bo_default, bo_new, bo_reset. cbn [bo_attempt bo_interval bo_max_sleep]. rewrite Z.add_0_l.
  unfold py_min. destruct (Qle_bool _ 10) eqn:Q; [|reflexivity]. exfalso. apply Qle_bool_iff in Q. destruct (lxor2 (Z.of_nat k) ltac:(lia)) as [M|M]; rewrite M in Q; unfold Qle in Q; cbn in Q; lia.
Qed.
Print Assumptions C40_default_limit.

(** ** Waiting for a boolean state *)
From Verif Require EvalModel EvalSpec EvalProofs EvalProps.
Section State.
Import PrimModel EvalModel EvalSpec EvalProofs EvalProps.

(** C67.  A wait for a state that succeeds has seen that state, when only values the
    primitive can hold are assigned. *)
Theorem C67_state_success_partial : forall k v ts pre state mid,
  let n := List.length (w_obs (w_run (w_new k v ts) pre)) in
  returned (w_run (w_new k v ts) (pre ++ OEvaluate (ev_state state) :: mid)) n = Some Success ->
  Forall (fits k) mid ->
  exists a b, mid = a ++ b /\
    w_raw (w_run (w_new k v ts) (pre ++ OEvaluate (ev_state state) :: a)) = state.
Proof.
  intros k v ts pre state mid n H F.
  assert (Rw : forall a, w_raw (w_run (w_new k v ts) (pre ++ OEvaluate (ev_state state) :: a)) = stored k (stored k (k_store k v) pre) a).
  { intros a. destruct (run_prim (pre ++ OEvaluate (ev_state state) :: a) (w_new k v ts)) as (_ & B & _). rewrite B. cbn. rewrite stored_app. reflexivity. }
  destruct (C67_result _ _ _ _ _ _ _ H) as [[E _]|(E & m1 & m2 & M & _ & _ & V)].
  - exists [], mid. split; [reflexivity|]. rewrite Rw. cbn. unfold ev_state in E. destruct (_ =? state) eqn:Q; [lia|discriminate].
  - set (raw := stored k (k_store k v) pre) in *. fold n in M.
    assert (X : forall m r, Forall (fits k) m -> forall c, In c (changes k r m) -> exists a b, m = a ++ b /\ stored k r a = ch_new c).
    { clear. induction m as [|o m IH]; intros r F c H; [destruct H|]. inversion_clear F.
      assert (K : forall r', stored k r [o] = r' -> In c (changes k r' m) -> exists a b, o :: m = a ++ b /\ stored k r a = ch_new c).
      { intros r' E I. destruct (IH r' H1 c I) as (a & b & P & Q). exists (o :: a), b. split; [cbn; congruence|].
        rewrite <- Q, <- E. change (o :: a) with ([o] ++ a). apply stored_app. }
      destruct o; cbn [changes] in H; try (eapply K; [reflexivity|exact H]).
      apply in_app_iff in H as [H|H]; [|eapply K; [reflexivity|exact H]].
      destruct (r =? v); [destruct H|]. destruct H as [<-|[]]. exists [OSet v ts], m. split; [reflexivity|]. exact H0. }
    symmetry in V. unfold verdict in V. destruct (rev (changes k raw m1)) as [|c l] eqn:R; [discriminate|].
    assert (I : In c (changes k raw m1)) by (apply in_rev; rewrite R; left; reflexivity).
    assert (F1 : Forall (fits k) m1) by (rewrite M in F; apply Forall_app in F; tauto).
    destruct (X m1 raw F1 c I) as (a & b & P & Q). exists a, (b ++ OResume n :: m2).
    split; [rewrite M, P, <- app_assoc; reflexivity|]. rewrite Rw. fold raw. rewrite Q.
    unfold ev_state in V. destruct (_ =? state) eqn:Q2; [lia|discriminate].
Qed.

(** C67.  A wait for a state the primitive already has succeeds at once. *)
Theorem C67_state_at_once : forall k v ts pre,
  let w := w_run (w_new k v ts) pre in
  returned (w_run w [OEvaluate (ev_state (w_raw w))]) (List.length (w_obs w)) = Some Success.
Proof.
  intros k v ts pre w. cbn [w_run fold_left w_step]. generalize w. clear. intros w.
  assert (E : ev_bool (ev_state (w_raw w) (w_raw w) (w_raw w)) = true) by (unfold ev_state; rewrite Z.eqb_refl; reflexivity).
  unfold w_evaluate. rewrite E.
  unfold returned. cbn [add_obs w_obs]. rewrite nth_error_app2 by apply Nat.le_refl. rewrite Nat.sub_diag. reflexivity.
Qed.

Example C67_state_case :
  returned (w_run (w_new KBool 0 0) ([] ++ OEvaluate (ev_state 1) :: [OSet 1 5; OResume 0])) 0 = Some Success /\
  returned (w_run (w_new KBool 1 0) ([] ++ OEvaluate (ev_state 0) :: [OSet 1 5; OResume 0])) 0 <> Some Success.
Proof. split; [reflexivity|discriminate]. Qed.
End State.
Print Assumptions C67_state_success_partial.
Print Assumptions C67_state_at_once.

(** ** Line breaks in replies of instruments *)
From Verif Require ScpiModel.

(** C46.  Exactly these characters end a reply. *)
Theorem C46_line_breaks : forall x,
  ScpiModel.is_break x = true <-> In x [10; 11; 12; 13; 28; 29; 30; 133; 8232; 8233].
Proof.
  intros x. unfold ScpiModel.is_break. rewrite existsb_exists. split.
  - intros (y & I & E). apply Z.eqb_eq in E. subst. exact I.
  - intros I. exists x. split; [exact I|apply Z.eqb_refl].
Qed.
Print Assumptions C46_line_breaks.
