(** Properties of waiting for a primitive (C67, C69) and of sampling it (C68). *)
From Coq Require Import ZifyBool ZifyNat Lia QArith Qround.
From Verif Require Import Base BaseLemmas PrimModel ScalingModel TaskModel EvalModel EvalSpec EvalProofs.
Open Scope Z_scope.

(** * C67: waiting for a condition *)

(** The exact result of a wait.  It was called after the history [pre]; it has
    returned after [mid].  Either the condition held when it was called, or it was
    resumed after a change that met the condition or after its deadline, and the
    result is what the last change before the resumption amounts to (Timeout when
    there was none). *)
Theorem C67_result k v ts pre ev mid r :
  let n := List.length (w_obs (w_run (w_new k v ts) pre)) in
  let raw := stored k (k_store k v) pre in
  returned (w_run (w_new k v ts) (pre ++ OEvaluate ev :: mid)) n = Some r ->
  (ev raw raw = Success /\ r = Success) \/
  (ev raw raw <> Success /\
   exists m1 m2, mid = m1 ++ OResume n :: m2 /\
     waits (w_run (w_new k v ts) (pre ++ OEvaluate ev :: m1)) n = true /\
     ((exists c, In c (changes k raw m1) /\ meets ev c) \/ In (ODeadline n) m1) /\
     r = verdict ev (changes k raw m1)).
Proof.
  intros n raw H. set (w0 := w_run (w_new k v ts) pre) in *.
  assert (W0 : WI w0) by apply WI_run, WI_new.
  destruct (run_prim pre (w_new k v ts)) as (Kd & Rw & _). fold w0 in Kd, Rw. cbn in Kd, Rw.
  rewrite run_app in H. fold w0 in H. change (w_run w0 (OEvaluate ev :: mid)) with (w_run (w_step w0 (OEvaluate ev)) mid) in H.
  destruct (evaluate_start w0 ev) as (S & Kd1 & Rw1). fold n in S. rewrite Rw in S. fold raw in S.
  pose proof (WI_step _ (OEvaluate ev) W0) as W1. unfold returned in H.
  destruct (ev raw raw) eqn:E; cbn [ev_bool] in S.
  4:{ left. split; [reflexivity|]. rewrite (returned_stays _ n _ mid W1 S) in H. congruence. }
  all: right; split; [discriminate|];
    destruct (wait_track _ n ev _ mid W1 S) as [T|(m1 & m2 & A & B & C & D)]; [rewrite T in H; discriminate|];
    rewrite Kd1, Rw1, Kd, Rw in B, D; fold raw in B, D; rewrite D in H; injection H as <-;
    exists m1, m2; (split; [exact A|]); split; [rewrite run_app; fold w0; exact C|];
    (split; [|reflexivity]); apply orb_prop in B as [B|B]; [left; apply meetsb_iff, B|right; apply deadline_iff, B].
Qed.
Print Assumptions C67_result.

(** Nobody waits for ever: once a change met the condition or the deadline has
    passed, the next resumption returns. *)
Theorem C67_ends k v ts pre ev mid :
  let n := List.length (w_obs (w_run (w_new k v ts) pre)) in
  let raw := stored k (k_store k v) pre in
  (ev raw raw = Success -> returned (w_run (w_new k v ts) (pre ++ OEvaluate ev :: mid)) n = Some Success) /\
  ((exists c, In c (changes k raw mid) /\ meets ev c) \/ In (ODeadline n) mid ->
   exists r, returned (w_run (w_new k v ts) (pre ++ OEvaluate ev :: mid ++ [OResume n])) n = Some r).
Proof.
  intros n raw. set (w0 := w_run (w_new k v ts) pre) in *.
  assert (W0 : WI w0) by apply WI_run, WI_new.
  destruct (run_prim pre (w_new k v ts)) as (Kd & Rw & _). fold w0 in Kd, Rw. cbn in Kd, Rw.
  rewrite !run_app. fold w0. change (w_run w0 (OEvaluate ev :: ?m)) with (w_run (w_step w0 (OEvaluate ev)) m).
  destruct (evaluate_start w0 ev) as (S & Kd1 & Rw1). fold n in S. rewrite Rw in S. fold raw in S.
  pose proof (WI_step _ (OEvaluate ev) W0) as W1. unfold returned. split.
  - intros E. rewrite E in S. cbn in S. rewrite (returned_stays _ n _ mid W1 S). reflexivity.
  - intros H. destruct (ev_bool (ev raw raw)) eqn:E.
    + rewrite (returned_stays _ n _ (mid ++ [OResume n]) W1 S). eauto.
    + destruct (wait_track _ n ev _ mid W1 S) as [T|(m1 & m2 & A & B & C & D)].
      * rewrite run_app. cbn [w_run fold_left]. change (fold_left w_step mid (w_step w0 (OEvaluate ev))) with (w_run (w_step w0 (OEvaluate ev)) mid).
        rewrite (step_obs _ (OResume n) n _ (WI_run mid _ W1) T). cbn [b_step]. rewrite Nat.eqb_refl.
        rewrite Kd1, Rw1, Kd, Rw. fold raw. replace (_ || _) with true; [eauto|].
        symmetry. apply orb_true_iff. rewrite meetsb_iff, deadline_iff. exact H.
      * rewrite run_app. cbn [w_run fold_left]. change (fold_left w_step mid (w_step w0 (OEvaluate ev))) with (w_run (w_step w0 (OEvaluate ev)) mid).
        rewrite (step_obs _ (OResume n) n _ (WI_run mid _ W1) D). cbn [b_step]. rewrite Nat.eqb_refl. eauto.
Qed.
Print Assumptions C67_ends.

(** The claim "it succeeds when the condition was met during the wait": holds when
    nothing changes between the change that met it and the resumption. *)
Theorem C67_met_partial k v ts pre ev mid a x t b c :
  let n := List.length (w_obs (w_run (w_new k v ts) pre)) in
  let raw := stored k (k_store k v) pre in
  mid = a ++ OSet x t :: b ->
  changes k (stored k raw a) [OSet x t] = [c] -> meets ev c ->
  changes k (stored k raw (a ++ [OSet x t])) b = [] ->
  waits (w_run (w_new k v ts) (pre ++ OEvaluate ev :: mid)) n = true ->
  returned (w_run (w_new k v ts) (pre ++ OEvaluate ev :: mid ++ [OResume n])) n = Some Success.
Proof.
  intros n raw M C Me Q Wt.
  assert (E : changes k raw mid = changes k raw a ++ [c]).
  { rewrite M. change (OSet x t :: b) with ([OSet x t] ++ b). rewrite app_assoc, changes_app, Q, app_nil_r, changes_app, C. reflexivity. }
  destruct (C67_ends k v ts pre ev mid) as [_ H]. fold n raw in H.
  destruct H as (r & R). { left. exists c. split; [|exact Me]. rewrite E. apply in_app_iff. cbn. auto. }
  rewrite R. f_equal. 
  set (w0 := w_run (w_new k v ts) pre) in *.
  assert (W0 : WI w0) by apply WI_run, WI_new.
  destruct (run_prim pre (w_new k v ts)) as (Kd & Rw & _). fold w0 in Kd, Rw. cbn in Kd, Rw.
  rewrite !run_app in *. fold w0 in Wt, R. change (w_run w0 (OEvaluate ev :: ?m)) with (w_run (w_step w0 (OEvaluate ev)) m) in *.
  destruct (evaluate_start w0 ev) as (S & Kd1 & Rw1). fold n in S. rewrite Rw in S. fold raw in S.
  pose proof (WI_step _ (OEvaluate ev) W0) as W1. unfold returned, waits in *.
  destruct (ev_bool (ev raw raw)) eqn:Eb.
  - rewrite (returned_stays _ n _ mid W1 S) in Wt. discriminate.
  - destruct (wait_track _ n ev _ mid W1 S) as [T|(m1 & m2 & A & B & C' & D)]; [|rewrite D in Wt; discriminate].
    rewrite run_app in R. cbn [w_run fold_left] in R. change (fold_left w_step mid (w_step w0 (OEvaluate ev))) with (w_run (w_step w0 (OEvaluate ev)) mid) in R.
    rewrite (step_obs _ (OResume n) n _ (WI_run mid _ W1) T) in R. cbn [b_step] in R. rewrite Nat.eqb_refl in R.
    rewrite Kd1, Rw1, Kd, Rw in R. fold raw in R. rewrite E, verdict_snoc in R.
    destruct (_ || _); [|discriminate]. injection R as <-. exact Me.
Qed.
Print Assumptions C67_met_partial.

(** Refuted in general: another change before the waiting task gets to run makes
    the wait fail although the condition was met. *)
Theorem C67_missed_refuted :
  exists mid, In (mkChange 0 5 10) (changes U8 0 mid) /\ meets (ev_compare Equal 5) (mkChange 0 5 10) /\
    ~ In (ODeadline 0) mid /\
    returned (w_run (w_new U8 0 0) (OEvaluate (ev_compare Equal 5) :: mid)) 0 = Some Fail.
Proof.
  exists [OSet 5 10; OSet 6 11; OResume 0]. split; [left; reflexivity|]. split; [reflexivity|]. split.
  - cbn. intuition discriminate.
  - reflexivity.
Qed.
Print Assumptions C67_missed_refuted.

(** The claim "when it succeeds, the primitive had such a value": holds when only
    values the primitive can hold are assigned. *)
Theorem C67_success_partial k v ts pre o lhs mid :
  let n := List.length (w_obs (w_run (w_new k v ts) pre)) in
  returned (w_run (w_new k v ts) (pre ++ OEvaluate (ev_compare o lhs) :: mid)) n = Some Success ->
  Forall (fits k) mid ->
  exists a b, mid = a ++ b /\
    op_map o lhs (w_raw (w_run (w_new k v ts) (pre ++ OEvaluate (ev_compare o lhs) :: a))) = true.
Proof.
  intros n H F.
  assert (Rw : forall a, w_raw (w_run (w_new k v ts) (pre ++ OEvaluate (ev_compare o lhs) :: a)) = stored k (stored k (k_store k v) pre) a).
  { intros a. destruct (run_prim (pre ++ OEvaluate (ev_compare o lhs) :: a) (w_new k v ts)) as (_ & B & _). rewrite B. cbn. rewrite stored_app. reflexivity. }
  destruct (C67_result _ _ _ _ _ _ _ H) as [[E _]|(E & m1 & m2 & M & _ & _ & V)].
  - exists [], mid. split; [reflexivity|]. rewrite Rw. cbn. unfold ev_compare in E. destruct (op_map _ _ _); [reflexivity|discriminate].
  - set (raw := stored k (k_store k v) pre) in *. fold n in M.
    assert (X : forall m r, Forall (fits k) m -> forall c, In c (changes k r m) -> exists a b, m = a ++ b /\ stored k r a = ch_new c).
    { clear. induction m as [|o m IH]; intros r F c H; [destruct H|]. inversion_clear F.
      assert (K : forall r', stored k r [o] = r' -> In c (changes k r' m) -> exists a b, o :: m = a ++ b /\ stored k r a = ch_new c).
      { intros r' E I. destruct (IH r' H1 c I) as (a & b & P & Q). exists (o :: a), b. split; [cbn; congruence|].
        rewrite <- Q, <- E. change (o :: a) with ([o] ++ a). apply stored_app. }
      destruct o; cbn [changes] in H; try (eapply K; [reflexivity|exact H]).
      apply in_app_iff in H as [H|H]; [|eapply K; [reflexivity|exact H]].
      destruct (r =? v); [destruct H|]. destruct H as [<-|[]]. exists [OSet v ts], m. split; [reflexivity|]. exact H0. }
    symmetry in V. unfold verdict in V. destruct (rev (changes k raw m1)) as [|c l] eqn:R; [discriminate|].
    assert (I : In c (changes k raw m1)) by (apply in_rev; rewrite R; left; reflexivity).
    assert (F1 : Forall (fits k) m1) by (rewrite M in F; apply Forall_app in F; tauto).
    destruct (X m1 raw F1 c I) as (a & b & P & Q). exists a, (b ++ OResume n :: m2).
    split; [rewrite M, P, <- app_assoc; reflexivity|]. rewrite Rw. fold raw. rewrite Q.
    unfold ev_compare in V. destruct (op_map _ _ _); [reflexivity|discriminate].
Qed.
Print Assumptions C67_success_partial.

(** Refuted in general: waiting for 300 on a uint8 succeeds when 300 is assigned,
    though the value is 44 (callbacks get the assigned value, see C09). *)
Theorem C67_wrapped_refuted :
  exists mid,
    returned (w_run (w_new U8 0 0) (OEvaluate (ev_compare Equal 300) :: mid)) 0 = Some Success /\
    forall a, op_map Equal 300 (w_raw (w_run (w_new U8 0 0) (OEvaluate (ev_compare Equal 300) :: a))) = false.
Proof.
  exists [OSet 300 10; OResume 0]. split; [reflexivity|]. intros a.
  destruct (run_prim (OEvaluate (ev_compare Equal 300) :: a) (w_new U8 0 0)) as (_ & B & _). rewrite B. cbn [stored w_new w_kind w_raw].
  assert (X : forall m r, 0 <= r < 256 -> 0 <= stored U8 r m < 256).
  { induction m as [|o m IH]; intros r H; [exact H|]. destruct o; cbn; auto. apply IH. apply Z.mod_pos_bound. lia. }
  specialize (X a (k_store U8 0)). cbn [op_map]. assert (0 <= k_store U8 0 < 256) by (cbn; lia). specialize (X H). lia.
Qed.
Print Assumptions C67_wrapped_refuted.

(** Waits and samplers leave no callback behind: there is one for each that still
    observes, and one for every callback registered by others. *)
Theorem C67_callbacks k v ts ops :
  let w := w_run (w_new k v ts) ops in
  NoDup (callbacks w) /\
  List.length (callbacks w) = (List.length (filter observing (w_obs w)) + List.length (filter is_other ops))%nat.
Proof.
  intros w. split; [apply (wi_nd _ (WI_run ops _ (WI_new k v ts)))|]. unfold callbacks. rewrite map_length.
  exact (run_balanced ops (w_new k v ts) 0 (WI_new k v ts) eq_refl).
Qed.
Print Assumptions C67_callbacks.

(** Two waits and a sampler on one primitive: the first is satisfied at once, the
    second by the second change, and nothing stays registered. *)
Example ex_waits :
  let w := w_run (w_new U8 7 0)
    [OOther; OEvaluate (ev_compare Equal 7); OEvaluate (ev_compare LessThan 20); OSample 2 false; ONext 2;
     OSet 9 1; OSet 30 2; OResume 2; OResume 1; OSet 4 3; ONext 2; ONext 2] in
  returned w 0 = Some Success /\ returned w 1 = Some Success /\ delivered w 2 = [(9, 1); (30, 2)] /\ exhausted w 2 = true /\
  callbacks w = [0].
Proof. repeat split. Qed.
Example ex_timeout :
  returned (w_run (w_new U8 7 0) [OEvaluate (ev_compare Equal 8); OSet 7 1; ODeadline 0; OResume 0]) 0 = Some Timeout /\
  returned (w_run (w_new U8 7 0) [OEvaluate (ev_compare Equal 8); OSet 9 1; ODeadline 0; OResume 0]) 0 = Some Fail.
Proof. split; reflexivity. Qed.

(** * C68: sampling *)

(** The sampler was created after [pre] and first asked after [idle]; the consumer
    has got [delivered], and [pending] is still to come: together they are the
    present value (if asked for) and the changes since, in order, each once, up to
    [count].  It is exhausted only when [count] is reached or the deadline passed,
    and then nothing is pending. *)
Theorem C68_exact k v ts pre count current idle mid :
  let n := List.length (w_obs (w_run (w_new k v ts) pre)) in
  let before := pre ++ OSample count current :: idle in
  let raw := stored k (k_store k v) before in
  let first := if current then [(raw, stamped ts before)] else [] in
  let w := w_run (w_new k v ts) (before ++ ONext n :: mid) in
  let all m := limit count (first ++ map (fun c => (ch_new c, ch_ts c)) (changes k raw m)) in
  ~ In (ONext n) idle ->
  exists m1 m2 pending, mid = m1 ++ m2 /\ delivered w n ++ pending = all m1 /\
    (m2 = [] \/ (0 < count /\ zlen (all m1) = count) \/ In (ODeadline n) m1) /\
    (exhausted w n = true -> pending = [] /\ ((0 < count /\ zlen (all m1) = count) \/ In (ODeadline n) m1)) /\
    (interrupted w n = true -> In (ODeadline n) mid).
Proof.
  intros n before raw first w all NI. set (w0 := w_run (w_new k v ts) pre) in *.
  assert (W0 : WI w0) by apply WI_run, WI_new.
  set (s00 := mkSampler count current SNew 0 [] true 0 false []).
  assert (H1 : nth_error (w_obs (w_step w0 (OSample count current))) n = Some (BSampler s00)).
  { cbn [w_step add_obs w_obs]. unfold n. rewrite nth_error_app2, Nat.sub_diag by lia. reflexivity. }
  pose proof (new_stays _ n count current idle (WI_step _ _ W0) H1 NI) as H2. fold s00 in H2.
  set (w2 := w_run (w_step w0 (OSample count current)) idle) in *.
  assert (E2 : w_run (w_new k v ts) before = w2).
  { unfold before. rewrite run_app. reflexivity. }
  assert (W2 : WI w2) by (apply WI_run, WI_step, W0).
  destruct (run_prim before (w_new k v ts)) as (Kd & Rw & Ts). rewrite E2 in Kd, Rw, Ts. cbn in Kd, Rw, Ts. fold raw in Rw.
  destruct (next_start w2 n count current W2 H2) as (s1 & H3 & S3).
  pose proof (WI_step _ (ONext n) W2) as W3.
  destruct (step_prim w2 (ONext n)) as (Kd3 & Rw3 & _). cbn [stored] in Rw3.
  destruct (sample_track _ n count (head_of current (w_raw w2) (w_ts w2)) s1 mid W3 H3 (S3 _ eq_refl)) as (s & H & S).
  assert (Ew : w = w_run (w_step w2 (ONext n)) mid).
  { unfold w. rewrite run_app, E2. reflexivity. }
  rewrite <- Ew in H. rewrite Kd3, Rw3, Kd, Rw, Ts in S. 
  assert (Full : forall m, full count (all m) = true -> 0 < count /\ zlen (all m) = count).
  { intros m F. unfold full in F. apply andb_prop in F as [F1 F2]. split; [lia|]. apply Z.le_antisymm; [|lia].
    unfold all, limit, zlen. rewrite F1. rewrite firstn_length. lia. }
  unfold delivered, exhausted, interrupted. rewrite H.
  destruct S as [[L P]|(m1 & m2 & A & B & C & D)].
  - exists mid, [], (s_queue s). split; [symmetry; apply app_nil_r|]. split; [apply (il_all _ _ _ L)|]. split; [auto|].
    split; destruct P as [[-> _]|[[-> _]|[-> Q]]]; try discriminate; auto.
  - exists m1, m2, (s_queue s). split; [exact A|]. split; [exact B|].
    assert (C' : (0 < count /\ zlen (all m1) = count) \/ In (ODeadline n) m1) by (destruct C as [C|C]; auto).
    split; [right; exact C'|]. split; destruct D as [[-> Q]| ->]; try discriminate; auto.
Qed.
Print Assumptions C68_exact.

(** The number of samples never exceeds a positive [count]. *)
Theorem C68_at_most k v ts pre count current idle mid :
  let n := List.length (w_obs (w_run (w_new k v ts) pre)) in
  ~ In (ONext n) idle -> 0 < count ->
  zlen (delivered (w_run (w_new k v ts) ((pre ++ OSample count current :: idle) ++ ONext n :: mid)) n) <= count.
Proof.
  intros n NI P. destruct (C68_exact k v ts pre count current idle mid NI) as (m1 & m2 & pending & _ & B & _).
  fold n in B. apply (f_equal (@zlen _)) in B. unfold zlen in *. rewrite app_length in B. unfold limit in B.
  replace (0 <? count) with true in B by lia. rewrite firstn_length in B. lia.
Qed.
Print Assumptions C68_at_most.

(** A consumer that waits for the next sample when the deadline passes gets what is
    pending and then the end. *)
Theorem C68_ends k v ts ops n s :
  let w := w_run (w_new k v ts) ops in
  nth_error (w_obs w) n = Some (BSampler s) -> s_pc s = SGet ->
  let w' := w_run w (ODeadline n :: OResume n :: repeat (ONext n) (List.length (s_queue s))) in
  exhausted w' n = true /\ delivered w' n = s_out s ++ s_queue s.
Proof.
  intros w H P w'. assert (W : WI w) by apply WI_run, WI_new.
  pose proof (step_obs w (ODeadline n) n _ W H) as S1. cbn [b_step] in S1. rewrite Nat.eqb_refl, P in S1.
  pose proof (WI_step _ (ODeadline n) W) as W1.
  pose proof (step_obs _ (OResume n) n _ W1 S1) as S2. cbn [b_step s_pc s_timed] in S2. rewrite Nat.eqb_refl in S2.
  pose proof (WI_step _ (OResume n) W1) as W2.
  unfold w'. change (w_run w (ODeadline n :: OResume n :: ?l)) with (w_run (w_step (w_step w (ODeadline n)) (OResume n)) l).
  unfold exhausted, delivered. unfold s_drain in S2. cbn [s_queue] in S2. destruct (s_queue s) as [|x q] eqn:Q.
  - cbn [List.length repeat w_run fold_left]. rewrite S2. cbn. rewrite app_nil_r. auto.
  - unfold s_take in S2. cbn [s_queue s_out s_count s_current s_id s_keep s_samples s_timed] in S2.
    destruct (drain_run n q _ _ W2 S2 eq_refl eq_refl) as (s' & A & B & C). cbn [List.length] in *. rewrite A, B, C. cbn. split; [reflexivity|].
    rewrite <- app_assoc. reflexivity.
Qed.
Print Assumptions C68_ends.

(** Refuted: "the deadline ends the sampling".  When the deadline passes while the
    consumer is suspended in the body of its loop, the consumer itself is cancelled
    there, in every state in which that can happen. *)
Theorem C68_interrupted_refuted :
  (forall k v ts ops n s,
     nth_error (w_obs (w_run (w_new k v ts) ops)) n = Some (BSampler s) -> s_pc s = SBody ->
     interrupted (w_run (w_new k v ts) (ops ++ [ODeadline n])) n = true /\
     forall more, exhausted (w_run (w_new k v ts) (ops ++ ODeadline n :: more)) n = false) /\
  exists s, nth_error (w_obs (w_run (w_new U8 3 0) [OSample 5 true; ONext 0])) 0 = Some (BSampler s) /\ s_pc s = SBody.
Proof.
  split.
  - intros k v ts ops n s H P. assert (W : WI (w_run (w_new k v ts) ops)) by apply WI_run, WI_new.
    pose proof (step_obs _ (ODeadline n) n _ W H) as S. cbn [b_step] in S. rewrite Nat.eqb_refl, P in S. split.
    + rewrite run_app. cbn [w_run fold_left]. unfold interrupted.
      change (fold_left w_step ops (w_new k v ts)) with (w_run (w_new k v ts) ops). rewrite S. reflexivity.
    + intros more. rewrite run_app. change (w_run ?w (ODeadline n :: more)) with (w_run (w_step w (ODeadline n)) more).
      pose proof (WI_step _ (ODeadline n) W) as W1. revert W1 S. generalize (w_step (w_run (w_new k v ts) ops) (ODeadline n)). clear.
      assert (X : forall w, WI w -> (exists s, nth_error (w_obs w) n = Some (BSampler s) /\ s_pc s = SStray) -> exhausted (w_run w more) n = false).
      { induction more as [|o more IH]; intros w W (s2 & H & P).
        - unfold exhausted. cbn. rewrite H, P. reflexivity.
        - apply (IH (w_step w o)); [apply WI_step, W|]. rewrite (step_obs w o n _ W H).
          destruct o as [v ts| |e|cnt cur|i|i|i]; cbn [b_step]; eauto.
          + unfold told. destruct (_ =? _); eauto. cbn [listening]. rewrite P. cbn [b_notify]. destruct (s_keep s2); eauto.
          + destruct (Nat.eqb i n); [rewrite P|]; eauto.
          + destruct (Nat.eqb i n); [rewrite P|]; eauto.
          + destruct (Nat.eqb i n); [rewrite P|]; eauto. }
      intros w W H. apply X; [exact W|]. eexists. split; [exact H|reflexivity].
  - eexists. split; [reflexivity|reflexivity].
Qed.
Print Assumptions C68_interrupted_refuted.

(** A sampler that times out with a change pending, and one with a count. *)
Example ex_samples :
  let w := w_run (w_new U8 1 100) [OSample (-1) true; OSet 2 101; ONext 0; OSet 3 102; OSet 3 103; OSet 4 104; ONext 0; ONext 0; ONext 0;
     OSet 5 105; ODeadline 0; OSet 6 106; OResume 0; OSet 7 107; ONext 0; ONext 0] in
  delivered w 0 = [(2, 101); (3, 102); (4, 104); (5, 105); (6, 106)] /\ exhausted w 0 = true /\ callbacks w = [].
Proof. repeat split. Qed.
Example ex_pending : exists s,
  nth_error (w_obs (w_run (w_new U8 1 100) [OSample (-1) true; ONext 0; ONext 0; OSet 5 105; OSet 6 106])) 0 = Some (BSampler s) /\
  s_pc s = SGet /\ s_queue s = [(5, 105); (6, 106)].
Proof. eexists. split; [reflexivity|]. split; reflexivity. Qed.

(** * C69: waiting for a scaled value *)

(** [wait_for_value] compares raw values.  That is the same as comparing scaled
    values when the scale is positive and the given value is one the channel can
    show. *)
Theorem C69_scaled_partial offset scale value o r old new :
  (0 < scale)%Q -> (value == offset + scale * inject_Z r)%Q ->
  exists ev, ev_value [offset; scale] value o = Some ev /\
    (ev old new = Success <-> q_compare o value (p_get_scaled new [offset; scale])) /\
    (ev old new = Success \/ ev old new = Fail).
Proof.
  intros S V. unfold ev_value, s_invert.
  assert (N : ~ (scale == 0)%Q) by (intros E; rewrite E in S; exact (Qlt_irrefl _ S)).
  destruct (Qeq_bool scale 0) eqn:Z; [apply Qeq_bool_eq in Z; contradiction|].
  assert (R : py_round ((value - offset) / scale) = r).
  { assert (E : ((value - offset) / scale == inject_Z r)%Q) by (rewrite V; field; exact N).
    unfold py_round. assert (F : Qfloor ((value - offset) / scale) = r) by (rewrite E; apply Qfloor_Z). rewrite F.
    assert (D : ((value - offset) / scale - inject_Z r == 0)%Q) by (rewrite E; ring). rewrite D. reflexivity. }
  rewrite R. eexists. split; [reflexivity|].
  assert (A : (p_get_scaled new [offset; scale] == offset + scale * inject_Z new)%Q).
  { unfold p_get_scaled, s_apply, s_loop. ring. }
  unfold ev_compare. split; [|destruct (op_map o r new); auto].
  assert (Lt : forall a b, (offset + scale * inject_Z a < offset + scale * inject_Z b)%Q <-> a < b).
  { intros a b. rewrite Qplus_lt_r, Qmult_lt_l by exact S. rewrite Zlt_Qlt. reflexivity. }
  assert (Le : forall a b, (offset + scale * inject_Z a <= offset + scale * inject_Z b)%Q <-> a <= b).
  { intros a b. rewrite Qplus_le_r, Qmult_le_l by exact S. rewrite Zle_Qle. reflexivity. }
  assert (Eq : forall a b, (offset + scale * inject_Z a == offset + scale * inject_Z b)%Q <-> a = b).
  { intros a b. split; [|intros ->; reflexivity]. intros H. apply Z.le_antisymm; apply Le; rewrite H; apply Qle_refl. }
  transitivity (op_map o r new = true); [destruct (op_map o r new); split; congruence|].
  destruct o; cbn [q_compare op_map]; rewrite A, V.
  - rewrite Lt. lia.
  - rewrite Le. lia.
  - rewrite Eq. lia.
  - rewrite Eq. lia.
  - rewrite Le. lia.
  - rewrite Lt. lia.
Qed.
Print Assumptions C69_scaled_partial.

(** Refuted for negative scales: every inequality is turned round. *)
Theorem C69_negative_refuted offset scale r new :
  (scale < 0)%Q -> r <> new ->
  exists ev, ev_value [offset; scale] (offset + scale * inject_Z r) LessThan = Some ev /\
    (ev 0 new = Success <-> ~ q_compare LessThan (offset + scale * inject_Z r) (p_get_scaled new [offset; scale])).
Proof.
  intros S Ne. unfold ev_value, s_invert.
  assert (N : ~ (scale == 0)%Q) by (intros E; rewrite E in S; exact (Qlt_irrefl _ S)).
  destruct (Qeq_bool scale 0) eqn:Z; [apply Qeq_bool_eq in Z; contradiction|].
  assert (R : py_round ((offset + scale * inject_Z r - offset) / scale) = r).
  { assert (E : ((offset + scale * inject_Z r - offset) / scale == inject_Z r)%Q) by (field; exact N).
    unfold py_round. assert (F : Qfloor ((offset + scale * inject_Z r - offset) / scale) = r) by (rewrite E; apply Qfloor_Z). rewrite F.
    assert (D : ((offset + scale * inject_Z r - offset) / scale - inject_Z r == 0)%Q) by (rewrite E; ring). rewrite D. reflexivity. }
  rewrite R. eexists. split; [reflexivity|].
  assert (A : (p_get_scaled new [offset; scale] == offset + scale * inject_Z new)%Q).
  { unfold p_get_scaled, s_apply, s_loop. ring. }
  cbn [q_compare]. rewrite A. unfold ev_compare, op_map.
  assert (Lt : (offset + scale * inject_Z r < offset + scale * inject_Z new)%Q <-> new < r).
  { rewrite Qplus_lt_r, Zlt_Qlt. assert (P : (0 < - scale)%Q) by (apply (Qopp_lt_compat scale 0), S).
    rewrite <- (Qmult_lt_l (inject_Z new) (inject_Z r) (- scale)) by exact P.
    setoid_replace (- scale * inject_Z new)%Q with (- (scale * inject_Z new))%Q by ring.
    setoid_replace (- scale * inject_Z r)%Q with (- (scale * inject_Z r))%Q by ring. split; intros H.
    - apply Qopp_lt_compat, H.
    - apply Qopp_lt_compat in H. rewrite !Qopp_involutive in H. exact H. }
  rewrite Lt. destruct (Z.ltb_spec r new); split; try congruence; try lia; intros; exfalso; lia.
Qed.
Print Assumptions C69_negative_refuted.

(** Refuted for values between two steps: they are rounded first, so waiting for
    exactly 2.5 succeeds at 2. *)
Theorem C69_rounded_refuted : exists ev, ev_value [] (5 # 2) Equal = Some ev /\ ev 0 2 = Success.
Proof. eexists. split; reflexivity. Qed.
Print Assumptions C69_rounded_refuted.

Example ex_scaled : exists ev, ev_value [1 # 2; 1 # 4] (3 # 2) LessThan = Some ev /\ ev 0 5 = Success /\ ev 0 4 = Fail.
Proof. eexists. split; [reflexivity|]. split; reflexivity. Qed.
