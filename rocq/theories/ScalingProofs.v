(** Lemmas for C11. *)
From Coq Require Import QArith Qround Qabs Lqa.
From Verif Require Import Base PrimModel PrimSpec PrimProofs ScalingModel ScalingSpec.

Lemma py_round_close q : (Qabs (q - inject_Z (py_round q)) <= 1 # 2)%Q.
Proof.
  unfold py_round. pose proof (Qfloor_le q) as H1. pose proof (Qlt_floor q) as H2.
  rewrite inject_Z_plus in H2. apply Qabs_Qle_condition.
  change (inject_Z 1) with 1%Q in H2.
  destruct (Qcompare_spec (q - inject_Z (Qfloor q)) (1 # 2)) as [E|E|E].
  - destruct (Z.even (Qfloor q)); [split; lra|].
    rewrite inject_Z_plus. change (inject_Z 1) with 1%Q. split; lra.
  - split; lra.
  - rewrite inject_Z_plus. change (inject_Z 1) with 1%Q. split; lra.
Qed.

Lemma py_round_integer q z : (q == inject_Z z)%Q -> py_round q = z.
Proof.
  intros H. pose proof (py_round_close q) as C. apply Qabs_Qle_condition in C.
  destruct C as [C1 C2]. set (r := py_round q) in *. clearbody r.
  assert (A : (inject_Z r < inject_Z (z + 1))%Q)
    by (rewrite inject_Z_plus; change (inject_Z 1) with 1%Q; lra).
  assert (B : (inject_Z z < inject_Z (r + 1))%Q)
    by (rewrite inject_Z_plus; change (inject_Z 1) with 1%Q; lra).
  rewrite <- Zlt_Qlt in A, B. lia.
Qed.

Lemma clamp_nearest lo hi q :
  lo <= hi ->
  nearest (fun w => lo <= w <= hi) q (b_clamp (lo, hi) (py_round q)).
Proof.
  intros Hlh. unfold nearest, b_clamp; cbn [fst snd]. split; [lia|].
  intros w Hw. pose proof (py_round_close q) as C. apply Qabs_Qle_condition in C.
  set (r := py_round q) in *. clearbody r. destruct C as [C1 C2].
  assert (Hlow : (inject_Z lo <= inject_Z w)%Q) by (rewrite <- Zle_Qle; lia).
  assert (Hhigh : (inject_Z w <= inject_Z hi)%Q) by (rewrite <- Zle_Qle; lia).
  destruct (Z_lt_le_dec hi r) as [G|G].
  { replace (Z.max lo (Z.min r hi)) with hi by lia.
    assert (R : (inject_Z (hi + 1) <= inject_Z r)%Q) by (rewrite <- Zle_Qle; lia).
    rewrite inject_Z_plus in R. change (inject_Z 1) with 1%Q in R.
    rewrite !Qabs_pos by lra. lra. }
  destruct (Z_lt_le_dec r lo) as [G2|G2].
  { replace (Z.max lo (Z.min r hi)) with lo by lia.
    assert (R : (inject_Z (r + 1) <= inject_Z lo)%Q) by (rewrite <- Zle_Qle; lia).
    rewrite inject_Z_plus in R. change (inject_Z 1) with 1%Q in R.
    rewrite !Qabs_neg by lra. lra. }
  replace (Z.max lo (Z.min r hi)) with r by lia.
  destruct (Z.lt_trichotomy w r) as [L|[->|L]].
  - assert (R : (inject_Z (w + 1) <= inject_Z r)%Q) by (rewrite <- Zle_Qle; lia).
    rewrite inject_Z_plus in R. change (inject_Z 1) with 1%Q in R.
    rewrite (Qabs_pos (q - inject_Z w)) by lra. apply Qabs_Qle_condition. split; lra.
  - apply Qle_refl.
  - assert (R : (inject_Z (r + 1) <= inject_Z w)%Q) by (rewrite <- Zle_Qle; lia).
    rewrite inject_Z_plus in R. change (inject_Z 1) with 1%Q in R.
    rewrite (Qabs_neg (q - inject_Z w)) by lra. apply Qabs_Qle_condition. split; lra.
Qed.

Lemma bounds_table k bits s :
  int_kind k bits s ->
  exists lo hi, k_bounds k = Some (lo, hi) /\ lo <= hi /\
    forall v, representable bits s v <-> lo <= v <= hi.
Proof.
  intros H; inversion H; subst; unfold k_bounds, bounds_create, representable; cbn -[Z.pow];
    eexists _, _; (split; [reflexivity|]); (split; [cbn; lia|]); intros v; cbn; lia.
Qed.

Lemma invert_linear value o s q :
  s_invert value [o; s] = Some q -> ~ (s == 0)%Q /\ (q == (value - o) / s)%Q.
Proof.
  unfold s_invert. destruct (Qeq_bool s 0) eqn:E; [discriminate|].
  intros H; injection H as <-. split; [apply Qeq_bool_neq; exact E|reflexivity].
Qed.

Lemma nearest_compat ok q q' v : (q == q')%Q -> nearest ok q v -> nearest ok q' v.
Proof.
  intros He [A B]. split; [exact A|]. intros w Hw. rewrite <- He. apply B; exact Hw.
Qed.

Lemma set_scaled_nearest k bits sg scaling value q :
  int_kind k bits sg -> s_invert value scaling = Some q ->
  exists v, p_set_scaled k scaling value = Some v /\ nearest (representable bits sg) q v.
Proof.
  intros Hk Hq. destruct (bounds_table k bits sg Hk) as (lo & hi & Hb & Hle & Hr).
  unfold p_set_scaled, p_invert_int. rewrite Hq, Hb.
  pose proof (clamp_nearest lo hi q Hle) as [A B].
  assert (HR : representable bits sg (b_clamp (lo, hi) (py_round q))) by (apply Hr; exact A).
  eexists. split; [reflexivity|].
  rewrite (store_id k) by (apply (int_kind_value k bits sg Hk) || (apply (int_kind_value k bits sg); assumption)).
  split; [exact HR|]. intros w Hw. apply B, Hr, Hw.
Qed.

Lemma s_loop_poly cs : forall x r p, (s_loop cs x r p == r + p * poly cs x)%Q.
Proof.
  induction cs as [|c cs IH]; cbn; intros x r p; [ring|].
  rewrite IH. ring.
Qed.

Lemma apply_poly x cs : cs <> [] -> (s_apply x cs == poly cs x)%Q.
Proof.
  intros H. unfold s_apply. destruct cs as [|c cs]; [congruence|].
  rewrite s_loop_poly. ring.
Qed.

Lemma apply_invert value scaling q :
  List.length scaling <> 1%nat ->
  s_invert value scaling = Some q -> (s_apply q scaling == value)%Q.
Proof.
  destruct scaling as [|o [|s [|? ?]]]; intros Hl H.
  - injection H as <-. reflexivity.
  - exfalso; apply Hl; reflexivity.
  - apply invert_linear in H as [Hs Hq]. unfold s_apply, s_loop. rewrite Hq. field. exact Hs.
  - discriminate.
Qed.

Lemma invert_apply x scaling q :
  List.length scaling <> 1%nat ->
  s_invert (s_apply x scaling) scaling = Some q -> (q == x)%Q.
Proof.
  destruct scaling as [|o [|s [|? ?]]]; intros Hl H.
  - injection H as <-. reflexivity.
  - exfalso; apply Hl; reflexivity.
  - apply invert_linear in H as [Hs Hq]. rewrite Hq. unfold s_apply, s_loop. field. exact Hs.
  - discriminate.
Qed.

Lemma invert_raises value scaling :
  s_invert value scaling = None <->
  (2 < List.length scaling)%nat \/ (exists o s, scaling = [o; s] /\ (s == 0)%Q).
Proof.
  destruct scaling as [|o [|s [|? ?]]]; cbn.
  - split; [discriminate|]. intros [H|(?&?&H&_)]; [lia|discriminate].
  - split; [discriminate|]. intros [H|(?&?&H&_)]; [lia|discriminate].
  - destruct (Qeq_bool s 0) eqn:E.
    + split; [|reflexivity]. intros _. right. exists o, s. split; [reflexivity|].
      apply Qeq_bool_eq; exact E.
    + apply Qeq_bool_neq in E. split; [discriminate|].
      intros [H|(?&?&H&H')]; [lia|]. injection H as <- <-. contradiction.
  - split; [|reflexivity]. intros _. left. lia.
Qed.

Lemma scaled_roundtrip k bits sg scaling w :
  int_kind k bits sg -> representable bits sg w ->
  List.length scaling <> 1%nat ->
  s_invert (p_get_scaled w scaling) scaling <> None ->
  p_set_scaled k scaling (p_get_scaled w scaling) = Some w.
Proof.
  intros Hk Hw Hl Hn. destruct (bounds_table k bits sg Hk) as (lo & hi & Hb & Hle & Hr).
  unfold p_set_scaled, p_invert_int.
  destruct (s_invert (p_get_scaled w scaling) scaling) as [q|] eqn:E; [|congruence].
  apply invert_apply in E; [|exact Hl]. rewrite (py_round_integer q w E), Hb.
  assert (b_clamp (lo, hi) w = w) as -> by (apply Hr in Hw; unfold b_clamp; cbn; lia).
  rewrite store_id; [reflexivity|]. apply (int_kind_value k bits sg); assumption.
Qed.

(** Setting a scaled value and reading it back is off by at most half a step
    when the request is within the representable span. *)
Lemma scaled_error k bits sg o s value v :
  int_kind k bits sg -> ~ (s == 0)%Q ->
  (exists lo hi, representable bits sg lo /\ representable bits sg hi /\
     (inject_Z lo <= (value - o) / s <= inject_Z hi)%Q) ->
  p_set_scaled k [o; s] value = Some v ->
  (Qabs (p_get_scaled v [o; s] - value) <= Qabs s * (1 # 2))%Q.
Proof.
  intros Hk Hs (lo & hi & Hlo & Hhi & H1 & H2) Hset.
  assert (Hinv : exists q, s_invert value [o; s] = Some q).
  { cbn. destruct (Qeq_bool s 0) eqn:E; [apply Qeq_bool_eq in E; contradiction|eauto]. }
  destruct Hinv as [q Hq]. destruct (invert_linear _ _ _ _ Hq) as [_ Hqe].
  destruct (bounds_table k bits sg Hk) as (L & U & Hb & HLU & Hr).
  assert (Hqv : (Qabs (inject_Z v - q) <= 1 # 2)%Q).
  { unfold p_set_scaled, p_invert_int in Hset. rewrite Hq, Hb in Hset.
    assert (Hc : b_clamp (L, U) (py_round q) = py_round q).
    { pose proof (py_round_close q) as C. apply Qabs_Qle_condition in C.
      rewrite <- Hqe in H1, H2.
      assert (A : (inject_Z lo < inject_Z (py_round q + 1))%Q)
        by (rewrite inject_Z_plus; change (inject_Z 1) with 1%Q; lra).
      assert (B : (inject_Z (py_round q) < inject_Z (hi + 1))%Q)
        by (rewrite inject_Z_plus; change (inject_Z 1) with 1%Q; lra).
      rewrite <- Zlt_Qlt in A, B. apply Hr in Hlo. apply Hr in Hhi.
      unfold b_clamp; cbn. lia. }
    rewrite Hc in Hset. rewrite store_id in Hset.
    - injection Hset as <-. rewrite Qabs_Qminus. apply py_round_close.
    - apply (int_kind_value k bits sg); [exact Hk|]. apply Hr. rewrite <- Hc.
      unfold b_clamp; cbn. lia. }
  assert (E : (p_get_scaled v [o; s] - value == s * (inject_Z v - q))%Q).
  { unfold p_get_scaled, s_apply, s_loop. rewrite Hqe. field. exact Hs. }
  rewrite E, Qabs_Qmult. rewrite !(Qmult_comm (Qabs s)).
  apply Qmult_le_compat_r; [exact Hqv|apply Qabs_nonneg].
Qed.
