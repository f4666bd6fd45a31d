(** Property C40: the reconnect back-off. *)
From Coq Require Import QArith Qminmax.
From Verif Require Import Base BaseLemmas BackoffModel BackoffSpec.
From Coq Require Import ZifyBool ZifyNat Lia.
Open Scope list_scope.
Open Scope Z_scope.

Lemma py_min_le a b : (py_min a b <= b)%Q.
Proof. unfold py_min. destruct (Qle_bool a b) eqn:E; [apply Qle_bool_iff; exact E|apply Qle_refl]. Qed.
Lemma py_min_le_l a b : (py_min a b <= a)%Q.
Proof.
  unfold py_min. destruct (Qle_bool a b) eqn:E; [apply Qle_refl|].
  apply Qlt_le_weak, Qnot_le_lt. intros H. apply Qle_bool_iff in H. congruence.
Qed.

(** Exclusive or with two moves a number by exactly two. *)
Lemma lxor2 n : 0 <= n -> Z.lxor 2 n = n + 2 \/ Z.lxor 2 n = n - 2.
Proof.
  intros H. destruct (Z.testbit n 1) eqn:E.
  - right. assert (L : Z.land n 2 = 2).
    { apply Z.bits_inj'. intros i Hi. rewrite Z.land_spec. change 2 with (2 ^ 1). rewrite Z.pow2_bits_eqb by lia.
      destruct (1 =? i) eqn:Ei; [assert (i = 1) by lia; subst; rewrite E; reflexivity|apply andb_false_r]. }
    assert (X : Z.lxor n 2 + 2 = n).
    { rewrite <- L at 2. rewrite Z.lxor_comm. 
      replace (Z.lxor 2 n) with (Z.ldiff n 2).
      - rewrite Z.add_nocarry_lxor.
        + apply Z.bits_inj'. intros i Hi. rewrite Z.lxor_spec, Z.ldiff_spec, Z.land_spec. destruct (Z.testbit n i), (Z.testbit 2 i); reflexivity.
        + apply Z.bits_inj'. intros i Hi. rewrite !Z.land_spec, Z.ldiff_spec, Z.bits_0. destruct (Z.testbit n i), (Z.testbit 2 i); reflexivity.
      - apply Z.bits_inj'. intros i Hi. rewrite Z.ldiff_spec, Z.lxor_spec. change 2 with (2 ^ 1). rewrite Z.pow2_bits_eqb by lia.
        destruct (1 =? i) eqn:Ei; [assert (i = 1) by lia; subst; rewrite E; reflexivity|destruct (Z.testbit n i); reflexivity]. }
    rewrite Z.lxor_comm in X. rewrite Z.lxor_comm. rewrite Z.lxor_comm in X. lia.
  - left. rewrite Z.lxor_comm. rewrite <- Z.add_nocarry_lxor; [reflexivity|].
    apply Z.bits_inj'. intros i Hi. rewrite Z.land_spec, Z.bits_0. change 2 with (2 ^ 1). rewrite Z.pow2_bits_eqb by lia.
    destruct (1 =? i) eqn:Ei; [assert (i = 1) by lia; subst; rewrite E; reflexivity|apply andb_false_r].
Qed.

Lemma waits_exact : forall n b k w, nth_error (waits b n) k = Some w ->
  w = match k with
      | O => bo_wait b
      | S k => py_min (inject_Z (Z.lxor 2 (bo_attempt b + Z.of_nat k)) * bo_interval b) (bo_max_sleep b)
      end.
Proof.
  induction n as [|n IH]; intros b k w H; [destruct k; discriminate|]. cbn [waits] in H.
  destruct k as [|k]; [injection H as <-; reflexivity|]. cbn [nth_error] in H. apply IH in H. subst w.
  destruct k as [|k]; cbn [bo_sleep snd bo_wait bo_attempt bo_interval bo_max_sleep]; [f_equal; f_equal; f_equal; f_equal; lia|].
  f_equal. f_equal. f_equal. f_equal. lia.
Qed.

(** C40.  No sleep is longer than the cap. *)
Theorem C40_never_exceeds_cap : forall interval cap tries n w,
  (0 <= cap)%Q -> In w (waits (bo_new interval cap tries) n) -> (w <= cap)%Q.
Proof.
  intros i c t n w Hc H. apply In_nth_error in H as [k H]. apply waits_exact in H. subst w.
  destruct k; [exact Hc|apply py_min_le].
Qed.
Print Assumptions C40_never_exceeds_cap.

(** C40.  The wait before attempt k+1 (k = 0, 1, ...) is the cap, or within two
    intervals of k intervals: the growth is linear.  The claimed growth is
    exponential. *)
Theorem C40_waits_partial : forall interval cap tries n k w,
  (0 <= interval)%Q -> nth_error (waits (bo_new interval cap tries) n) (S k) = Some w ->
  exists m, (m = Z.of_nat k + 2 \/ m = Z.of_nat k - 2) /\ 0 <= m /\
    ((w == inject_Z m * interval)%Q /\ (w <= cap)%Q \/ w = cap /\ (cap < inject_Z m * interval)%Q).
Proof.
  intros i c t n k w Hi H. apply waits_exact in H. cbn [bo_new bo_reset bo_attempt bo_interval bo_max_sleep] in H.
  rewrite Z.add_0_l in H. exists (Z.lxor 2 (Z.of_nat k)). split; [apply lxor2; lia|]. split; [apply Z.lxor_nonneg; lia|].
  subst w. unfold py_min. destruct (Qle_bool _ c) eqn:E.
  - left. split; [reflexivity|]. apply Qle_bool_iff. exact E.
  - right. split; [reflexivity|]. apply Qnot_le_lt. intros X. apply Qle_bool_iff in X. congruence.
Qed.
Print Assumptions C40_waits_partial.

(** C40 as claimed is false: with the default parameters the waits go down, the
    fourth attempt follows the third at once, and the growth is not by
    doubling. *)
Theorem C40_exponential_refuted :
  map Qred (waits bo_default 10) = map Qred [0; 2#10; 3#10; 0; 1#10; 6#10; 7#10; 4#10; 5#10; 1]%Q /\
  ~ never_decreases (waits bo_default 20) /\ ~ doubles_up_to 10 (waits bo_default 20).
Proof.
  split; [vm_compute; reflexivity|]. split.
  - intros H. specialize (H 2%nat _ _ eq_refl eq_refl). vm_compute in H. apply H. reflexivity.
  - intros H. destruct (H 1%nat _ _ ltac:(lia) eq_refl eq_refl) as [X|X]; vm_compute in X; discriminate.
Qed.
Print Assumptions C40_exponential_refuted.

(** C40.  Connecting makes an attempt after each sleep, stops at the first
    success, and otherwise gives up after exactly [max_tries] attempts. *)
Lemma connect_spec : forall tries b, bo_attempt b <= bo_max_tries b ->
  let '(ts, o, b') := bo_connect b tries in
  let left := Z.to_nat (bo_max_tries b - bo_attempt b) in
  (List.length ts <= left)%nat /\ ts = waits b (List.length ts) /\
  bo_max_tries b' = bo_max_tries b /\ bo_attempt b' = bo_attempt b + Z.of_nat (List.length ts) /\
  match o with
  | Connected => exists k, List.length ts = S k /\ nth_error tries k = Some true /\ Forall (eq false) (firstn k tries)
  | GaveUp => List.length ts = left /\ Forall (eq false) (firstn left tries) /\ (left <= List.length tries)%nat
  | Pending => List.length ts = List.length tries /\ Forall (eq false) tries /\ (List.length tries < left)%nat
  end.
Proof.
  induction tries as [|ok tries IH]; intros b H; cbn [bo_connect]; unfold bo_give_up.
  - destruct (bo_attempt b >=? bo_max_tries b) eqn:E; cbn [List.length waits firstn].
    + replace (Z.to_nat (bo_max_tries b - bo_attempt b)) with 0%nat by lia. repeat split; try lia. constructor.
    + repeat split; try lia. constructor.
  - destruct (bo_attempt b >=? bo_max_tries b) eqn:E; cbn [List.length waits].
    + replace (Z.to_nat (bo_max_tries b - bo_attempt b)) with 0%nat by lia. cbn [firstn]. repeat split; try lia. constructor.
    + destruct (bo_sleep b) as [t b1] eqn:Es. pose proof (f_equal fst Es) as E1. pose proof (f_equal snd Es) as E2. cbn [fst snd] in E1, E2.
      assert (A1 : bo_attempt b1 = bo_attempt b + 1) by (rewrite <- E2; reflexivity).
      assert (A2 : bo_max_tries b1 = bo_max_tries b) by (rewrite <- E2; reflexivity).
      destruct ok.
      * cbn [List.length waits]. rewrite Es. cbn [fst snd]. rewrite A1, A2. repeat split; try lia.
        exists 0%nat. repeat split. constructor.
      * specialize (IH b1 ltac:(lia)). destruct (bo_connect b1 tries) as [[ts o] b2]. cbn zeta in *.
        destruct IH as (L & W & M & A & O).
        cbn [List.length waits]. rewrite Es. cbn [fst snd]. rewrite A1, A2 in *.
        replace (Z.to_nat (bo_max_tries b - bo_attempt b)) with (S (Z.to_nat (bo_max_tries b - (bo_attempt b + 1)))) by lia.
        split; [lia|]. split; [f_equal; exact W|]. split; [exact M|]. split; [lia|].
        destruct o.
        -- destruct O as (k & K1 & K2 & K3). exists (S k). split; [lia|]. split; [exact K2|]. cbn [firstn]. constructor; [reflexivity|exact K3].
        -- destruct O as (K1 & K2 & K3). cbn [firstn]. split; [lia|]. split; [constructor; [reflexivity|exact K2]|lia].
        -- destruct O as (K1 & K2 & K3). split; [lia|]. split; [constructor; [reflexivity|exact K2]|lia].
Qed.

(** C40.  An attempt follows each sleep; the loop makes attempts until the first
    success, and gives up after exactly [max_tries] failures. *)
Theorem C40_stops_after_max_tries : forall interval cap max_tries results ts o b',
  0 <= max_tries -> bo_connect (bo_new interval cap max_tries) results = (ts, o, b') ->
  Z.of_nat (List.length ts) <= max_tries /\
  ts = waits (bo_new interval cap max_tries) (List.length ts) /\
  match o with
  | Connected => exists k, List.length ts = S k /\ nth_error results k = Some true /\ Forall (eq false) (firstn k results)
  | GaveUp => Z.of_nat (List.length ts) = max_tries /\ Forall (eq false) (firstn (List.length ts) results)
  | Pending => List.length ts = List.length results /\ Forall (eq false) results /\ Z.of_nat (List.length results) < max_tries
  end.
Proof.
  intros i c m res ts o b' Hm H. pose proof (connect_spec res (bo_new i c m) Hm) as P. rewrite H in P. cbn zeta in P.
  change (bo_attempt (bo_new i c m)) with 0 in P. change (bo_max_tries (bo_new i c m)) with m in P.
  rewrite Z.sub_0_r in P. destruct P as (L & W & _ & _ & O).
  split; [lia|]. split; [exact W|].
  destruct o; [exact O| |].
  - destruct O as (K1 & K2 & K3). split; [lia|]. rewrite K1. exact K2.
  - destruct O as (K1 & K2 & K3). split; [exact K1|]. split; [exact K2|lia].
Qed.
Print Assumptions C40_stops_after_max_tries.

(** However many attempts were made before, the waits start over after a reset. *)
Theorem C40_reset : forall n interval cap tries m,
  waits (bo_reset (Nat.iter n (fun b => snd (bo_sleep b)) (bo_new interval cap tries))) m = waits (bo_new interval cap tries) m.
Proof.
  intros n i c t m. replace (bo_reset _) with (bo_new i c t); [reflexivity|].
  assert (H : forall b, bo_reset (Nat.iter n (fun b => snd (bo_sleep b)) b) = bo_reset b).
  { induction n as [|n IH]; intros b; [reflexivity|]. rewrite <- (IH b). reflexivity. }
  rewrite H. reflexivity.
Qed.
Print Assumptions C40_reset.

Example C40_cases :
  let r := bo_connect (bo_new 1 4 3) in
  (fst (r [false; false; true; true]) = (waits (bo_new 1 4 3) 3, Connected)) /\
  (fst (r [false; false; false; true]) = (waits (bo_new 1 4 3) 3, GaveUp)) /\
  (fst (r [false; false]) = (waits (bo_new 1 4 3) 2, Pending)).
Proof. vm_compute. repeat split. Qed.
