(** Lemmas for C14-C16 and C51. *)
From Coq Require Import ZifyBool ZifyNat.
From Verif Require Import Base BaseLemmas PrimModel PrimSpec PrimProofs FieldModel FieldSpec.

Lemma int_kind_bits k b s : int_kind k b s -> k_bits k = b /\ 0 < b /\ k_is_int k = true.
Proof. destruct 1; cbn; repeat split; lia. Qed.

Lemma store_bit k b s v j : int_kind k b s -> 0 <= j < b ->
  Z.testbit (k_store k v) j = Z.testbit v j.
Proof.
  intros Hk Hj. destruct (store_spec k b s v Hk) as (_ & Hm & _ & _).
  assert (Hp : 2 ^ b <> 0) by (pose proof (Z.pow_pos_nonneg 2 b); lia).
  assert (E : k_store k v mod 2 ^ b = v mod 2 ^ b).
  { replace (k_store k v) with (v + (k_store k v - v)) by ring.
    apply Z.div_exact in Hm; [|exact Hp]. rewrite Hm, Z.mul_comm. apply Z_mod_plus_full. }
  rewrite <- (Z.mod_pow2_bits_low (k_store k v) b j) by lia.
  rewrite <- (Z.mod_pow2_bits_low v b j) by lia. rewrite E. reflexivity.
Qed.

Lemma mask_ones w : bf_mask w = Z.ones w.
Proof. unfold bf_mask. rewrite Z.ones_equiv. lia. Qed.
Lemma land_mask v w : 0 <= w -> Z.land v (bf_mask w) = v mod 2 ^ w.
Proof. intros H. rewrite mask_ones. apply Z.land_ones. exact H. Qed.
Lemma shifted_bit i w j : 0 <= w -> 0 <= i -> 0 <= j ->
  Z.testbit (bf_shifted i w) j = (i <=? j) && (j <? i + w).
Proof.
  intros Hw Hi Hj. unfold bf_shifted. rewrite Z.shiftl_spec by lia. rewrite mask_ones.
  rewrite Z.testbit_ones by lia. lia.
Qed.

Lemma write_bit k b s raw i w v j :
  int_kind k b s -> 0 <= w -> 0 <= i -> 0 <= j < b ->
  Z.testbit (fst (bf_write k raw i w v)) j =
  if (i <=? j) && (j <? i + w) then Z.testbit v (j - i) else Z.testbit raw j.
Proof.
  intros Hk Hw Hi Hj. cbn [bf_write fst]. rewrite (store_bit k b s) by assumption.
  rewrite Z.lor_spec, Z.land_spec, Z.lnot_spec by lia. rewrite shifted_bit by lia.
  rewrite Z.shiftl_spec by lia. rewrite Z.land_spec, mask_ones, Z.testbit_ones by lia.
  destruct (Z.leb_spec i j); destruct (Z.ltb_spec j (i + w)); cbn [andb negb].
  - replace ((0 <=? j - i) && (j - i <? w)) with true by lia.
    rewrite Bool.andb_false_r, Bool.andb_true_r. reflexivity.
  - replace ((0 <=? j - i) && (j - i <? w)) with false by lia.
    rewrite Bool.andb_false_r, Bool.andb_true_r, Bool.orb_false_r. reflexivity.
  - rewrite (Z.testbit_neg_r v) by lia. rewrite Bool.andb_true_r, Bool.orb_false_r. reflexivity.
  - rewrite (Z.testbit_neg_r v) by lia. rewrite Bool.andb_true_r, Bool.orb_false_r. reflexivity.
Qed.

Lemma read_bit raw i w j : 0 <= w -> 0 <= i -> 0 <= j ->
  Z.testbit (bf_read raw i w) j = (j <? w) && Z.testbit raw (j + i).
Proof.
  intros Hw Hi Hj. unfold bf_read. rewrite Z.shiftr_spec by lia.
  rewrite Z.land_spec, shifted_bit by lia.
  replace ((i <=? j + i) && (j + i <? i + w)) with (j <? w) by lia.
  apply Bool.andb_comm.
Qed.

Lemma read_value raw i w : 0 <= w -> 0 <= i -> bf_read raw i w = (raw / 2 ^ i) mod 2 ^ w.
Proof.
  intros Hw Hi. apply Z.bits_inj'. intros j Hj. rewrite read_bit by lia.
  destruct (Z.ltb_spec j w).
  - rewrite Z.mod_pow2_bits_low by lia. rewrite Z.div_pow2_bits by lia. reflexivity.
  - rewrite Z.mod_pow2_bits_high by lia. reflexivity.
Qed.

Lemma read_ext raw raw' i w : 0 <= w -> 0 <= i ->
  (forall j, i <= j < i + w -> Z.testbit raw j = Z.testbit raw' j) ->
  bf_read raw i w = bf_read raw' i w.
Proof.
  intros Hw Hi H. apply Z.bits_inj'. intros j Hj. rewrite !read_bit by lia.
  destruct (Z.ltb_spec j w); [|reflexivity]. cbn. apply H. lia.
Qed.

Lemma read_write k b s raw i w v :
  int_kind k b s -> 0 <= w -> 0 <= i -> i + w <= b ->
  bf_read (fst (bf_write k raw i w v)) i w = v mod 2 ^ w.
Proof.
  intros Hk Hw Hi Hb. apply Z.bits_inj'. intros j Hj. rewrite read_bit by lia.
  destruct (Z.ltb_spec j w).
  - rewrite Z.mod_pow2_bits_low by lia. rewrite (write_bit k b s) by (assumption || lia).
    replace ((i <=? j + i) && (j + i <? i + w)) with true by lia. cbn. f_equal. lia.
  - rewrite Z.mod_pow2_bits_high by lia. reflexivity.
Qed.

(** A value of an unsigned or signed kind is determined by its low bits. *)
Lemma value_bits_inj k b s x y : int_kind k b s -> k_value k x -> k_value k y ->
  (forall j, 0 <= j < b -> Z.testbit x j = Z.testbit y j) -> x = y.
Proof.
  intros Hk Hx Hy H.
  assert (E : x mod 2 ^ b = y mod 2 ^ b).
  { apply Z.bits_inj'. intros j Hj. destruct (Z_lt_ge_dec j b).
    - rewrite !Z.mod_pow2_bits_low by lia. apply H. lia.
    - destruct (int_kind_bits k b s Hk) as (_ & Hb & _).
      rewrite !Z.mod_pow2_bits_high by lia. reflexivity. }
  destruct (store_spec k b s y Hk) as (_ & _ & U & _).
  rewrite <- (store_id k y Hy). apply U.
  - apply (int_kind_value k b s x Hk). exact Hx.
  - rewrite Zminus_mod, E, Z.sub_diag. reflexivity.
Qed.

Lemma write_is_value k raw i w v : k_value k (fst (bf_write k raw i w v)).
Proof. cbn. apply store_value. Qed.

(** ** Allocation *)
Lemma zmem_In x l : zmem x l = true <-> In x l.
Proof.
  unfold zmem. rewrite existsb_exists. split.
  - intros (y & Hy & E). apply Z.eqb_eq in E. subst. exact Hy.
  - intros H. exists x. split; [exact H|apply Z.eqb_refl].
Qed.
Lemma zseq_In x a n : In x (zseq a n) <-> a <= x < a + Z.of_nat n.
Proof.
  unfold zseq. rewrite in_map_iff. split.
  - intros (i & E & Hi). apply in_seq in Hi. lia.
  - intros H. exists (Z.to_nat (x - a)). split; [lia|]. apply in_seq. lia.
Qed.
Lemma filter_out x bits l :
  In x (filter (fun b => negb (zmem b bits)) l) <-> In x l /\ ~ In x bits.
Proof.
  rewrite filter_In, Bool.negb_true_iff. rewrite <- (Bool.not_true_iff_false (zmem x bits)).
  rewrite zmem_In. reflexivity.
Qed.

Definition idx_of (s : regs) (index : option Z) : Z :=
  match index with Some i => i | None => r_curr s end.

Lemma claim_some s w index s' i :
  r_claim s w index = Some (s', i) ->
  i = idx_of s index /\ r_final s = false /\
  (forall b, i <= b < i + w -> In b (r_avail s)) /\
  (forall b, In b (r_avail s') <-> In b (r_avail s) /\ ~ (i <= b < i + w)) /\
  r_kind s' = r_kind s /\ r_raw s' = r_raw s /\ r_fields s' = r_fields s /\
  r_byidx s' = r_byidx s /\ r_final s' = r_final s /\
  r_curr s' = (if r_curr s <=? i then i + w else r_curr s).
Proof.
  unfold r_claim. destruct (r_final s) eqn:Ef; [discriminate|]. fold (idx_of s index).
  set (i0 := idx_of s index).
  destruct (forallb _ _) eqn:E; [|discriminate]. intros H. injection H as <- <-. cbn.
  rewrite forallb_forall in E.
  assert (M : forall b, In b (zseq i0 (Z.to_nat w)) <-> i0 <= b < i0 + w).
  { intros b. rewrite zseq_In. lia. }
  split; [reflexivity|]. split; [reflexivity|].
  split; [intros b Hb; apply zmem_In, E, M; exact Hb|].
  split; [intros b; rewrite filter_out, M; reflexivity|].
  auto 8.
Qed.
Lemma claim_none s w index :
  r_claim s w index = None <->
  r_final s = true \/
  exists b, idx_of s index <= b < idx_of s index + w /\ ~ In b (r_avail s).
Proof.
  unfold r_claim. fold (idx_of s index). set (i0 := idx_of s index).
  destruct (r_final s); [tauto|].
  destruct (forallb _ _) eqn:E.
  - split; [discriminate|]. intros [H|(b & Hb & Hn)]; [discriminate|].
    rewrite forallb_forall in E. exfalso. apply Hn, zmem_In, E, zseq_In. lia.
  - split; [|reflexivity]. intros _. right.
    assert (G : existsb (fun b => negb (zmem b (r_avail s))) (zseq i0 (Z.to_nat w)) = true).
    { destruct (existsb _ _) eqn:X; [reflexivity|]. exfalso.
      rewrite <- Bool.not_true_iff_false in E. apply E. apply forallb_forall. intros b Hb.
      rewrite <- Bool.not_true_iff_false in X. destruct (zmem b (r_avail s)) eqn:Z0; [reflexivity|].
      exfalso. apply X. apply existsb_exists. exists b. rewrite Z0. auto. }
    apply existsb_exists in G as (b & Hb & Hn). apply zseq_In in Hb. exists b.
    split; [lia|]. rewrite <- zmem_In. destruct (zmem b (r_avail s)); [discriminate|congruence].
Qed.

Lemma field_ok_spec k n i w : field_ok k n i w = true ->
  0 <= i /\ 0 <= w /\ i < k_bits k /\ w <= k_bits k /\ valid_name n = true /\ k_is_int k = true.
Proof.
  unfold field_ok, base_ok. rewrite !Bool.andb_true_iff. intros ((((H1 & H2) & H3) & H4) & H5).
  repeat split; try assumption; lia.
Qed.

(** The state invariant relating available bits and allocations. *)
Definition bits_of (s : regs) := k_bits (r_kind s).
Record RInv (s : regs) (al : list (Z * Z)) : Prop := {
  ri_avail : forall b, In b (r_avail s) -> 0 <= b < bits_of s;
  ri_taken : forall a b, In a al -> covers a b -> ~ In b (r_avail s);
  ri_inside : Forall (inside (bits_of s)) al;
  ri_disj : ForallOrdPairs disjoint al
}.

Lemma new_RInv k : 0 <= k_bits k -> RInv (r_new k) [].
Proof.
  intros H. split; cbn; try constructor; try tauto.
  - apply zseq_In in H0. lia.
  - apply zseq_In in H0. unfold bits_of; cbn. lia.
Qed.

Lemma RInv_irrel s s' al : r_kind s' = r_kind s -> r_avail s' = r_avail s ->
  RInv s al -> RInv s' al.
Proof.
  intros Hk Ha [H1 H2 H3 H4]. unfold bits_of in *. split; rewrite ?Ha; unfold bits_of; rewrite ?Hk; auto.
Qed.

(** A claim that does not lead to an allocation only removes bits. *)
Lemma claim_leak s w index s' i al :
  r_claim s w index = Some (s', i) -> RInv s al -> RInv s' al.
Proof.
  intros C [H1 H2 H3 H4]. apply claim_some in C as (_ & _ & _ & Ha & Hk & _).
  split; unfold bits_of; rewrite ?Hk; auto.
  - intros b Hb. apply Ha in Hb. apply H1. tauto.
  - intros a b Hin Hc Hb. apply Ha in Hb. eapply H2; eauto. tauto.
Qed.
Lemma claim_alloc s w index s' i al :
  0 <= w -> r_claim s w index = Some (s', i) -> RInv s al -> RInv s' ((i, w) :: al).
Proof.
  intros Hw C H. pose proof (claim_leak _ _ _ _ _ _ C H) as [L1 L2 L3 L4].
  apply claim_some in C as (_ & _ & Hb & Ha & Hk & _). split; auto.
  - intros a b [<-|Hin] Hc.
    + unfold covers in Hc; cbn in Hc. rewrite Ha. tauto.
    + eapply L2; eauto.
  - constructor; [|exact L3]. split; cbn [fst snd]; [exact Hw|]. intros Hw1.
    unfold bits_of in *. rewrite Hk in *.
    pose proof (ri_avail _ _ H i (Hb i ltac:(lia))).
    pose proof (ri_avail _ _ H (i + w - 1) (Hb (i + w - 1) ltac:(lia))). unfold bits_of in *. lia.
  - constructor; [|exact L4]. apply Forall_forall. intros a Hin j [Hc1 Hc2].
    unfold covers in Hc1; cbn in Hc1. eapply (ri_taken _ _ H); eauto.
Qed.

Lemma step_RInv s al o : RInv s al ->
  let '(s', a) := r_step s o in
  RInv s' (match a with Some x => x :: al | None => al end) /\ r_kind s' = r_kind s.
Proof.
  intros H. destruct o; cbn [r_step].
  - unfold r_flag. destruct (r_claim s 1 index) as [[s1 i]|] eqn:C; [|cbn; auto].
    pose proof (claim_some _ _ _ _ _ C) as (_ & _ & _ & _ & Hk & _).
    destruct (field_ok _ _ _ _) eqn:F; cbn.
    + split; [|exact Hk]. apply (RInv_irrel s1); [reflexivity|reflexivity|]. apply (claim_alloc s 1 index s1 i al); [lia|exact C|exact H].
    + split; [|exact Hk]. eapply claim_leak; eauto.
  - unfold r_field. destruct (width =? 1); [cbn; auto|].
    destruct (r_claim s width index) as [[s1 i]|] eqn:C; [|cbn; auto].
    pose proof (claim_some _ _ _ _ _ C) as (_ & _ & _ & _ & Hk & _).
    destruct (field_ok _ _ _ _) eqn:F; [|cbn; split; [eapply claim_leak; eauto|exact Hk]].
    destruct (dmem _ _); cbn; (split; [|exact Hk]); [eapply claim_leak; eauto|].
    apply field_ok_spec in F.
    apply (RInv_irrel s1); [reflexivity|reflexivity|]. apply (claim_alloc s width index s1 i al); [lia|exact C|exact H].
  - unfold r_pad. destruct (r_claim s width index) as [[s1 i]|] eqn:C; [|cbn; auto].
    pose proof (claim_some _ _ _ _ _ C) as (_ & _ & _ & _ & Hk & _).
    destruct (base_ok i width) eqn:F; cbn; (split; [|exact Hk]).
    + unfold base_ok in F.
      apply (RInv_irrel s1); [reflexivity|reflexivity|]. apply (claim_alloc s width index s1 i al); [lia|exact C|exact H].
    + eapply claim_leak; eauto.
  - destruct (dget name (r_fields s)); cbn; split; auto. apply (RInv_irrel s); [reflexivity|reflexivity|exact H].
  - split; [|reflexivity]. apply (RInv_irrel s); [reflexivity|reflexivity|exact H].
  - split; [|reflexivity]. apply (RInv_irrel s); [reflexivity|reflexivity|exact H].
Qed.

Lemma run_RInv ops : forall s al, RInv s al ->
  let '(s', al') := r_run s al ops in
  RInv s' al' /\ r_kind s' = r_kind s /\ exists l, al' = l ++ al.
Proof.
  induction ops as [|o r IH]; intros s al H; cbn [r_run].
  - split; [exact H|]. split; [reflexivity|]. exists []. reflexivity.
  - pose proof (step_RInv s al o H) as G. destruct (r_step s o) as [s1 a].
    destruct G as [G1 G2]. specialize (IH _ _ G1).
    destruct (r_run s1 _ r) as [s2 al2]. destruct IH as (A & B & l & E).
    split; [exact A|]. split; [congruence|].
    destruct a as [x|]; [exists (l ++ [x]); rewrite E, <- app_assoc; reflexivity|eauto].
Qed.

(** Histories without failing calls leak nothing. *)
Definition exact_avail (s : regs) (al : list (Z * Z)) : Prop :=
  forall b, 0 <= b < bits_of s -> (In b (r_avail s) <-> forall a, In a al -> ~ covers a b).

Lemma claim_exact s w index s' i al :
  r_claim s w index = Some (s', i) -> exact_avail s al -> exact_avail s' ((i, w) :: al).
Proof.
  intros C H. apply claim_some in C as (_ & _ & _ & Ha & Hk & _).
  intros b Hb. unfold bits_of in Hb. rewrite Hk in Hb. rewrite Ha, (H b Hb). split.
  - intros [A B] a [<-|Hin]; [exact B|auto].
  - intros A. split; [intros a Hin; apply A; right; exact Hin|apply (A (i, w)); left; reflexivity].
Qed.

Lemma step_exact s al o : exact_avail s al ->
  (op_alloc o = true -> snd (r_step s o) <> None) ->
  exact_avail (fst (r_step s o))
    (match snd (r_step s o) with Some x => x :: al | None => al end).
Proof.
  intros H Hr. destruct o; cbn [r_step op_alloc] in *; try (specialize (Hr eq_refl)).
  - unfold r_flag in *. destruct (r_claim s 1 index) as [[s1 i]|] eqn:C; [|cbn in Hr; congruence].
    destruct (field_ok _ _ _ _); [|cbn in Hr; congruence]. cbn.
    exact (claim_exact _ _ _ _ _ _ C H).
  - unfold r_field in *. destruct (width =? 1); [cbn in Hr; congruence|].
    destruct (r_claim s width index) as [[s1 i]|] eqn:C; [|cbn in Hr; congruence].
    destruct (field_ok _ _ _ _); [|cbn in Hr; congruence].
    destruct (dmem _ _); [cbn in Hr; congruence|]. cbn.
    exact (claim_exact _ _ _ _ _ _ C H).
  - unfold r_pad in *. destruct (r_claim s width index) as [[s1 i]|] eqn:C; [|cbn in Hr; congruence].
    destruct (base_ok _ _); [|cbn in Hr; congruence]. cbn.
    exact (claim_exact _ _ _ _ _ _ C H).
  - cbn. destruct (dget name (r_fields s)); exact H.
  - exact H.
  - exact H.
Qed.

Lemma run_exact ops : forall s al, exact_avail s al -> all_returned s ops ->
  exact_avail (fst (r_run s al ops)) (snd (r_run s al ops)).
Proof.
  induction ops as [|o r IH]; intros s al H Hr; cbn [r_run]; [exact H|].
  destruct Hr as [Hr1 Hr2].
  pose proof (step_exact s al o H Hr1) as G. destruct (r_step s o) as [s1 a].
  apply IH; assumption.
Qed.

(** Everything from the current index on is free, when every width is positive. *)
Definition tail_free (s : regs) : Prop :=
  0 <= r_curr s /\ (forall b, r_curr s <= b < bits_of s -> In b (r_avail s)) /\ (0 < r_curr s -> ~ In (r_curr s - 1) (r_avail s)).

Lemma claim_tail s w index s' i al : 1 <= w -> RInv s al ->
  r_claim s w index = Some (s', i) -> tail_free s -> tail_free s'.
Proof.
  intros Hw HI C (H0 & H1 & H2). apply claim_some in C as (_ & _ & Hb & Ha & Hk & _ & _ & _ & _ & Hc).
  pose proof (ri_avail _ _ HI i (Hb i ltac:(lia))) as Hi.
  unfold tail_free, bits_of in *. rewrite Hk, Hc. destruct (Z.leb_spec (r_curr s) i).
  - split; [lia|]. split.
    + intros b Hbb. rewrite Ha. split; [apply H1; lia|lia].
    + intros _. rewrite Ha. lia.
  - assert (i + w <= r_curr s).
    { destruct (Z_le_gt_dec (i + w) (r_curr s)); [assumption|]. exfalso.
      apply H2; [lia|]. apply Hb. lia. }
    split; [lia|]. split.
    + intros b Hbb. rewrite Ha. split; [apply H1; lia|lia].
    + intros G. rewrite Ha. intros [X _]. apply H2; assumption.
Qed.

Lemma step_tail s al o : RInv s al -> op_width_ge 1 o -> tail_free s -> tail_free (fst (r_step s o)).
Proof.
  intros HI Hw H. destruct o; cbn [r_step op_width_ge] in *.
  - unfold r_flag. destruct (r_claim s 1 index) as [[s1 i]|] eqn:C; [|exact H].
    pose proof (claim_tail _ 1 _ _ _ _ ltac:(lia) HI C H) as T.
    destruct (field_ok _ _ _ _); exact T.
  - unfold r_field. destruct (width =? 1); [exact H|].
    destruct (r_claim s width index) as [[s1 i]|] eqn:C; [|exact H].
    pose proof (claim_tail _ _ _ _ _ _ Hw HI C H) as T.
    destruct (field_ok _ _ _ _); [|exact T]. destruct (dmem _ _); exact T.
  - unfold r_pad. destruct (r_claim s width index) as [[s1 i]|] eqn:C; [|exact H].
    pose proof (claim_tail _ _ _ _ _ _ Hw HI C H) as T.
    destruct (base_ok _ _); exact T.
  - destruct (dget name (r_fields s)); exact H.
  - exact H.
  - exact H.
Qed.

Lemma run_tail ops : forall s al, RInv s al -> Forall (op_width_ge 1) ops -> tail_free s ->
  tail_free (fst (r_run s al ops)).
Proof.
  induction ops as [|o r IH]; intros s al HI Hw H; cbn [r_run]; [exact H|].
  inversion Hw as [|? ? Hw1 Hw2]; subst.
  pose proof (step_tail s al o HI Hw1 H) as T. pose proof (step_RInv s al o HI) as G.
  destruct (r_step s o) as [s1 a]. apply IH; [apply G|exact Hw2|exact T].
Qed.

(** ** Names *)
Lemma all_chars_forall f s :
  all_chars f s = true <-> forall c, In c (list_ascii_of_string s) -> f c = true.
Proof.
  induction s as [|c s IH]; cbn [all_chars list_ascii_of_string In]; [split; [tauto|reflexivity]|].
  rewrite Bool.andb_true_iff, IH. split.
  - intros [A B] x [<-|Hx]; auto.
  - intros H. split; auto.
Qed.

Ltac every_ascii :=
  let b0 := fresh in let b1 := fresh in let b2 := fresh in let b3 := fresh in
  let b4 := fresh in let b5 := fresh in let b6 := fresh in let b7 := fresh in
  intros [b0 b1 b2 b3 b4 b5 b6 b7];
  destruct b0, b1, b2, b3, b4, b5, b6, b7; vm_compute; reflexivity.

Lemma lower_char_in c :
  lower_name_char c = existsb (Ascii.eqb c) (list_ascii_of_string lower_alphabet).
Proof. revert c. every_ascii. Qed.
Lemma name_char_in c :
  name_char c = existsb (Ascii.eqb c) (list_ascii_of_string name_alphabet).
Proof. revert c. every_ascii. Qed.

Lemma existsb_ascii c l : existsb (Ascii.eqb c) l = true <-> In c l.
Proof.
  rewrite existsb_exists. split.
  - intros (x & Hx & E). apply Ascii.eqb_eq in E. congruence.
  - intros H. exists c. split; [exact H|apply Ascii.eqb_refl].
Qed.

Lemma lower_chars s : all_chars lower_name_char s = true <-> made_of lower_alphabet s.
Proof.
  rewrite all_chars_forall. unfold made_of. split; intros H c Hc; specialize (H c Hc).
  - rewrite lower_char_in in H. apply existsb_ascii in H. exact H.
  - rewrite lower_char_in. apply existsb_ascii. exact H.
Qed.
Lemma valid_name_chars s : valid_name s = true <-> s <> EmptyString /\ made_of name_alphabet s.
Proof.
  unfold valid_name. rewrite Bool.andb_true_iff, all_chars_forall. unfold made_of.
  split; intros [A B]; split.
  - intros ->. discriminate.
  - intros c Hc. specialize (B c Hc). rewrite name_char_in in B. apply existsb_ascii in B. exact B.
  - destruct s; [elim A; reflexivity|reflexivity].
  - intros c Hc. specialize (B c Hc). rewrite name_char_in. apply existsb_ascii. exact B.
Qed.
