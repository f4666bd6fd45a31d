(** Properties C14-C16 and C51: bit fields and bit-field registers. *)
From Coq Require Import ZifyBool ZifyNat.
From Verif Require Import Base BaseLemmas PrimModel PrimSpec PrimProofs FieldModel FieldSpec
  FieldProofs FieldExportProofs.

(** C14.  A field of [w] bits at [i] inside an integer register: writing [v]
    returns [v mod 2^w], and reading afterwards gives the same. *)
Theorem C14_read_after_write :
  forall k bits signed raw i w v,
    int_kind k bits signed -> 0 <= i -> 0 <= w -> i + w <= bits ->
    snd (bf_write k raw i w v) = v mod 2 ^ w /\
    bf_read (fst (bf_write k raw i w v)) i w = v mod 2 ^ w /\
    bf_read raw i w = (raw / 2 ^ i) mod 2 ^ w.
Proof.
  intros k bits sg raw i w v Hk Hi Hw Hb. split; [apply land_mask; exact Hw|].
  split; [eapply read_write; eauto|apply read_value; assumption].
Qed.
Print Assumptions C14_read_after_write.

(** C14.  Inverting gives the complement within the width; inverting twice
    restores the register. *)
Theorem C14_invert_twice :
  forall k bits signed raw i w,
    int_kind k bits signed -> k_value k raw -> 0 <= i -> 0 <= w -> i + w <= bits ->
    let r1 := bf_invert k raw i w in
    snd r1 = 2 ^ w - 1 - bf_read raw i w /\
    fst (bf_invert k (fst r1) i w) = raw.
Proof.
  intros k bits sg raw i w Hk Hv Hi Hw Hb r1. split.
  - unfold r1, bf_invert. cbn [bf_write snd]. rewrite land_mask by exact Hw.
    pose proof (read_value raw i w Hw Hi) as R. rewrite R.
    pose proof (Z.mod_pos_bound (raw / 2 ^ i) (2 ^ w)) as B.
    assert (0 < 2 ^ w) by (apply Z.pow_pos_nonneg; lia).
    set (x := (raw / 2 ^ i) mod 2 ^ w) in *. unfold Z.lnot, Z.pred.
    replace (- x + -1) with ((2 ^ w - 1 - x) + (-1) * 2 ^ w) by ring.
    rewrite Z_mod_plus_full. apply Z.mod_small. lia.
  - apply (value_bits_inj k bits sg _ _ Hk); [apply write_is_value|exact Hv|].
    intros j Hj. unfold bf_invert at 1. rewrite (write_bit k bits sg) by (assumption || lia).
    destruct ((i <=? j) && (j <? i + w)) eqn:E.
    + rewrite Z.lnot_spec, read_bit by lia. replace (j - i <? w) with true by lia. cbn [andb].
      replace (j - i + i) with j by lia. unfold r1, bf_invert.
      rewrite (write_bit k bits sg) by (assumption || lia). rewrite E.
      rewrite Z.lnot_spec, read_bit by lia. replace (j - i <? w) with true by lia. cbn [andb].
      replace (j - i + i) with j by lia. apply Bool.negb_involutive.
    + unfold r1, bf_invert. rewrite (write_bit k bits sg) by (assumption || lia). rewrite E. reflexivity.
Qed.
Print Assumptions C14_invert_twice.

(** C14, outside the stated range: the constructor checks index and width but
    not their sum.  A field overhanging an unsigned register keeps only the
    bits that exist, so a value can be lost. *)
Theorem C14_overhang :
  forall k bits raw i w v,
    int_kind k bits false -> k_value k raw -> 0 <= i < bits -> 0 <= w <= bits ->
    bf_read (fst (bf_write k raw i w v)) i w = v mod 2 ^ (Z.min w (bits - i)).
Proof.
  intros k bits raw i w v Hk Hr Hi Hw. apply Z.bits_inj'. intros j Hj.
  rewrite read_bit by lia. destruct (Z_lt_ge_dec j (Z.min w (bits - i))) as [L|L].
  - rewrite Z.mod_pow2_bits_low by lia. replace (j <? w) with true by lia. cbn [andb].
    rewrite (write_bit k bits false) by (assumption || lia).
    replace ((i <=? j + i) && (j + i <? i + w)) with true by lia. f_equal. lia.
  - rewrite Z.mod_pow2_bits_high by lia. destruct (Z.ltb_spec j w); [|reflexivity]. cbn [andb].
    pose proof (write_is_value k raw i w v) as V.
    apply (int_kind_value k bits false _ Hk) in V. cbn [representable] in V.
    set (r := fst (bf_write k raw i w v)) in *.
    destruct (Z.eq_dec r 0) as [->|Hr0]; [apply Z.bits_0|].
    apply Z.bits_above_log2; [lia|]. apply Z.log2_lt_pow2; [lia|].
    eapply Z.lt_le_trans; [apply V|]. apply Z.pow_le_mono_r; lia.
Qed.
Print Assumptions C14_overhang.

Example ex_overhang_loses : field_ok U8 "a" 6 4 = true /\
  bf_read (fst (bf_write U8 0 6 4 15)) 6 4 = 3.
Proof. split; reflexivity. Qed.
Example ex_field : bf_read (fst (bf_write U16 65535 3 5 (-30))) 3 5 = 2 /\
  bf_where U8 2 3 = [false; false; true; true; true; false; false; false].
Proof. split; reflexivity. Qed.

(** C15.  Writing changes no bit of the register outside the field, and sets
    the bits inside to those of the value. *)
Theorem C15_other_bits_unchanged :
  forall k bits signed raw i w v j,
    int_kind k bits signed -> 0 <= i -> 0 <= w -> 0 <= j < bits ->
    bit (fst (bf_write k raw i w v)) j =
      if (i <=? j) && (j <? i + w) then bit v (j - i) else bit raw j.
Proof. intros. eapply write_bit; eauto. Qed.
Print Assumptions C15_other_bits_unchanged.

(** C15.  Hence a field on disjoint bits reads the same before and after. *)
Theorem C15_disjoint_fields_independent :
  forall k bits signed raw i w v i' w',
    int_kind k bits signed -> 0 <= i -> 0 <= w -> 0 <= i' -> 0 <= w' -> i' + w' <= bits ->
    disjoint (i, w) (i', w') ->
    bf_read (fst (bf_write k raw i w v)) i' w' = bf_read raw i' w'.
Proof.
  intros k bits sg raw i w v i' w' Hk Hi Hw Hi' Hw' Hb D. apply read_ext; try assumption.
  intros j Hj. rewrite (write_bit k bits sg) by (assumption || lia).
  destruct ((i <=? j) && (j <? i + w)) eqn:E; [|reflexivity].
  exfalso. apply (D j). unfold covers; cbn. lia.
Qed.
Print Assumptions C15_disjoint_fields_independent.

(** C16.  After any history on a new register (explicit or automatic indices,
    any widths, failing calls included) the allocations that were granted are
    inside the register and pairwise disjoint. *)
Theorem C16_never_overlap :
  forall k bits signed ops s al,
    int_kind k bits signed ->
    r_run (r_new k) [] ops = (s, al) ->
    Forall (inside bits) al /\ ForallOrdPairs disjoint al.
Proof.
  intros k bits sg ops s al Hk E. destruct (int_kind_bits k bits sg Hk) as (Eb & P & _).
  pose proof (run_RInv ops (r_new k) [] (new_RInv k ltac:(lia))) as G. rewrite E in G.
  destruct G as (R & K & _). pose proof (ri_inside _ _ R) as I1. unfold bits_of in I1.
  rewrite K in I1. cbn [r_new r_kind] in I1. rewrite Eb in I1. split; [exact I1|apply R].
Qed.
Print Assumptions C16_never_overlap.

(** C16.  In particular a request that does not fit in the free bits raises. *)
Theorem C16_unfit_raises :
  forall k bits signed ops s al o i w s',
    int_kind k bits signed ->
    r_run (r_new k) [] ops = (s, al) ->
    r_step s o = (s', Some (i, w)) ->
    inside bits (i, w) /\ (forall a, In a al -> disjoint (i, w) a) /\ r_final s = false.
Proof.
  intros k bits sg ops s al o i w s' Hk E St. destruct (int_kind_bits k bits sg Hk) as (Eb & P & _).
  pose proof (run_RInv ops (r_new k) [] (new_RInv k ltac:(lia))) as G. rewrite E in G.
  destruct G as (R & K & _). pose proof (step_RInv s al o R) as G. rewrite St in G.
  destruct G as [G K2]. pose proof (ri_inside _ _ G) as I1. pose proof (ri_disj _ _ G) as D1.
  inversion I1 as [|? ? I2 _]; subst. inversion D1 as [|? ? D2 _]; subst.
  split; [|split].
  - unfold bits_of in I2. rewrite K2, K in I2. exact I2.
  - rewrite Forall_forall in D2. exact D2.
  - clear - St. destruct (r_final s) eqn:F; [|reflexivity]. exfalso.
    destruct o; cbn [r_step] in St.
    + unfold r_flag, r_claim in St. rewrite F in St. discriminate.
    + unfold r_field, r_claim in St. rewrite F in St. destruct (width =? 1); discriminate.
    + unfold r_pad, r_claim in St. rewrite F in St. discriminate.
    + destruct (dget name (r_fields s)); discriminate.
    + discriminate.
    + discriminate.
Qed.
Print Assumptions C16_unfit_raises.

(** C16.  Conversely, when no earlier allocation call raised, padding is
    granted whenever the register is not finalized and its bits are free. *)
Theorem C16_fit_succeeds_partial :
  forall k bits signed ops s al i w v,
    int_kind k bits signed ->
    r_run (r_new k) [] ops = (s, al) -> all_returned (r_new k) ops ->
    r_final s = false -> 1 <= w -> inside bits (i, w) ->
    (forall a, In a al -> disjoint (i, w) a) ->
    snd (r_step s (OPad w (Some i) v)) = Some (i, w).
Proof.
  intros k bits sg ops s al i w v Hk E Ok F Hw [_ Hin] D. specialize (Hin Hw). cbn in Hin.
  destruct (int_kind_bits k bits sg Hk) as (Eb & P & _).
  pose proof (run_RInv ops (r_new k) [] (new_RInv k ltac:(lia))) as G. rewrite E in G.
  destruct G as (R & K & _).
  assert (X : exact_avail (r_new k) []).
  { intros b Hb. cbn [r_new r_avail]. rewrite zseq_In. unfold bits_of in Hb. cbn [r_new r_kind] in Hb.
    split; [intros _ a []|intros _; lia]. }
  pose proof (run_exact ops (r_new k) [] X Ok) as Y. rewrite E in Y. cbn [fst snd] in Y.
  cbn [r_step]. unfold r_pad. destruct (r_claim s w (Some i)) as [[s1 i1]|] eqn:C.
  - pose proof (claim_some _ _ _ _ _ C) as (-> & _). cbn [idx_of].
    unfold base_ok. replace ((0 <=? i) && (0 <=? w)) with true by lia. reflexivity.
  - exfalso. apply claim_none in C as [C|(b & Hb & Hn)]; [congruence|]. cbn [idx_of] in Hb.
    apply Hn. apply Y.
    + unfold bits_of. rewrite K. cbn [r_new r_kind]. lia.
    + intros a Ha Hc. apply (D a Ha b). split; [unfold covers; cbn; lia|exact Hc].
Qed.
Print Assumptions C16_fit_succeeds_partial.

(** Without that hypothesis it is false: a call that fails because the name is
    taken has already consumed its bits. *)
Theorem C16_fit_succeeds_refuted :
  exists ops s, 
    r_run (r_new U8) [] ops = (s, [(0, 2)]) /\ r_final s = false /\
    snd (r_step s (OPad 2 (Some 4) 0)) = None.
Proof.
  exists [OField "a" 2 None None false None; OField "a" 2 (Some 4) None false None].
  eexists. split; [vm_compute; reflexivity|]. split; reflexivity.
Qed.
Print Assumptions C16_fit_succeeds_refuted.

(** C16.  Automatic placement, positive widths: the next free index is past
    every granted range, and the request is granted exactly when it ends inside
    the register. *)
Theorem C16_automatic_index :
  forall k bits signed ops s al w v,
    int_kind k bits signed ->
    r_run (r_new k) [] ops = (s, al) -> Forall (op_width_ge 1) ops -> 1 <= w ->
    snd (r_step s (OPad w None v)) =
      if negb (r_final s) && (r_curr s + w <=? bits) then Some (r_curr s, w) else None.
Proof.
  intros k bits sg ops s al w v Hk E Hops Hw.
  destruct (int_kind_bits k bits sg Hk) as (Eb & P & _).
  pose proof (run_RInv ops (r_new k) [] (new_RInv k ltac:(lia))) as G. rewrite E in G.
  destruct G as (R & K & _).
  assert (T0 : tail_free (r_new k)).
  { unfold tail_free, bits_of. cbn [r_new r_curr r_kind r_avail]. split; [lia|].
    split; [|lia]. intros b Hb. apply zseq_In. lia. }
  pose proof (run_tail ops (r_new k) [] (new_RInv k ltac:(lia)) Hops T0) as T. rewrite E in T.
  cbn [fst] in T. destruct T as (T1 & T2 & _).
  cbn [r_step]. unfold r_pad. destruct (r_claim s w None) as [[s1 i1]|] eqn:C.
  - pose proof (claim_some _ _ _ _ _ C) as (-> & F & Hb & _). cbn [idx_of] in *. rewrite F.
    pose proof (ri_avail _ _ R (r_curr s + w - 1)) as A. specialize (A (Hb (r_curr s + w - 1) ltac:(lia))).
    unfold bits_of in A. rewrite K in A. cbn [r_new r_kind] in A.
    unfold base_ok. replace ((0 <=? r_curr s) && (0 <=? w)) with true by lia.
    replace (r_curr s + w <=? bits) with true by lia. reflexivity.
  - apply claim_none in C as [F|(b & Hb & Hn)]; [rewrite F; reflexivity|]. cbn [idx_of] in Hb.
    destruct (Z.leb_spec (r_curr s + w) bits); [|rewrite Bool.andb_false_r; reflexivity].
    exfalso. apply Hn, T2. unfold bits_of. rewrite K. cbn [r_new r_kind]. lia.
Qed.
Print Assumptions C16_automatic_index.

Definition ex_regs_ops :=
  [OFlag "go" None None true None; OField "mode" 3 (Some 4) (Some (inl "modes")) false None;
   OFlag "go2" (Some 0) None false None; OPad 2 (Some 1) 0; OWrite "mode" 5; OWrite "go" 1].
Example ex_regs :
  let '(s, al) := r_run (r_new U8) [] ex_regs_ops in
  al = [(1, 2); (4, 3); (0, 1)] /\ r_raw s = 81 /\ r_curr s = 7 /\
  Forall (op_width_ge 1) ex_regs_ops.
Proof. vm_compute. repeat split; repeat constructor; discriminate. Qed.

(** C51.  Exporting a register and building one from the export succeeds
    exactly when every named field satisfies the schema (lower-case name, enum
    identifier) and every padding entry was recorded with value zero. *)
Theorem C51_import_succeeds_iff :
  forall word k bits ops s al,
    int_kind k bits false -> Forall (op_width_ge 1) ops ->
    r_run (r_new k) [] ops = (s, al) ->
    (exists s', r_import word (r_asdict s) = Some s') <-> Forall (loadable word) (r_byidx s).
Proof.
  intros word k bits ops s al Hk Hw E.
  pose proof (run_SInv ops (r_new k) [] (new_SInv k bits false Hk) Hw) as H. rewrite E in H.
  cbn [fst snd] in H.
  destruct (int_kind_bits k bits false Hk) as (Eb & P & _).
  pose proof (run_RInv ops (r_new k) [] (new_RInv k ltac:(lia))) as G. rewrite E in G.
  destruct G as (_ & K & _). cbn [r_new r_kind] in K.
  pose proof (si_b _ _ H) as HB. unfold bits_of in HB. rewrite K in HB.
  pose proof (si_v _ _ H) as HV. rewrite K in HV.
  assert (0 <= r_raw s) as Hr.
  { apply (int_kind_value k bits false _ Hk) in HV. cbn in HV. lia. }
  assert (SK : schema_kind k = true) by (inversion Hk; reflexivity).
  rewrite <- (schema_built word (r_raw s) (r_byidx s) (k_bits k) Hr HB).
  unfold r_import, schema_ok, r_asdict. cbn [jr_kind jr_items jr_final]. rewrite K, SK.
  cbn [andb]. split.
  - intros [s' X]. destruct (forallb _ _) eqn:Y; [|discriminate]. split; [reflexivity|].
    intros i w v Hin. destruct (Z.eq_dec v 0); [assumption|]. exfalso.
    rewrite (load_bad_pad (r_raw s) (r_byidx s) (r_new k) i w v Hin) in X by assumption. discriminate.
  - intros [Y Z0]. rewrite Y.
    destruct (load_built k bits (r_raw s) (r_byidx s) Hk HB Z0) as (s1 & -> & _). eauto.
Qed.
Print Assumptions C51_import_succeeds_iff.

(** C51.  The rebuilt register has the same entries (positions, widths, names,
    enums, command flags; descriptions are not exported), every named field
    reads the same value, and bits outside named fields are zero. *)
Theorem C51_import_reconstructs :
  forall word k bits ops s al s',
    int_kind k bits false -> Forall (op_width_ge 1) ops ->
    r_run (r_new k) [] ops = (s, al) ->
    r_import word (r_asdict s) = Some s' ->
    r_kind s' = r_kind s /\ r_final s' = r_final s /\
    r_byidx s' = map strip_item (r_byidx s) /\
    r_fields s' = map (fun p => (fst p, strip (snd p))) (r_fields s) /\
    (forall i f, In (i, IField f) (r_byidx s) ->
       bf_read (r_raw s') (fl_index f) (fl_width f) =
       bf_read (r_raw s) (fl_index f) (fl_width f)) /\
    (r_raw s' = r_raw s <->
     forall j, 0 <= j < bits -> bit (r_raw s) j = true -> in_field s j).
Proof.
  intros word k bits ops s al s' Hk Hw E Im.
  pose proof (run_SInv ops (r_new k) [] (new_SInv k bits false Hk) Hw) as H. rewrite E in H.
  cbn [fst snd] in H.
  destruct (int_kind_bits k bits false Hk) as (Eb & P & _).
  pose proof (run_RInv ops (r_new k) [] (new_RInv k ltac:(lia))) as G. rewrite E in G.
  destruct G as (_ & K & _). cbn [r_new r_kind] in K.
  pose proof (si_b _ _ H) as HB. unfold bits_of in HB. rewrite K in HB.
  pose proof (si_v _ _ H) as HV. rewrite K in HV.
  assert (L : Forall (loadable word) (r_byidx s))
    by (eapply C51_import_succeeds_iff; eauto).
  assert (Z0 : forall i w v, In (i, IPad w v) (r_byidx s) -> v = 0).
  { intros i w v Hin. rewrite Forall_forall in L. apply (L _ Hin). }
  destruct (load_built k bits (r_raw s) (r_byidx s) Hk HB Z0) as (s1 & E1 & LS1).
  unfold r_import in Im. destruct (schema_ok word (r_asdict s)); [|discriminate].
  cbn [r_asdict jr_kind jr_items jr_final] in Im. rewrite K, E1 in Im. injection Im as <-.
  cbn [r_kind r_final r_byidx r_fields r_raw]. rewrite K.
  split; [apply LS1|]. split; [reflexivity|]. split; [apply LS1|]. split.
  { rewrite (ls_f _ _ _ _ LS1), (si_f _ _ H). apply (fields_of_strip _ ""). }
  pose proof (ls_raw _ _ _ _ LS1) as R. rewrite Eb in R.
  split.
  - intros i f Hin. destruct (built_entry _ _ HB _ Hin) as (X1 & X2 & X3 & X4 & _).
    cbn [entry_range snd fst] in X1, X2, X3, X4. subst i.
    apply read_ext; try lia. intros j Hj. specialize (R j ltac:(lia)). unfold bit in R.
    destruct (Z.testbit (r_raw s) j).
    + apply R. split; [reflexivity|]. exists (fl_index f), f. split; [exact Hin|exact Hj].
    + destruct (Z.testbit (r_raw s1) j); [|reflexivity]. destruct R as [R _].
      destruct (R eq_refl). discriminate.
  - split.
    + intros Eq j Hj Hb. apply R in Hj. rewrite Eq in Hj. apply Hj in Hb as (_ & Hb). exact Hb.
    + intros Hall. apply (value_bits_inj k bits false _ _ Hk); [apply LS1|exact HV|].
      intros j Hj. specialize (R j Hj). unfold bit in R, Hall. specialize (Hall j Hj).
      destruct (Z.testbit (r_raw s) j).
      * apply R. split; [reflexivity|]. apply Hall. reflexivity.
      * destruct (Z.testbit (r_raw s1) j); [|reflexivity]. destruct R as [R _].
        destruct (R eq_refl). discriminate.
Qed.
Print Assumptions C51_import_reconstructs.

(** C51.  The unrestricted claim is false: padding written with a non-zero
    value exports something that cannot be loaded, and so does an upper-case
    name; a raw write outside the fields is lost. *)
Theorem C51_reconstruct_refuted :
  (exists s al, r_run (r_new U8) [] [OPad 2 None 1] = (s, al) /\
     r_import (fun _ => true) (r_asdict s) = None) /\
  (exists s al, r_run (r_new U8) [] [OFlag "A" None None false None] = (s, al) /\
     al = [(0, 1)] /\ r_import (fun _ => true) (r_asdict s) = None) /\
  (exists s al s', r_run (r_new U8) [] [OFlag "a" None None false None; ORaw 2] = (s, al) /\
     r_import (fun _ => true) (r_asdict s) = Some s' /\ r_raw s' <> r_raw s).
Proof.
  split; [|split].
  - eexists. eexists. split; [vm_compute; reflexivity|]. reflexivity.
  - eexists. eexists. split; [vm_compute; reflexivity|]. split; reflexivity.
  - eexists. eexists. eexists. split; [vm_compute; reflexivity|].
    split; [vm_compute; reflexivity|]. vm_compute. discriminate.
Qed.
Print Assumptions C51_reconstruct_refuted.

Example ex_regs_export :
  let '(s, al) := r_run (r_new U8) [] ex_regs_ops in
  exists s', r_import (fun _ => true) (r_asdict s) = Some s' /\ r_raw s' = 81.
Proof. vm_compute. eexists. split; reflexivity. Qed.

(** C14.  The picture of a field marks exactly its bits, one mark per bit of
    the register. *)
Theorem C14_where :
  forall k bits signed i w,
    int_kind k bits signed -> 0 <= i -> 0 <= w ->
    List.length (bf_where k i w) = Z.to_nat bits /\
    forall j, 0 <= j < bits -> nth (Z.to_nat j) (bf_where k i w) false = true <-> covers (i, w) j.
Proof.
  intros k bits sg i w Hk Hi Hw. destruct (int_kind_bits k bits sg Hk) as (Eb & P & _).
  unfold k_bits in Eb. split.
  - unfold bf_where. rewrite map_length, seq_length. lia.
  - intros j Hj. unfold bf_where.
    set (f := fun i0 : nat => negb (Z.land (Z.shiftl 1 (Z.of_nat i0)) (bf_shifted i w) =? 0)).
    rewrite (nth_indep (map f (seq 0 (8 * k_size k))) false (f O)) by (rewrite map_length, seq_length; lia).
    rewrite map_nth, seq_nth by lia. cbn [Nat.add]. unfold f. rewrite Z2Nat.id by lia.
    assert (T : Z.testbit (bf_shifted i w) j = (i <=? j) && (j <? i + w)).
    { unfold bf_shifted, bf_mask. rewrite Z.shiftl_spec by lia. replace (2 ^ w - 1) with (Z.ones w) by (rewrite Z.ones_equiv; lia).
      destruct (Z_lt_ge_dec j i) as [L|L].
      - rewrite Z.testbit_neg_r by lia. lia.
      - rewrite Z.testbit_ones_nonneg by lia. lia. }
    assert (E : Z.land (Z.shiftl 1 j) (bf_shifted i w) =? 0 = negb (Z.testbit (bf_shifted i w) j)).
    { rewrite Z.shiftl_1_l. destruct (Z.testbit (bf_shifted i w) j) eqn:B; cbn [negb].
      - apply Z.eqb_neq. intros C. assert (X : Z.testbit (Z.land (2 ^ j) (bf_shifted i w)) j = false)
          by (rewrite C; apply Z.bits_0).
        rewrite Z.land_spec, Z.pow2_bits_true, B in X by lia. discriminate.
      - apply Z.eqb_eq. apply Z.bits_inj'. intros n Hn. rewrite Z.land_spec, Z.bits_0.
        destruct (Z.eq_dec n j) as [->|N]; [rewrite B; apply Bool.andb_false_r|].
        rewrite Z.pow2_bits_false by lia. reflexivity. }
    cbv beta. rewrite E, Bool.negb_involutive, T. unfold covers. cbn [fst snd]. lia.
Qed.
Print Assumptions C14_where.

(** C16.  Once finalized, a register never grants anything again: whatever
    follows, its allocations are those it had. *)
Theorem C16_finalized :
  forall k before later,
    snd (r_run (r_new k) [] (before ++ OFinalize :: later)) = snd (r_run (r_new k) [] before).
Proof.
  intros k before later.
  assert (F : forall o s, r_final s = true -> r_final (fst (r_step s o)) = true /\ snd (r_step s o) = None).
  { intros o s H.
    destruct o as [n i e c d|n w i e c d|w i v|n v|v|]; cbn [r_step].
    - unfold r_flag, r_claim. rewrite H. cbn. auto.
    - unfold r_field, r_claim. rewrite H. destruct (w =? 1); cbn; auto.
    - unfold r_pad, r_claim. rewrite H. cbn. auto.
    - destruct (dget n (r_fields s)); cbn; auto.
    - cbn. auto.
    - cbn. auto. }
  assert (L : forall ops s al, r_final s = true -> snd (r_run s al ops) = al).
  { induction ops as [|o ops IH]; intros s al H; [reflexivity|]. cbn [r_run].
    destruct (F o s H) as [F1 F2]. destruct (r_step s o) as [s' a]. cbn in F1, F2. subst a.
    apply IH. exact F1. }
  assert (A : forall ops s al rest, r_run s al (ops ++ rest) =
            let '(s', al') := r_run s al ops in r_run s' al' rest).
  { induction ops as [|o ops IH]; intros s al rest; [reflexivity|]. cbn [app r_run].
    destruct (r_step s o) as [s' a]. apply IH. }
  rewrite A. destruct (r_run (r_new k) [] before) as [s al]. cbn [r_run r_step snd].
  apply L. reflexivity.
Qed.
Print Assumptions C16_finalized.
Example finalized_demo :
  snd (r_run (r_new U8) [] [OPad 2 None 0; OFinalize; OPad 1 None 0; OFlag "a" None None false None])
  = [(0, 2)] /\
  snd (r_run (r_new U8) [] [OPad 2 None 0; OPad 1 None 0; OFlag "a" None None false None])
  = [(3, 1); (2, 1); (0, 2)].
Proof. split; reflexivity. Qed.

(** C16.  A flag or field is granted only under a non-empty name of letters,
    digits, underscore, dot and dash. *)
Theorem C16_names :
  forall s o n,
    (exists i e c d, o = OFlag n i e c d) \/ (exists w i e c d, o = OField n w i e c d) ->
    snd (r_step s o) <> None -> n <> EmptyString /\ made_of name_alphabet n.
Proof.
  intros s o n H G. apply valid_name_chars.
  assert (FK : forall k i w, field_ok k n i w = true -> valid_name n = true).
  { intros k i w X. apply field_ok_spec in X. tauto. }
  destruct H as [(i & e & c & d & ->)|(w & i & e & c & d & ->)]; cbn [r_step] in G.
  - unfold r_flag in G. destruct (r_claim s 1 i) as [[s' j]|]; [|elim G; reflexivity].
    destruct (field_ok (r_kind s') n j 1) eqn:X; [eapply FK; exact X|elim G; reflexivity].
  - unfold r_field in G. destruct (w =? 1); [elim G; reflexivity|].
    destruct (r_claim s w i) as [[s' j]|]; [|elim G; reflexivity].
    destruct (field_ok (r_kind s') n j w) eqn:X; [eapply FK; exact X|elim G; reflexivity].
Qed.
Print Assumptions C16_names.
Example names_demo :
  snd (r_step (r_new U8) (OFlag "Ab.9-_" None None false None)) = Some (0, 1) /\
  snd (r_step (r_new U8) (OFlag "a b" None None false None)) = None /\
  snd (r_step (r_new U8) (OFlag "a[" None None false None)) = None.
Proof. repeat split. Qed.

(** C51.  A register over anything but an unsigned integer exports, but what it
    exports is never accepted back. *)
Theorem C51_unsigned_only :
  forall word s,
    (forall bits, ~ int_kind (r_kind s) bits false) -> r_import word (r_asdict s) = None.
Proof.
  intros word s H. unfold r_import, schema_ok. cbn [r_asdict jr_kind].
  destruct (schema_kind (r_kind s)) eqn:E; [|reflexivity]. exfalso.
  destruct (r_kind s); try discriminate E; eapply H; constructor.
Qed.
Print Assumptions C51_unsigned_only.
Example unsigned_only_demo :
  snd (r_run (r_new I8) [] [OFlag "a" None None false None]) = [(0, 1)] /\
  r_import (fun _ => true) (r_asdict (fst (r_run (r_new I8) [] [OFlag "a" None None false None]))) = None.
Proof. split; reflexivity. Qed.

(** C16.  A flag or field is granted exactly when the register is open, all its
    bits are available and the name is valid; a field also needs a width other
    than one and a name no other field has. *)
Theorem C16_granted_iff :
  forall k bits signed ops s al n w i e c d,
    int_kind k bits signed -> r_run (r_new k) [] ops = (s, al) -> 1 <= w ->
    let at_ := match i with Some i => i | None => r_curr s end in
    let free := r_final s = false /\ (forall b, at_ <= b < at_ + w -> In b (r_avail s)) in
    let named := n <> EmptyString /\ made_of name_alphabet n in
    (snd (r_step s (OFlag n i e c d)) <> None <->
       r_final s = false /\ In at_ (r_avail s) /\ named) /\
    (snd (r_step s (OField n w i e c d)) <> None <->
       free /\ named /\ w <> 1 /\ dget n (r_fields s) = None).
Proof.
  intros k bits sg ops s al n w i e c d Hk E Hw at_ free named.
  destruct (int_kind_bits k bits sg Hk) as (Eb & P & Ki).
  pose proof (run_RInv ops (r_new k) [] (new_RInv k ltac:(lia))) as G. rewrite E in G.
  destruct G as (R & K & _). cbn [r_new r_kind] in K.
  assert (IN : forall b, In b (r_avail s) -> 0 <= b < bits).
  { intros b Hb. apply (ri_avail _ _ R) in Hb. unfold bits_of in Hb. rewrite K, Eb in Hb. exact Hb. }
  assert (FO : forall j x, 1 <= x -> (forall b, j <= b < j + x -> In b (r_avail s)) ->
            (field_ok k n j x = true <-> named)).
  { intros j x Hx Hb. unfold named. rewrite <- valid_name_chars.
    pose proof (IN j (Hb j ltac:(lia))). pose proof (IN (j + x - 1) (Hb (j + x - 1) ltac:(lia))).
    unfold field_ok, base_ok. rewrite Ki, Eb.
    replace (0 <=? j) with true by lia. replace (0 <=? x) with true by lia.
    replace (j <? bits) with true by lia. replace (x <=? bits) with true by lia. cbn [andb]. reflexivity. }
  split; cbn [r_step].
  - unfold r_flag. destruct (r_claim s 1 i) as [[s1 j]|] eqn:C.
    + pose proof (claim_some _ _ _ _ _ C) as (Ej & F & Hb & _ & Hk1 & _).
      change (idx_of s i) with at_ in Ej. subst j.
      assert (A : In at_ (r_avail s)) by (apply Hb; lia).
      pose proof (FO at_ 1 ltac:(lia) Hb) as Q. rewrite Hk1, K.
      destruct (field_ok k n at_ 1); cbn [snd option_map].
      * split; [|intros _; discriminate]. intros _. split; [exact F|split; [exact A|apply Q; reflexivity]].
      * split; [intros X; elim X; reflexivity|]. intros (_ & _ & N). apply Q in N. discriminate.
    + cbn [snd option_map]. split; [intros X; elim X; reflexivity|]. intros (F & A & _). exfalso.
      apply claim_none in C as [C|(b & Hb & Hn)]; [congruence|].
      change (idx_of s i) with at_ in Hb. apply Hn. replace b with at_ by lia. exact A.
  - unfold r_field. destruct (Z.eqb_spec w 1) as [->|W].
    { cbn [snd option_map]. split; [intros X; elim X; reflexivity|]. intros (_ & _ & N & _). elim N; reflexivity. }
    destruct (r_claim s w i) as [[s1 j]|] eqn:C.
    + pose proof (claim_some _ _ _ _ _ C) as (Ej & F & Hb & _ & Hk1 & _ & Hf & _).
      change (idx_of s i) with at_ in Ej. subst j.
      pose proof (FO at_ w Hw Hb) as Q. rewrite Hk1, K, Hf. unfold dmem.
      destruct (field_ok k n at_ w); [destruct (dget n (r_fields s)) as [f|]|]; cbn [snd option_map].
      * split; [intros X; elim X; reflexivity|]. intros (_ & _ & _ & N). discriminate.
      * split; [|intros _; discriminate]. intros _.
        split; [split; assumption|split; [apply Q; reflexivity|split; [exact W|reflexivity]]].
      * split; [intros X; elim X; reflexivity|]. intros (_ & N & _). apply Q in N. discriminate.
    + cbn [snd option_map]. split; [intros X; elim X; reflexivity|]. intros ((F & A) & _). exfalso.
      apply claim_none in C as [C|(b & Hb & Hn)]; [congruence|].
      change (idx_of s i) with at_ in Hb. apply Hn. apply A. lia.
Qed.
Print Assumptions C16_granted_iff.
Example granted_demo :
  let s := fst (r_run (r_new U8) [] [OFlag "a" None None false None]) in
  snd (r_step s (OField "b" 7 None None false None)) = Some (1, 7) /\
  snd (r_step s (OField "a" 2 None None false None)) = None /\
  snd (r_step s (OField "b" 1 None None false None)) = None.
Proof. repeat split. Qed.

(** C16.  What a granted request leaves behind: the named field with everything
    it was asked for, the other names as they were, and the register's value
    (changed only by padding, within its bits). *)
Theorem C16_granted_effect :
  forall s s' o i w,
    r_step s o = (s', Some (i, w)) ->
    match o with
    | OFlag n at_ e c d | OField n _ at_ e c d =>
        i = match at_ with Some j => j | None => r_curr s end /\
        dget n (r_fields s') = Some (mkField n i w e c d) /\
        dget i (r_byidx s') = Some (IField (mkField n i w e c d)) /\
        (forall m, m <> n -> dget m (r_fields s') = dget m (r_fields s)) /\
        r_raw s' = r_raw s
    | OPad _ at_ v =>
        i = match at_ with Some j => j | None => r_curr s end /\
        dget i (r_byidx s') = Some (IPad w v) /\
        r_fields s' = r_fields s /\
        forall bits signed j, int_kind (r_kind s) bits signed -> 0 <= j < bits ->
          bit (r_raw s') j = if (i <=? j) && (j <? i + w) then bit v (j - i) else bit (r_raw s) j
    | _ => False
    end.
Proof.
  intros s s' o i w H. destruct o as [n at_ e c d|n w0 at_ e c d|w0 at_ v|n v|v|]; cbn [r_step] in H.
  - unfold r_flag in H. destruct (r_claim s 1 at_) as [[s1 j]|] eqn:C; [|discriminate].
    pose proof (claim_some _ _ _ _ _ C) as (Ej & _ & _ & _ & _ & Hr & Hf & _).
    destruct (field_ok (r_kind s1) n j 1); [|discriminate]. cbn [option_map] in H.
    assert (j = i) as -> by congruence. assert (w = 1) as -> by congruence.
    assert (s' = with_maps s1 (dset n (mkField n i 1 e c d) (r_fields s1))
                   (dset i (IField (mkField n i 1 e c d)) (r_byidx s1))) as -> by congruence.
    cbn [with_maps r_fields r_byidx r_raw].
    split; [exact Ej|split; [apply dget_dset_eq|split; [apply dget_dset_eq|split; [|exact Hr]]]].
    intros m Hm. rewrite dget_dset_ne by congruence. rewrite Hf. reflexivity.
  - unfold r_field in H. destruct (w0 =? 1); [discriminate|].
    destruct (r_claim s w0 at_) as [[s1 j]|] eqn:C; [|discriminate].
    pose proof (claim_some _ _ _ _ _ C) as (Ej & _ & _ & _ & _ & Hr & Hf & _).
    destruct (field_ok (r_kind s1) n j w0); [|discriminate].
    destruct (dmem n (r_fields s1)); [discriminate|]. cbn [option_map] in H.
    assert (j = i) as -> by congruence. assert (w0 = w) as -> by congruence.
    assert (s' = with_maps s1 (dset n (mkField n i w e c d) (r_fields s1))
                   (dset i (IField (mkField n i w e c d)) (r_byidx s1))) as -> by congruence.
    cbn [with_maps r_fields r_byidx r_raw].
    split; [exact Ej|split; [apply dget_dset_eq|split; [apply dget_dset_eq|split; [|exact Hr]]]].
    intros m Hm. rewrite dget_dset_ne by congruence. rewrite Hf. reflexivity.
  - unfold r_pad in H. destruct (r_claim s w0 at_) as [[s1 j]|] eqn:C; [|discriminate].
    pose proof (claim_some _ _ _ _ _ C) as (Ej & _ & _ & _ & Hk & Hr & Hf & _).
    destruct (base_ok j w0) eqn:B; [|discriminate]. cbn [option_map] in H.
    assert (j = i) as -> by congruence. assert (w0 = w) as -> by congruence.
    assert (s' = with_maps (with_raw s1 (fst (bf_write (r_kind s1) (r_raw s1) i w v)))
                   (r_fields s1) (dset i (IPad w v) (r_byidx s1))) as -> by congruence.
    cbn [with_maps with_raw r_fields r_byidx r_raw].
    split; [exact Ej|split; [apply dget_dset_eq|split; [exact Hf|]]].
    intros bits sg j Hkk Hj. rewrite Hk, Hr. unfold base_ok in B.
    apply (C15_other_bits_unchanged (r_kind s) bits sg); [exact Hkk|lia|lia|exact Hj].
  - discriminate.
  - discriminate.
  - discriminate.
Qed.
Print Assumptions C16_granted_effect.
Example granted_effect_demo :
  exists s', r_step (r_new U8) (OField "m" 3 None (Some (inl "modes")) true (Some "text")) = (s', Some (0, 3)) /\
    dget "m" (r_fields s') = Some (mkField "m" 0 3 (Some (inl "modes")) true (Some "text")).
Proof. eexists. split; reflexivity. Qed.

(** C14.  A new register is zero, assigning it wraps, and writing through a
    name writes exactly the bits of the field of that name. *)
Theorem C14_register_writes :
  forall s,
    (forall k, r_raw (r_new k) = 0 /\ r_kind (r_new k) = k) /\
    (forall v, r_raw (fst (r_step s (ORaw v))) = k_store (r_kind s) v) /\
    (forall n v f bits signed j,
       dget n (r_fields s) = Some f -> int_kind (r_kind s) bits signed ->
       0 <= fl_index f -> 0 <= fl_width f -> 0 <= j < bits ->
       bit (r_raw (fst (r_step s (OWrite n v)))) j =
         if (fl_index f <=? j) && (j <? fl_index f + fl_width f)
         then bit v (j - fl_index f) else bit (r_raw s) j).
Proof.
  intros s. split; [split; reflexivity|split; [reflexivity|]].
  intros n v f bits sg j Hf Hk Hi Hw Hj. cbn [r_step fst]. rewrite Hf. unfold r_write. cbn [with_raw r_raw].
  apply (C15_other_bits_unchanged (r_kind s) bits sg); assumption.
Qed.
Print Assumptions C14_register_writes.
Example register_writes_demo :
  r_raw (fst (r_run (r_new U8) [] [OField "m" 3 (Some 4) None false None; ORaw 257; OWrite "m" 5])) = 81.
Proof. reflexivity. Qed.
