(** Property C11: scaled values. *)
From Coq Require Import QArith Qabs.
From Verif Require Import Base PrimModel PrimSpec ScalingModel ScalingSpec ScalingProofs.

(** C11.  Whatever value is requested, the scaled setter of an integer
    primitive stores the representable integer nearest to the unscaled request
    (so it is never out of bounds and never wraps). *)
Theorem C11_scaled_set_nearest :
  forall k bits signed offset slope (value : Q),
    int_kind k bits signed -> ~ (slope == 0)%Q ->
    exists v, p_set_scaled k [offset; slope] value = Some v /\
      nearest (representable bits signed) ((value - offset) / slope)%Q v.
Proof.
  intros k bits signed o s value Hk Hs.
  destruct (s_invert value [o; s]) as [q|] eqn:E.
  - destruct (set_scaled_nearest k bits signed [o; s] value q Hk E) as (v & A & B).
    exists v. split; [exact A|]. eapply nearest_compat; [|exact B].
    apply (invert_linear _ _ _ _ E).
  - apply invert_raises in E. destruct E as [E|(o' & s' & E & Hz)]; [cbn in E; lia|].
    injection E as <- <-. contradiction.
Qed.
Print Assumptions C11_scaled_set_nearest.

(** C11.  Without scaling the same holds of the value itself. *)
Theorem C11_unscaled_set_nearest :
  forall k bits signed (value : Q),
    int_kind k bits signed ->
    exists v, p_set_scaled k [] value = Some v /\
      nearest (representable bits signed) value v.
Proof.
  intros k bits signed value Hk. exact (set_scaled_nearest k bits signed [] value value Hk eq_refl).
Qed.
Print Assumptions C11_unscaled_set_nearest.

(** C11.  Every raw value survives: reading it scaled and setting that back
    restores it exactly (linear scaling). *)
Theorem C11_scaled_roundtrip :
  forall k bits signed offset slope w,
    int_kind k bits signed -> representable bits signed w -> ~ (slope == 0)%Q ->
    p_set_scaled k [offset; slope] (p_get_scaled w [offset; slope]) = Some w.
Proof.
  intros k bits signed o s w Hk Hw Hs. apply (scaled_roundtrip k bits signed); auto.
  - discriminate.
  - intros E. apply invert_raises in E. destruct E as [E|(o' & s' & E & Hz)]; [cbn in E; lia|].
    injection E as <- <-. contradiction.
Qed.
Print Assumptions C11_scaled_roundtrip.

(** C11.  A request between two representable points is read back within half
    a slope. *)
Theorem C11_scaled_error_bound :
  forall k bits signed offset slope value v,
    int_kind k bits signed -> ~ (slope == 0)%Q ->
    (exists lo hi, representable bits signed lo /\ representable bits signed hi /\
       (inject_Z lo <= (value - offset) / slope <= inject_Z hi)%Q) ->
    p_set_scaled k [offset; slope] value = Some v ->
    (Qabs (p_get_scaled v [offset; slope] - value) <= Qabs slope * (1 # 2))%Q.
Proof. exact scaled_error. Qed.
Print Assumptions C11_scaled_error_bound.

(** C11.  Reading applies the scaling polynomial, of any degree; inverting
    raises exactly for more than two terms or a zero slope. *)
Theorem C11_apply_is_polynomial :
  forall x cs, cs <> [] -> (s_apply x cs == poly cs x)%Q.
Proof. exact apply_poly. Qed.
Print Assumptions C11_apply_is_polynomial.
Theorem C11_invert_raises_iff :
  forall value scaling,
    s_invert value scaling = None <->
    (2 < List.length scaling)%nat \/ (exists o s, scaling = [o; s] /\ (s == 0)%Q).
Proof. exact invert_raises. Qed.
Print Assumptions C11_invert_raises_iff.

(** C11, false for one-term scalings: [invert] treats [offset] as "unit slope"
    but [apply] as the constant polynomial, so values do not survive. *)
Theorem C11_one_term_scaling_refuted :
  ~ (forall k bits signed scaling w,
       int_kind k bits signed -> representable bits signed w ->
       s_invert (p_get_scaled w scaling) scaling <> None ->
       p_set_scaled k scaling (p_get_scaled w scaling) = Some w).
Proof.
  intros H. specialize (H U8 8 false [3%Q] 9 ik_u8).
  assert (C : p_set_scaled U8 [3%Q] (p_get_scaled 9 [3%Q]) = Some 9).
  { apply H; [cbn; lia|discriminate]. }
  vm_compute in C. discriminate C.
Qed.
Print Assumptions C11_one_term_scaling_refuted.

(** Concrete cases: uint8 with y = 10 + 2x; a request far out of range clamps to
    255, a request of 15 (raw 2.5) goes to 2 (ties to even). *)
Example scaling_demo :
  int_kind U8 8 false /\ ~ (2 == 0)%Q /\
  p_set_scaled U8 [10%Q; 2%Q] 1000000 = Some 255 /\
  p_set_scaled U8 [10%Q; 2%Q] (-7) = Some 0 /\
  p_set_scaled U8 [10%Q; 2%Q] 15 = Some 2 /\
  (p_get_scaled 3 [10%Q; 2%Q] == 16)%Q.
Proof. repeat split; try constructor; vm_compute; try congruence. Qed.

(** C11.  With a single offset, setting stores the point nearest to the value
    less the offset (a slope of one). *)
Theorem C11_offset_set_nearest :
  forall k bits signed offset (value : Q),
    int_kind k bits signed ->
    exists v, p_set_scaled k [offset] value = Some v /\
      nearest (representable bits signed) (value - offset)%Q v.
Proof.
  intros k bits signed o value Hk.
  destruct (set_scaled_nearest k bits signed [o] value _ Hk eq_refl) as (v & A & B).
  exists v. split; [exact A|]. eapply nearest_compat; [|exact B]. field.
Qed.
Print Assumptions C11_offset_set_nearest.
