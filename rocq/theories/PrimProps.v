(** Properties C07 and C08: primitive storage and wire encoding. *)
From Verif Require Import Base PrimModel PrimSpec PrimProofs.

(** C07.  Assigning any integer stores the unique representable value congruent
    to it modulo 2^bits, and the value itself when it is representable. *)
Theorem C07_store_is_wrap :
  forall k bits signed v,
    int_kind k bits signed ->
    representable bits signed (k_store k v) /\
    (k_store k v - v) mod 2 ^ bits = 0 /\
    (forall w, representable bits signed w -> (w - v) mod 2 ^ bits = 0 -> w = k_store k v) /\
    (representable bits signed v -> k_store k v = v).
Proof. exact store_spec. Qed.
Print Assumptions C07_store_is_wrap.

(** C08.  Encoding a value the kind can hold gives exactly its size in bytes,
    and decoding gives the value back, in every byte order on every host. *)
Theorem C08_decode_encode :
  forall native_le k bo v,
    k_value k v ->
    exists bs, k_encode native_le k bo v = Some bs /\
      List.length bs = wire_size k /\ is_bytes bs /\
      k_decode native_le k bo bs = Some v.
Proof.
  intros native_le k bo v Hv. eexists. split; [apply encode_some; exact Hv|].
  split; [rewrite order_length, le_bytes_length; destruct k; reflexivity|].
  split; [apply order_is_bytes, le_bytes_is_bytes|].
  eapply decode_encode; [exact Hv|apply encode_some; exact Hv].
Qed.
Print Assumptions C08_decode_encode.

(** C08.  Decoding any byte string of the right size gives a value of the kind,
    and encoding that value gives the bytes back (booleans excepted: any
    non-zero byte decodes to true). *)
Theorem C08_encode_decode :
  forall native_le k bo bs v,
    is_bytes bs -> k_decode native_le k bo bs = Some v ->
    k_value k v /\ (k <> KBool -> k_encode native_le k bo v = Some bs).
Proof.
  intros native_le k bo bs v Hb H. split; [eapply decode_value; eauto|].
  intros Hk. eapply encode_decode; eauto.
Qed.
Print Assumptions C08_encode_decode.

(** C08.  Decoding fails exactly on a wrong length; encoding fails exactly on a
    value outside the range. *)
Theorem C08_errors :
  forall native_le k bo,
    (forall bs, (exists v, k_decode native_le k bo bs = Some v) <->
                List.length bs = wire_size k) /\
    (forall v, k <> KBool -> (k_encode native_le k bo v = None <-> ~ k_value k v)).
Proof.
  intros native_le k bo. split.
  - intros bs. rewrite decode_length_iff. destruct k; reflexivity.
  - intros v Hk. apply encode_raises; exact Hk.
Qed.
Print Assumptions C08_errors.

(** C08.  Positional meaning: little-endian byte [i] is the i-th base-256
    digit; big-endian is the reverse; network is big-endian; native is the
    host's. *)
Theorem C08_byte_order :
  forall native_le k v le be,
    k_value k v ->
    k_encode native_le k LittleEndian v = Some le ->
    k_encode native_le k BigEndian v = Some be ->
    (forall i, (i < wire_size k)%nat -> nth i le 0 = v / 256 ^ Z.of_nat i mod 256) /\
    be = rev le /\ k_encode native_le k Network v = Some be /\
    k_encode native_le k Native v = Some (if native_le then le else be).
Proof.
  intros native_le k v le be Hv H1 H2. split.
  - intros i Hi. eapply encode_nth; eauto.
  - apply encode_be_le; assumption.
Qed.
Print Assumptions C08_byte_order.

(** C08 on primitives: the bytes of one primitive load its value into any other
    of the same kind. *)
Theorem C08_primitive_transfer :
  forall native_le p q bo data,
    p_kind q = p_kind p -> k_value (p_kind p) (p_val p) ->
    p_binary native_le bo p = Some data ->
    List.length data = wire_size (p_kind p) /\
    p_update native_le bo q data = Some p.
Proof. exact transfer. Qed.
Print Assumptions C08_primitive_transfer.

Example store_demo : int_kind I8 8 true /\ k_store I8 300 = 44 /\ k_store I8 200 = -56.
Proof. repeat split; constructor. Qed.
Example encode_demo :
  k_value I16 (-2) /\ k_encode true I16 Network (-2) = Some [255; 254] /\
  k_encode true I16 Native (-2) = Some [254; 255] /\
  k_decode true I16 Network [255; 254] = Some (-2) /\ k_encode true U8 Network 256 = None.
Proof. repeat split; vm_compute; congruence. Qed.
(** The boolean exception is real: byte 7 decodes to true, which encodes to 1. *)
Example bool_demo :
  k_decode true KBool Network [7] = Some 1 /\ k_encode true KBool Network 1 = Some [1].
Proof. split; reflexivity. Qed.

(** C07.  [increment] stores the wrapped sum and returns the plain sum: the two
    are equal exactly when the sum is representable. *)
Theorem C07_increment :
  forall p amount bits signed,
    int_kind (p_kind p) bits signed ->
    let '(p', returned) := p_increment p amount in
    p_kind p' = p_kind p /\ returned = p_val p + amount /\
    representable bits signed (p_val p') /\
    (p_val p' - (p_val p + amount)) mod 2 ^ bits = 0 /\
    (returned = p_val p' <-> representable bits signed (p_val p + amount)).
Proof.
  intros p amount bits signed Hk. cbn. 
  destruct (C07_store_is_wrap (p_kind p) bits signed (p_val p + amount) Hk) as (A & B & C & D).
  split; [reflexivity|]. split; [reflexivity|]. split; [exact A|]. split; [exact B|]. split.
  - intros E. rewrite E. exact A.
  - intros E. symmetry. apply D. exact E.
Qed.
Print Assumptions C07_increment.
Example increment_demo :
  p_increment (p_new U8 250) 5 = (p_new U8 255, 255) /\
  p_increment (p_new U8 250) 6 = (p_new U8 0, 256).
Proof. split; reflexivity. Qed.

(** C07.  [toggle] swaps a boolean between its two values. *)
Theorem C07_toggle :
  forall p, p_kind p = KBool ->
    k_value KBool (p_val (p_toggle p)) /\
    (p_val p = 0 -> p_val (p_toggle p) = 1) /\ (p_val p = 1 -> p_val (p_toggle p) = 0).
Proof.
  intros [k v] H. cbn in H. subst k. unfold p_toggle, p_set. cbn.
  destruct (v =? 0) eqn:E; cbn; (split; [auto|split; lia]).
Qed.
Print Assumptions C07_toggle.
Example toggle_demo : p_toggle (p_new KBool 1) = p_new KBool 0.
Proof. reflexivity. Qed.

(** The kinds split in three: integers, booleans and floating point. *)
Theorem C07_kinds :
  forall k,
    (k_is_int k = true <-> exists bits signed, int_kind k bits signed) /\
    (k_is_float k = true <-> float_kind k).
Proof.
  intros k. unfold float_kind. destruct k; cbn; (split; split; intros H; try discriminate; try reflexivity;
    try (eexists _, _; constructor); auto; try (destruct H as [? [? H]]; inversion H);
    try (destruct H as [H|[H|H]]; discriminate)).
Qed.
Print Assumptions C07_kinds.

(** C07.  A primitive made with a value holds what an assignment of it stores,
    and a copy of a primitive holds the same value. *)
Theorem C07_new_and_copy :
  forall k v,
    p_kind (p_new k v) = k /\ k_value k (p_val (p_new k v)) /\
    (k_value k v -> p_val (p_new k v) = v) /\
    (forall p, p_val (p_set p v) = p_val (p_new (p_kind p) v)) /\
    (forall p, k_value (p_kind p) (p_val p) -> p_copy p = p).
Proof.
  intros k v. unfold p_copy, p_new, p_set. cbn [p_kind p_val].
  split; [reflexivity|split; [apply store_value|split; [apply store_id|split; [reflexivity|]]]].
  intros [k0 v0] H. cbn [p_kind p_val] in *. rewrite (store_id _ _ H). reflexivity.
Qed.
Print Assumptions C07_new_and_copy.
Example new_copy_demo :
  p_val (p_new U8 300) = 44 /\ k_value U8 44 /\ p_copy (p_new U8 300) = p_new U8 300.
Proof. vm_compute. intuition congruence. Qed.

(** C08.  Without an explicit byte order the most significant byte comes
    first, whatever the host. *)
Theorem C08_default_order :
  forall native_le k v bs,
    k_value k v -> k_encode native_le k default_byte_order v = Some bs ->
    forall i, (i < wire_size k)%nat ->
      nth i bs 0 = v / 256 ^ Z.of_nat (wire_size k - 1 - i) mod 256.
Proof.
  intros native_le k v bs Hv H i Hi.
  destruct (C08_decode_encode native_le k LittleEndian v Hv) as (le & E1 & L1 & _).
  destruct (C08_decode_encode native_le k BigEndian v Hv) as (be & E2 & L2 & _).
  destruct (C08_byte_order native_le k v le be Hv E1 E2) as (A & B & C & _).
  unfold default_byte_order in H. rewrite C in H. injection H as <-. subst be.
  rewrite rev_nth by lia. rewrite L1.
  replace (wire_size k - S i)%nat with (wire_size k - 1 - i)%nat by lia.
  apply A. lia.
Qed.
Print Assumptions C08_default_order.
Example default_order_demo :
  k_encode true U16 default_byte_order 258 = Some [1; 2] /\ k_value U16 258.
Proof. vm_compute. intuition congruence. Qed.

(** C07.  Clamping gives the value within the bounds nearest to the given one,
    and validation accepts exactly the values clamping keeps. *)
Theorem C07_clamp :
  forall lo hi v, lo <= hi ->
    lo <= b_clamp (lo, hi) v <= hi /\
    (forall w, lo <= w <= hi -> Z.abs (b_clamp (lo, hi) v - v) <= Z.abs (w - v)) /\
    (b_validate (lo, hi) v = true <-> lo <= v <= hi) /\
    (b_validate (lo, hi) v = true <-> b_clamp (lo, hi) v = v).
Proof.
  intros lo hi v H. unfold b_clamp, b_validate. cbn [fst snd].
  split; [lia|split; [intros w Hw; lia|split; lia]].
Qed.
Print Assumptions C07_clamp.
Example clamp_demo : b_clamp (0, 255) 300 = 255 /\ b_clamp (0, 255) (-3) = 0.
Proof. split; reflexivity. Qed.
