(** Model of primitive kinds: storage (ctypes) and wire encoding (struct).

    runtimepy/primitives/types/*.py, primitives/byte_order.py and the
    conversion methods of primitives/base.py.

    Floating-point values are represented by their IEEE-754 bit pattern (an
    integer below 2^(8*size)); Python's float arithmetic is not modelled here. *)
From Verif Require Import Base.

(** primitives/types/int.py:18-151, bool.py:10-23, float.py:11-58. *)
Inductive kind :=
| I8 | I16 | I32 | I64
| U8 | U16 | U32 | U64
| KBool | Half | Float | Double.

(** types/base.py:83 [size = calcsize(format)] for the formats
    b h i q B H I Q ? e f d. *)
Definition k_size (k : kind) : nat :=
  match k with
  | I8 | U8 | KBool => 1
  | I16 | U16 | Half => 2
  | I32 | U32 | Float => 4
  | I64 | U64 | Double => 8
  end%nat.

(** The [signed] constructor argument (types/base.py:73, int.py). *)
Definition k_signed (k : kind) : bool :=
  match k with
  | I8 | I16 | I32 | I64 | Half | Float | Double => true
  | U8 | U16 | U32 | U64 | KBool => false
  end.

(** types/base.py:96-101 [is_integer]. *)
Definition k_is_int (k : kind) : bool :=
  match k with KBool | Half | Float | Double => false | _ => true end.
Definition k_is_float (k : kind) : bool :=
  match k with Half | Float | Double => true | _ => false end.

(** types/base.py:84 [bits]. *)
Definition k_bits (k : kind) : Z := 8 * Z.of_nat (k_size k).

(** types/bounds.py:28-34 [IntegerBounds.create]. *)
Definition bounds_create (byte_count : Z) (signed : bool) : Z * Z :=
  let min_val := if signed then -1 * 2 ^ (byte_count * 8 - 1) else 0 in
  let width := if signed then 8 * byte_count - 1 else 8 * byte_count in
  (min_val, 2 ^ width - 1).

(** types/int.py: [int_bounds]; None for bool and floats. *)
Definition k_bounds (k : kind) : option (Z * Z) :=
  if k_is_int k then Some (bounds_create (Z.of_nat (k_size k)) (k_signed k)) else None.

(** bounds.py:16-18 [validate]. *)
Definition b_validate (b : Z * Z) (v : Z) : bool := (fst b <=? v) && (v <=? snd b).
(** bounds.py:20-26 [clamp]. *)
Definition b_clamp (b : Z * Z) (v : Z) : Z := Z.max (fst b) (Z.min v (snd b)).

(** ctypes assignment [raw.value = v] (primitives/base.py:165): integers are
    truncated to the width, sign bit interpreted when signed; booleans become
    0/1.  Floats: the bit pattern itself (conversion from a Python double to
    float is not modelled; the modulus only makes the function total). *)
Definition k_store (k : kind) (v : Z) : Z :=
  match k with
  | KBool => if v =? 0 then 0 else 1
  | Half | Float | Double => v mod 2 ^ k_bits k
  | _ =>
      let m := v mod 2 ^ k_bits k in
      if k_signed k && (2 ^ (k_bits k - 1) <=? m) then m - 2 ^ k_bits k else m
  end.

(** primitives/byte_order.py:9-31.  NATIVE depends on the host; [native_le]
    is the host's endianness ("@" on a single scalar adds no padding). *)
Inductive byte_order := Native | LittleEndian | BigEndian | Network.

(** primitives/byte_order.py:34. *)
Definition default_byte_order : byte_order := Network.

Section Host.
  Context (native_le : bool).

  Definition is_le (bo : byte_order) : bool :=
    match bo with
    | Native => native_le
    | LittleEndian => true
    | BigEndian | Network => false
    end.

  (** [struct] positional encoding, least significant byte first. *)
  Fixpoint le_bytes (n : nat) (v : Z) : list Z :=
    match n with
    | O => []
    | S n' => v mod 256 :: le_bytes n' (v / 256)
    end.
  Fixpoint le_value (l : list Z) : Z :=
    match l with
    | [] => 0
    | b :: l' => b + 256 * le_value l'
    end.

  Definition order_bytes (bo : byte_order) (l : list Z) : list Z :=
    if is_le bo then l else rev l.

  (** Values [struct.pack] accepts for the format (struct.error otherwise):
      integers in bounds; any truth value for "?"; any bit pattern. *)
  Definition k_accepts (k : kind) (v : Z) : bool :=
    match k with
    | KBool => true
    | Half | Float | Double => (0 <=? v) && (v <? 2 ^ k_bits k)
    | _ => match k_bounds k with Some b => b_validate b v | None => false end
    end.

  (** types/base.py:128-134 [encode]: None is struct.error. *)
  Definition k_encode (k : kind) (bo : byte_order) (v : Z) : option (list Z) :=
    if k_accepts k v
    then Some (order_bytes bo
                 (le_bytes (k_size k) (match k with KBool => if v =? 0 then 0 else 1 | _ => v end)))
    else None.

  (** types/base.py:136-140 [decode]: None is struct.error (wrong length). *)
  Definition k_decode (k : kind) (bo : byte_order) (data : list Z) : option Z :=
    if Nat.eqb (List.length data) (k_size k) then
      let u := le_value (order_bytes bo data) in
      Some (match k with
            | KBool => if u =? 0 then 0 else 1
            | Half | Float | Double => u
            | _ => if k_signed k && (2 ^ (k_bits k - 1) <=? u) then u - 2 ^ k_bits k else u
            end)
    else None.

  (** A primitive without its callbacks: kind and raw value
      (primitives/base.py:60-66). *)
  Record prim := mkPrim { p_kind : kind; p_val : Z }.

  (** primitives/base.py:223-231 [binary] / [__bytes__]. *)
  Definition p_binary (bo : byte_order) (p : prim) : option (list Z) :=
    k_encode (p_kind p) bo (p_val p).
  (** primitives/base.py:156-166 [set_value], storage only. *)
  Definition p_set (p : prim) (v : Z) : prim := mkPrim (p_kind p) (k_store (p_kind p) v).
  (** primitives/base.py:241-250 [update]: None is struct.error. *)
  Definition p_update (bo : byte_order) (p : prim) (data : list Z) : option prim :=
    match k_decode (p_kind p) bo data with
    | Some v => Some (p_set p v)
    | None => None
    end.
  (** primitives/base.py:52-69 [__init__] for an explicit value. *)
  Definition p_new (k : kind) (v : Z) : prim := mkPrim k (k_store k v).
  (** primitives/int.py:36-41 [increment]: the returned value is the unwrapped
      sum. *)
  Definition p_increment (p : prim) (amount : Z) : prim * Z :=
    (p_set p (p_val p + amount), p_val p + amount).
  (** primitives/bool.py:21-31. *)
  Definition p_toggle (p : prim) : prim := p_set p (if p_val p =? 0 then 1 else 0).
  (** primitives/base.py:94-96 [__copy__] (scaling and time source dropped). *)
  Definition p_copy (p : prim) : prim := p_new (p_kind p) (p_val p).
End Host.
