(** Specification vocabulary for primitive storage and encoding. *)
From Verif Require Import Base PrimModel.

(** Width in bits and signedness of the eight integer kinds, as a table. *)
Inductive int_kind : kind -> Z -> bool -> Prop :=
| ik_i8 : int_kind I8 8 true | ik_i16 : int_kind I16 16 true
| ik_i32 : int_kind I32 32 true | ik_i64 : int_kind I64 64 true
| ik_u8 : int_kind U8 8 false | ik_u16 : int_kind U16 16 false
| ik_u32 : int_kind U32 32 false | ik_u64 : int_kind U64 64 false.

(** The representable interval. *)
Definition representable (bits : Z) (signed : bool) (v : Z) : Prop :=
  if signed then - 2 ^ (bits - 1) <= v < 2 ^ (bits - 1) else 0 <= v < 2 ^ bits.

(** Values a primitive of a kind can hold. *)
Definition k_value (k : kind) (v : Z) : Prop :=
  match k with
  | KBool => v = 0 \/ v = 1
  | Half => 0 <= v < 2 ^ 16
  | Float => 0 <= v < 2 ^ 32
  | Double => 0 <= v < 2 ^ 64
  | I8 => representable 8 true v | I16 => representable 16 true v
  | I32 => representable 32 true v | I64 => representable 64 true v
  | U8 => representable 8 false v | U16 => representable 16 false v
  | U32 => representable 32 false v | U64 => representable 64 false v
  end.

(** Number of bytes on the wire, as a table. *)
Definition wire_size (k : kind) : nat :=
  match k with
  | I8 => 1 | I16 => 2 | I32 => 4 | I64 => 8
  | U8 => 1 | U16 => 2 | U32 => 4 | U64 => 8
  | KBool => 1 | Half => 2 | Float => 4 | Double => 8
  end%nat.

(** The floating-point kinds. *)
Definition float_kind (k : kind) : Prop := k = Half \/ k = Float \/ k = Double.
