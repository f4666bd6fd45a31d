(** Specification vocabulary for C17-C19. *)
From Verif Require Import Base PrimModel PrimSpec ArrayModel.

(** A primitive holding a value of its kind (always so: assignment wraps). *)
Definition p_ok (p : prim) : Prop := k_value (p_kind p) (p_val p).

Definition op_ok (o : aop) : Prop :=
  match o with
  | AAdd p _ => p_ok p
  | AUpdate d => is_bytes d
  | AUpdateFrag _ d => is_bytes d
  | _ => True
  end.

Definition a_reachable (native_le : bool) (a : arr) : Prop :=
  exists bo ops, Forall op_ok ops /\ a = a_run native_le (a_empty bo) ops.

(** Byte orders without alignment. *)
Definition standard (bo : byte_order) : Prop := bo <> Native.

(** Sum of the wire sizes of a list of elements. *)
Definition total_size (l : list prim) : Z :=
  fold_right (fun p n => Z.of_nat (wire_size (p_kind p)) + n) 0 l.

Definition same_kinds (a b : arr) : Prop :=
  map p_kind (a_elems a) = map p_kind (a_elems b).

Definition no_bool (a : arr) : Prop :=
  Forall (fun p => p_kind p <> KBool) (a_elems a).
