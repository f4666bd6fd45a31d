(** Specification vocabulary for C20 and C21. *)
From Verif Require Import Base PrimModel PrimSpec StringModel ArrayModel ArraySpec ChainModel.

(** Chains a program can build: single members, chaining, adding elements
    through a head array, copying, and reading from streams. *)
Inductive reach (native_le : bool) : chain -> Prop :=
| R_arr : forall a, a_reachable native_le a -> reach native_le [NArr a]
| R_fix : forall d, is_bytes d -> reach native_le [NFix d]
| R_pre : forall k bits bo v data c c',
    int_kind k bits false -> pc_new k bo v = Some c -> is_bytes data ->
    pc_update c data = (c', true) -> reach native_le [NPre c']
| R_add_to_end : forall c o n,
    reach native_le c -> reach native_le o -> reach native_le (fst (c_add_to_end c o n))
| R_add : forall a r p n,
    reach native_le (NArr a :: r) -> p_ok p ->
    reach native_le (c_add (a_order a) (NArr a :: r) p n)
| R_copy : forall c, reach native_le c -> reach native_le (c_copy c)
| R_read : forall c l,
    reach native_le c -> is_bytes l ->
    snd (c_from_stream native_le c l) <> RAssert ->
    reach native_le (fst (c_from_stream native_le c l)).

(** No member uses the padded native layout. *)
Definition n_standard (n : node) : Prop :=
  match n with NArr a => standard (a_order a) | _ => True end.
Definition c_standard (c : chain) : Prop := Forall n_standard c.

(** Same classes, element kinds, byte orders and fixed sizes; variable-size
    members only share the prefix kind. *)
Definition n_shape (m n : node) : Prop :=
  match m, n with
  | NArr a, NArr b => same_kinds a b /\ a_order a = a_order b
  | NFix d, NFix e => zlen d = zlen e
  | NPre c, NPre d => pc_kind c = pc_kind d /\ pc_order c = pc_order d
  | _, _ => False
  end.
Definition c_shape (c d : chain) : Prop := Forall2 n_shape c d.

(** The data held: element values, or bytes. *)
Definition n_content (n : node) : list Z :=
  match n with NArr a => map p_val (a_elems a) | NFix d => d | NPre c => pc_data c end.

(** C20: the samples of a history, in order. *)
Definition samples (cs : list cap) : list (list Z) :=
  map cp_bytes (filter cp_sample cs).
