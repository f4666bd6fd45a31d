(** Specification vocabulary for C52 and C66: protocols. *)
From Verif Require Import Base PrimModel PrimSpec StringModel ArrayModel ChainModel RegistryModel
  EnumModel EnumSpec FieldModel FieldSpec ProtoModel.

(** An [array_length] argument that adds one element. *)
Definition single (l : option Z) : Prop := match l with Some n => n <= 1 | None => True end.

(** Calls that define fields without arrays and serializables; the widths of
    bit fields and the kind of their primitive are what their constructors
    take. *)
Definition plain_op (o : pop) : Prop :=
  match o with
  | PField _ _ _ l => single l
  | PBits k ops => (exists bits, int_kind k bits false) /\ Forall (op_width_ge 1) ops
  | PSer _ _ _ => False
  | _ => True
  end.

(** The names given to regular fields. *)
Definition field_names (ops : list pop) : list string :=
  flat_map (fun o => match o with PField n _ _ _ => [n] | _ => [] end) ops.
Definition ser_names (ops : list pop) : list string :=
  flat_map (fun o => match o with PSer n _ _ => [n] | _ => [] end) ops.

(** Every enumeration of the registry was made by its own API. *)
Definition enums_ok (enums : ekey -> option renum) : Prop :=
  forall k e, enums k = Some e -> exists valid, e_reachable valid e.

(** Every entry of every bit-fields object can be loaded again. *)
Definition all_loadable (word : string -> bool) (p : proto) : Prop :=
  forall b, In b (q_bits p) -> Forall (loadable word) (r_byidx (b_regs b)).

(** No bit is set outside the named fields of the bit-fields objects. *)
Definition all_clean (p : proto) : Prop :=
  forall b j, In b (q_bits p) -> 0 <= j ->
    bit (r_raw (cur_regs (q_chain p) b)) j = true -> in_field (b_regs b) j.

Section Proto.
  Context (valid : string -> bool) (int_of : string -> option Z)
          (bool_of : string -> option bool) (enums : ekey -> option renum)
          (eprim : ekey -> kind) (native_le : bool).

  Notation run := (pr_run valid int_of bool_of enums eprim native_le).

  (** What a user sees of a protocol: its byte order, size, bytes and values. *)
  Definition same_view (p q : proto) : Prop :=
    q_order p = q_order q /\ pr_size p = pr_size q /\
    pr_bytes native_le p = pr_bytes native_le q /\
    forall n, pr_value p n = pr_value q n.

  (** No further calls (definitions, assignments, received data) tell the two
      protocols apart. *)
  Definition same_protocol (p q : proto) : Prop :=
    forall ops,
      match run p ops, run q ops with
      | Some p', Some q' => same_view p' q'
      | None, None => True
      | _, _ => False
      end.
End Proto.

(** Calls without serializables; [sized] also has one element per field. *)
Definition no_ser (o : pop) : Prop :=
  match o with
  | PBits k ops => (exists bits, int_kind k bits false) /\ Forall (op_width_ge 1) ops
  | PSer _ _ _ => False
  | _ => True
  end.
Definition one_element (o : pop) : Prop :=
  match o with PField _ _ _ l => single l | _ => True end.

(** Calls whose serializables are single chunks (of fixed length, or with a
    length prefix), not repeated. *)
Definition chunk_op (o : pop) : Prop :=
  match o with
  | PBits k ops => (exists bits, int_kind k bits false) /\ Forall (op_width_ge 1) ops
  | PSer _ c l => single l /\ ((exists d, c = [NFix d]) \/ (exists x, c = [NPre x]))
  | _ => True
  end.
Definition fixed_op (o : pop) : Prop :=
  match o with PSer _ c _ => exists d, c = [NFix d] | _ => True end.

(** The received data fills the whole protocol. *)
Definition fills (native_le : bool) (p : proto) (data : list Z) : Prop :=
  exists rest count, snd (c_from_stream native_le (q_chain p) data) = ROk rest count.
Definition received (native_le : bool) (p : proto) (data : list Z) : proto :=
  with_chain p (fst (c_from_stream native_le (q_chain p) data)).
