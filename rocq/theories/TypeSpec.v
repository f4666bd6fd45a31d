(** Specification vocabulary for C53: type systems. *)
From Verif Require Import Base PrimModel StringModel ArrayModel ChainModel RegistryModel EnumModel
  FieldModel ProtoModel TypeModel.

(** What is assumed of Namespace.search (names that match themselves as
    patterns): it finds remembered names only, each once, and finds the name in
    the current namespace if that is remembered. *)
Definition search_ok (search : list string -> list string -> string -> list string) : Prop :=
  forall names stack pattern,
    (forall x, In x (search names stack pattern) -> In x names) /\
    (NoDup names -> NoDup (search names stack pattern)) /\
    (In (ns_join (stack ++ [pattern])) names ->
     In (ns_join (stack ++ [pattern])) (search names stack pattern)).

(** The names every type system starts with. *)
Definition predefined : list string := map fst primitive_types ++ [byte_order_alias].

(** Sizes by name: primitives have theirs, a new type has none, and every field
    added contributes count times the size its type has at that time. *)
Definition tally_step (d : list (string * Z)) (e : tev) : list (string * Z) :=
  match e with
  | EvNew x => dset x 0 d
  | EvEnum x k => dset x (Z.of_nat (k_size k)) d
  | EvAdd x f n =>
      match dget x d, dget f d with Some t, Some z => dset x (t + n * z) d | _, _ => d end
  end.
Definition base_sizes : list (string * Z) :=
  map (fun nk => (fst nk, Z.of_nat (k_size (snd nk)))) (primitive_types ++ [(byte_order_alias, U8)]).
Definition tally (evs : list tev) : list (string * Z) := fold_left tally_step evs base_sizes.

(** The types made. *)
Definition made_types (evs : list tev) : list string :=
  flat_map (fun e => match e with EvNew x => [x] | EvEnum x _ => [x] | EvAdd _ _ _ => [] end) evs.

Section Types.
  Context (root : list string).

  (** The full names of all calls that register a type or an enumeration,
      whether they return or raise. *)
  Definition attempted (ops : list top) : list string :=
    flat_map (fun o => match o with
                       | TReg n ns => [full root ns n]
                       | TEnum n ns _ _ => [full root ns n]
                       | TAdd _ _ _ _ _ => [] end) ops.
  Definition enum_attempts (ops : list top) : list string :=
    flat_map (fun o => match o with TEnum n ns _ _ => [full root ns n] | _ => [] end) ops.

  (** A name given in a registration is not the full name of a primitive or of
      an enumeration, unless that is also its own full name; and no type gets
      the full name "ByteOrder", which the library gives to an enumeration. *)
  Definition clear (aliases : list string) (o : top) : Prop :=
    match o with
    | TReg n ns | TEnum n ns _ _ =>
        (In n (predefined ++ aliases) -> full root ns n = n) /\ full root ns n <> "ByteOrder"
    | TAdd _ _ _ _ _ => True
    end.
  Definition unshadowed (ops : list top) : Prop := Forall (clear (enum_attempts ops)) ops.
End Types.
