(** Model of runtimepy/codec/system/__init__.py (TypeSystem).

    vcorelib's Namespace is assumed: a name in a namespace is the names of the
    stack and the name itself joined by "::"; [namespace] remembers it unless
    told not to; a child namespace shares the remembered names; [search] is the
    parameter [search] (its properties are stated in TypeSpec.v where needed).
    The enum registry is a dictionary from the name to the enumeration and its
    primitive (C06 is about its identifiers); numbers as enum keys do not
    occur here. *)
From Verif Require Import Base PrimModel StringModel ArrayModel ChainModel RegistryModel EnumModel
  FieldModel ProtoModel.

(** system/__init__.py:25-40: the dictionary from lengths to names, the shortest
    length so far. *)
Fixpoint by_length (l : list string) (shortest : Z) (d : list (Z * list string))
  : Z * list (Z * list string) :=
  match l with
  | [] => (shortest, d)
  | x :: r =>
      let n := Z.of_nat (String.length x) in
      let shortest := if (shortest =? -1) || (n <? shortest) then n else shortest in
      by_length r shortest
        (dset n ((match dget n d with Some xs => xs | None => [] end) ++ [x]) d)
  end.
(** None is the AssertionError or KeyError. *)
Definition resolve_name (l : list string) : option string :=
  let '(shortest, d) := by_length l (-1) [] in
  match dget shortest d with Some [x] => Some x | _ => None end.

(** Names joined by "::". *)
Fixpoint ns_join (l : list string) : string :=
  match l with
  | [] => ""
  | [x] => x
  | x :: r => (x ++ "::" ++ ns_join r)%string
  end.

(** 51-55. *)
Record tsys := mkTs {
  ts_prims : list (string * kind);
  ts_custom : list (string * proto);
  ts_enums : list (string * (renum * kind));
  ts_names : list string
}.

Section Types.
  (** The name pattern of registries, the enumeration of byte orders, the stack
      of the root namespace, and [search]: the remembered names, the stack and
      the pattern. *)
  Context (valid : string -> bool) (byte_orders : renum) (root : list string)
          (search : list string -> list string -> string -> list string).

  Definition full (ns : list string) (name : string) : string := ns_join (root ++ ns ++ [name]).

  (** primitives/types/__init__.py:44-62. *)
  Definition primitive_types : list (string * kind) :=
    [("int8", I8); ("int16", I16); ("int32", I32); ("int64", I64);
     ("uint8", U8); ("uint16", U16); ("uint32", U32); ("uint64", U64);
     ("half", Half); ("float", Float); ("double", Double); ("bool", KBool)].

  Definition byte_order_alias : string := "runtimepy::ByteOrder".

  (** 46-68 [__init__]. *)
  Definition ts_new : tsys :=
    mkTs (primitive_types ++ [(byte_order_alias, U8)]) []
         [(byte_order_alias, (byte_orders, U8))]
         (map fst primitive_types ++ [byte_order_alias]).

  (** 159-189 [_find_name] with the namespace pushed; None is the AssertionError
      of [resolve_name], [Some None] is not found. *)
  Definition ts_find (s : tsys) (name : string) (ns : list string) (exact : bool)
    : option (option string) :=
    if dmem name (ts_prims s) then Some (Some name)
    else
      let candidate := full ns name in
      if dmem candidate (ts_custom s) then Some (Some candidate)
      else
        match filter (fun x => negb exact || String.eqb x candidate)
                     (search (ts_names s) (root ++ ns) name) with
        | [] => Some None
        | [x] => Some (Some x)
        | l => option_map Some (resolve_name l)
        end.
  (** 188: with [strict]; None is the AssertionError (also for an empty name). *)
  Definition ts_strict (s : tsys) (name : string) (ns : list string) (exact : bool)
    : option string :=
    match ts_find s name ns exact with
    | Some (Some x) => if String.eqb x "" then None else Some x
    | _ => None
    end.

  (** 191-207 [_name] with [check_available]; None is the AssertionError. *)
  Definition ts_name (s : tsys) (name : string) (ns : list string) : option (tsys * string) :=
    match ts_find s name ns true with
    | None => None
    | Some found =>
        let candidate := full ns name in
        match found with
        | Some x => if String.eqb candidate x then None
                    else Some (mkTs (ts_prims s) (ts_custom s) (ts_enums s)
                                 (if smem candidate (ts_names s) then ts_names s
                                  else ts_names s ++ [candidate]), candidate)
        | None => Some (mkTs (ts_prims s) (ts_custom s) (ts_enums s)
                          (if smem candidate (ts_names s) then ts_names s
                           else ts_names s ++ [candidate]), candidate)
        end
    end.

  (** 101-108 [register]; the constructor of the protocol registers the
      enumeration "ByteOrder" (codec/protocol/base.py:81-82) in any case.  The
      flag is false when it raises. *)
  Definition ts_register (s : tsys) (name : string) (ns : list string) : tsys * bool :=
    let s := mkTs (ts_prims s) (ts_custom s)
               (if dmem "ByteOrder" (ts_enums s) then ts_enums s
                else ts_enums s ++ [("ByteOrder", (byte_orders, U8))]) (ts_names s) in
    match ts_name s name ns with
    | None => (s, false)
    | Some (s, candidate) =>
        (mkTs (ts_prims s) (dset candidate (pr_new 1 default_byte_order) (ts_custom s))
           (ts_enums s) (ts_names s), true)
    end.

  (** 86-99 [enum] (registry/__init__.py:81-95 [register_dict]), 209-213. *)
  Definition ts_enum (s : tsys) (name : string) (ns : list string) (items : list (entry Z))
      (k : kind) : tsys * bool :=
    match ts_name s name ns with
    | None => (s, false)
    | Some (s, candidate) =>
        if valid candidate && negb (dmem candidate (ts_enums s)) then
          match e_new_int valid items with
          | None => (s, false)
          | Some e =>
              let enums := ts_enums s ++ [(candidate, (e, k))] in
              if dmem candidate (ts_prims s)
              then (mkTs (ts_prims s) (ts_custom s) enums (ts_names s), false)
              else (mkTs (ts_prims s ++ [(candidate, k)]) (ts_custom s) enums (ts_names s), true)
          end
        else (s, false)
    end.

  (** The enum registry as the protocols see it. *)
  Definition enum_fn (s : tsys) (k : ekey) : option renum :=
    match k with inl n => option_map fst (dget n (ts_enums s)) | inr _ => None end.
  Definition prim_fn (s : tsys) (k : ekey) : kind :=
    match k with
    | inl n => match dget n (ts_enums s) with Some (_, k) => k | None => U8 end
    | inr _ => U8
    end.

  (** 119-157 [add]; None when it raises. *)
  Definition ts_add (s : tsys) (custom_type field_name field_type : string)
      (array_length : option Z) (exact : bool) : option tsys :=
    match ts_strict s custom_type [] exact, ts_strict s field_type [] exact with
    | Some tn, Some fn =>
        match dget tn (ts_custom s) with
        | None => None
        | Some custom =>
            let added :=
              match dget fn (ts_enums s) with
              | Some _ =>
                  pr_field valid (enum_fn s) (prim_fn s) custom field_name None (Some (inl fn))
                    array_length true
              | None =>
                  match dget fn (ts_custom s) with
                  | Some inner =>
                      pr_ser valid custom field_name (c_copy (q_chain inner)) array_length
                  | None =>
                      match dget fn (ts_prims s) with
                      | Some k =>
                          pr_field valid (enum_fn s) (prim_fn s) custom field_name (Some k) None
                            array_length true
                      | None => None
                      end
                  end
              end in
            option_map
              (fun p => mkTs (ts_prims s) (dset tn p (ts_custom s)) (ts_enums s) (ts_names s))
              added
        end
    | _, _ => None
    end.

  (** 110-117 [get_protocol]; None when it raises. *)
  Definition ts_protocol (s : tsys) (name : string) (ns : list string) (exact : bool)
    : option proto :=
    match ts_strict s name ns exact with Some x => dget x (ts_custom s) | None => None end.
  (** 70-77 [get_enum]. *)
  Definition ts_get_enum (s : tsys) (name : string) (ns : list string) (exact : bool)
    : option renum :=
    match ts_strict s name ns exact with
    | Some x => option_map fst (dget x (ts_enums s)) | None => None end.

  (** 227-230: the size of the type with a full name. *)
  Definition ts_size_of (s : tsys) (x : string) : option Z :=
    match dget x (ts_prims s) with
    | Some k => Some (Z.of_nat (k_size k))
    | None => option_map pr_size (dget x (ts_custom s))
    end.
  (** 215-234 [size]; None when it raises. *)
  Definition ts_size (s : tsys) (name : string) (ns : list string) (exact : bool) : option Z :=
    match ts_strict s name ns exact with Some x => ts_size_of s x | None => None end.

  (** ** Histories *)
  Inductive top :=
  | TReg (name : string) (ns : list string)
  | TEnum (name : string) (ns : list string) (items : list (entry Z)) (k : kind)
  | TAdd (custom_type field_name field_type : string) (array_length : option Z) (exact : bool).

  (** What a call that returned has done: the type it made or the types it
      named. *)
  Inductive tev :=
  | EvNew (name : string)
  | EvEnum (name : string) (k : kind)
  | EvAdd (name field_type : string) (count : Z).

  Definition ts_step (s : tsys) (o : top) : tsys * list tev :=
    match o with
    | TReg name ns =>
        let '(s', ok) := ts_register s name ns in (s', if (ok : bool) then [EvNew (full ns name)] else [])
    | TEnum name ns items k =>
        let '(s', ok) := ts_enum s name ns items k in
        (s', if (ok : bool) then [EvEnum (full ns name) k] else [])
    | TAdd ct fn ft l exact =>
        match ts_add s ct fn ft l exact, ts_strict s ct [] exact, ts_strict s ft [] exact with
        | Some s', Some tn, Some fn =>
            (s', [EvAdd tn fn (match l with Some n => Z.max 1 n | None => 1 end)])
        | _, _, _ => (s, [])
        end
    end.
  Fixpoint ts_run (s : tsys) (ops : list top) : tsys * list tev :=
    match ops with
    | [] => (s, [])
    | o :: r => let '(s1, e1) := ts_step s o in let '(s2, e2) := ts_run s1 r in (s2, e1 ++ e2)
    end.
End Types.
