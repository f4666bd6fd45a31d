(** Model of runtimepy/codec/protocol/{base,json}.py (protocols: named fields
    over one chain of serializables) with the bit-fields manager
    primitives/field/manager/{base,__init__}.py they use.

    Objects are represented by positions: a regular field or the primitive of a
    bit-fields object is a place in the chain, a serializable is a member of the
    chain.  Simplifications: the enum registry is fixed and the one rebuilt from
    an export answers the same (see C06 for enumerations); names are identified
    by themselves, not by their numbers; the byte order is a value, its exported
    name is not modelled; a number read from a field stands for the Python value
    of that kind (PrimModel).  [copy] of a bit-fields object goes through its
    dictionary, as vcorelib's DictCodec does. *)
From Verif Require Import Base PrimModel StringModel ArrayModel ChainModel RegistryModel EnumModel
  FieldModel.

(** A place in a chain: the member and the element of that array. *)
Definition pos := (nat * nat)%type.
Definition ekey := (string + Z)%type.

(** base.py:38-44 [FieldSpec], and the other two kinds of build item
    (base.py:103: an index of bit-fields or the name of a serializable). *)
Inductive bitem :=
| BBits (i : nat)
| BSpec (name : string) (k : kind) (enum : option ekey) (array_length : option Z)
| BSer (name : string).

(** A bit-fields object; its value is that of the chain's element once it has a
    place (base.py:208). *)
Record bobj := mkB { b_regs : regs; b_pos : option pos }.

(** manager/base.py:56-66: [fields] (as objects), [lookup], [enum_lookup]. *)
Record mgr := mkMgr {
  g_fields : list nat; g_lookup : list (string * nat); g_enum : list (string * renum)
}.

(** base.py:77-106. *)
Record proto := mkProto {
  q_id : Z; q_order : byte_order; q_chain : chain;
  q_names : list string;                (** [names], in [registered_order] *)
  q_bits : list bobj;                   (** the bit-fields objects *)
  q_mgr : mgr;                          (** [_fields] *)
  q_reg : list (string * pos);          (** [_regular_fields] *)
  q_enum : list (string * renum);       (** [_enum_fields] *)
  q_build : list bitem;
  q_ser : list (string * nat)           (** [serializables] *)
}.

(** ** Places *)
Definition c_get (c : chain) (p : pos) : option prim :=
  match nth_error c (fst p) with
  | Some (NArr a) => nth_error (a_elems a) (snd p)
  | _ => None
  end.
Fixpoint upd {A} (i : nat) (f : A -> A) (l : list A) : list A :=
  match l, i with
  | [], _ => []
  | x :: r, O => f x :: r
  | x :: r, S i' => x :: upd i' f r
  end.
Definition n_put (e : nat) (v : Z) (n : node) : node :=
  match n with
  | NArr a => NArr (mkArr (set_nth e v (a_elems a)) (a_order a) (a_size a) (a_b2i a)
                      (a_i2b a) (a_specs a))
  | _ => n
  end.
Definition c_put (c : chain) (p : pos) (v : Z) : chain := upd (fst p) (n_put (snd p) v) c.

(** Where the next element added goes (array/__init__.py:187-222): the end of
    the last member if that is an array, else a new member. *)
Definition end_pos (c : chain) : pos :=
  match nth_error c (pred (List.length c)) with
  | Some (NArr a) => (pred (List.length c), List.length (a_elems a))
  | _ => (List.length c, O)
  end.

(** The bit-fields object with its current value. *)
Definition cur_regs (c : chain) (b : bobj) : regs :=
  match b_pos b with
  | Some p => match c_get c p with Some x => with_raw (b_regs b) (p_val x) | None => b_regs b end
  | None => b_regs b
  end.

Section Proto.
  (** The name pattern, \w, [int(str)], [StrToBool.parse], and the registry:
      each key's enumeration and its primitive. *)
  Context (valid word : string -> bool) (int_of : string -> option Z)
          (bool_of : string -> option bool) (enums : ekey -> option renum)
          (eprim : ekey -> kind) (native_le : bool).

  Definition smem (n : string) (l : list string) : bool := existsb (String.eqb n) l.

  (** base.py:145-150 [register_name] (registry/name.py:37-60); None is the
      assertion. *)
  Definition add_name (l : list string) (n : string) : option (list string) :=
    if smem n l then Some l else if valid n then Some (l ++ [n]) else None.

  (** manager/base.py:100-107: the names of one object; None is the assertion or
      KeyError for the enum. *)
  Fixpoint add_fields (names : list string) (lk : list (string * nat))
      (en : list (string * renum)) (idx : nat) (fs : list (string * field))
    : option (list string * list (string * nat) * list (string * renum)) :=
    match fs with
    | [] => Some (names, lk, en)
    | (n, f) :: r =>
        match add_name names n with
        | None => None
        | Some names =>
            match fl_enum f with
            | None => add_fields names (dset n idx lk) en idx r
            | Some k =>
                match enums k with
                | None => None
                | Some e => add_fields names (dset n idx lk) (dset n e en) idx r
                end
            end
        end
    end.

  (** manager/base.py:89-109 [add] of object number [i] (finalizing it is in
      [pr_bits]). *)
  Definition g_add (names : list string) (g : mgr) (i : nat) (r : regs)
    : option (list string * mgr) :=
    match add_fields names (g_lookup g) (g_enum g) (List.length (g_fields g)) (r_fields r) with
    | Some (ns, lk, en) => Some (ns, mkMgr (g_fields g ++ [i]) lk en)
    | None => None
    end.

  (** base.py:77-106 without [build]. *)
  Definition pr_new (id : Z) (bo : byte_order) : proto :=
    mkProto id bo [NArr (a_empty bo)] [] [] (mkMgr [] [] []) [] [] [] [].

  (** base.py:180-202 [add_field] for a primitive; None when it raises. *)
  Definition pr_field (p : proto) (name : string) (k : option kind) (enum : option ekey)
      (alen : option Z) (track : bool) : option proto :=
    match add_name (q_names p) name with
    | None => None
    | Some ns =>
        let finish en (kd : kind) :=
          Some (mkProto (q_id p) (q_order p)
                  (c_add (q_order p) (q_chain p) (mkPrim kd 0) alen)
                  ns (q_bits p) (q_mgr p) (dset name (end_pos (q_chain p)) (q_reg p)) en
                  (q_build p ++ (if track then [BSpec name kd enum alen] else []))
                  (q_ser p)) in
        match enum, k with
        | Some key, _ =>
            match enums key with
            | None => None
            | Some e =>
                finish (dset name e (q_enum p))
                       (match k with Some kd => kd | None => eprim key end)
            end
        | None, Some kd => finish (q_enum p) kd
        | None, None => None
        end
    end.

  (** base.py:204-210 [_add_bit_fields] of the object number [i]. *)
  Definition pr_place (p : proto) (i : nat) (track : bool) : option proto :=
    match nth_error (q_bits p) i with
    | None => None
    | Some b =>
        let r := cur_regs (q_chain p) b in
        match g_add (q_names p) (q_mgr p) i r with
        | None => None
        | Some (ns, g) =>
            Some (mkProto (q_id p) (q_order p)
                    (c_add (q_order p) (q_chain p) (mkPrim (r_kind r) (r_raw r)) None)
                    ns (upd i (fun b => mkB (b_regs b) (Some (end_pos (q_chain p)))) (q_bits p))
                    g (q_reg p) (q_enum p)
                    (q_build p ++
                       (if track then [BBits (List.length (g_fields (q_mgr p)))] else []))
                    (q_ser p))
        end
    end.

  (** base.py:212-220 [add_bit_fields] around the register [r] that the body of
      the with statement left. *)
  Definition pr_bits (p : proto) (r : regs) : option proto :=
    pr_place (mkProto (q_id p) (q_order p) (q_chain p) (q_names p)
               (q_bits p ++ [mkB (r_finalize r) None]) (q_mgr p) (q_reg p) (q_enum p)
               (q_build p) (q_ser p))
            (List.length (q_bits p)) true.

  (** base.py:152-160 [add_serializable]; [c] is the serializable's chain. *)
  Definition pr_ser (p : proto) (name : string) (c : chain) (alen : option Z) : option proto :=
    match add_name (q_names p) name with
    | None => None
    | Some ns =>
        Some (mkProto (q_id p) (q_order p) (fst (c_add_to_end (q_chain p) c alen)) ns
                (q_bits p) (q_mgr p) (q_reg p) (q_enum p) (q_build p ++ [BSer name])
                (dset name (List.length (q_chain p)) (q_ser p)))
    end.

  (** base.py:238-241 [size]. *)
  Definition pr_size (p : proto) : Z := c_length (q_chain p).
  (** serializable/base.py:96-105: the bytes of the protocol. *)
  Definition pr_bytes (p : proto) : option (list Z) :=
    option_map fst (c_to_stream native_le (q_chain p)).

  (** manager/base.py:164-189, 203-209: the object and the field of a name. *)
  Definition g_find (p : proto) (name : string) : option (bobj * field) :=
    match dget name (g_lookup (q_mgr p)) with
    | None => None
    | Some mi =>
        match nth_error (g_fields (q_mgr p)) mi with
        | None => None
        | Some i =>
            match nth_error (q_bits p) i with
            | None => None
            | Some b => option_map (fun f => (b, f)) (dget name (r_fields (b_regs b)))
            end
        end
    end.

  (** manager/base.py:135-154 [get]; None is KeyError. *)
  Definition g_get (p : proto) (name : string) (resolve : bool) : option val :=
    match g_find p name with
    | None => None
    | Some (b, f) =>
        let v := bf_read (r_raw (cur_regs (q_chain p) b)) (fl_index f) (fl_width f) in
        match fl_enum f, resolve with
        | Some _, true =>
            match dget name (g_enum (q_mgr p)) with
            | Some e => option_map VStr (e_get_str e (VInt v))
            | None => None
            end
        | _, _ => Some (if fl_width f =? 1 then VBool (negb (v =? 0)) else VInt v)
        end
    end.

  (** manager/base.py:124-133: the integer written. *)
  Definition g_value (p : proto) (name : string) (v : val) : option Z :=
    match v with
    | VInt z => Some z
    | VBool b => Some (z_of_bool b)
    | VStr s =>
        match dget name (g_enum (q_mgr p)) with
        | Some e => e_get_int int_of bool_of e (VStr s)
        | None => match bool_of s with Some b => Some (z_of_bool b) | None => int_of s end
        end
    end.

  Definition with_chain (p : proto) (c : chain) : proto :=
    mkProto (q_id p) (q_order p) c (q_names p) (q_bits p) (q_mgr p) (q_reg p) (q_enum p)
            (q_build p) (q_ser p).

  (** manager/base.py:111-133 [set]; an object without a place would keep its
      value itself. *)
  Definition g_set (p : proto) (name : string) (v : val) : option proto :=
    match g_find p name, g_value p name v with
    | Some (b, f), Some z =>
        match b_pos b with
        | Some ps =>
            let r := cur_regs (q_chain p) b in
            Some (with_chain p (c_put (q_chain p) ps
                    (fst (bf_write (r_kind r) (r_raw r) (fl_index f) (fl_width f) z))))
        | None => Some p
        end
    | _, _ => None
    end.

  (** base.py:222-236 [value]; None is KeyError. *)
  Definition pr_value (p : proto) (name : string) : option val :=
    match dget name (q_reg p) with
    | Some ps =>
        match c_get (q_chain p) ps with
        | None => None
        | Some x =>
            match dget name (q_enum p) with
            | Some e => option_map VStr (e_get_str e (VInt (p_val x)))
            | None => Some (VInt (p_val x))
            end
        end
    | None => g_get p name true
    end.

  (** base.py:262-273 [__setitem__] (strings for serializables are not
      modelled); None when it raises. *)
  Definition pr_set (p : proto) (name : string) (v : val) : option proto :=
    match dget name (q_reg p) with
    | Some ps =>
        let z :=
          match v with
          | VInt z => Some z
          | VBool b => Some (z_of_bool b)
          | VStr s =>
              match dget name (q_enum p) with
              | Some e => e_get_int int_of bool_of e (VStr s)
              | None => None
              end
          end in
        option_map (fun z => with_chain p (c_put (q_chain p) ps z)) z
    | None => g_set p name v
    end.

  (** ** protocol/json.py *)
  Record jproto := mkJP {
    jp_names : list string; jp_fields : list jregs; jp_id : Z; jp_order : byte_order;
    jp_build : list bitem; jp_values : list (string * val)
  }.

  Fixpoint all_some {A B} (f : A -> option B) (l : list A) : option (list B) :=
    match l with
    | [] => Some []
    | x :: r =>
        match f x, all_some f r with Some y, Some ys => Some (y :: ys) | _, _ => None end
    end.

  Definition paired (f : string -> option val) (n : string) : option (string * val) :=
    option_map (fun v => (n, v)) (f n).

  (** manager/base.py:30-32, 81-83: every object of the manager. *)
  Definition mgr_regs (p : proto) : option (list regs) :=
    all_some (fun i => option_map (cur_regs (q_chain p)) (nth_error (q_bits p) i))
             (g_fields (q_mgr p)).

  (** json.py:45-90 [export_json] with manager/__init__.py:45-68; None is
      KeyError.  The build items of base.py:46-56 [asdict] keep everything. *)
  Definition pr_export (p : proto) (resolve : bool) : option jproto :=
    match mgr_regs p,
          all_some (paired (fun n => g_get p n resolve)) (dkeys (g_lookup (q_mgr p))),
          all_some (paired (pr_value p)) (dkeys (q_reg p)) with
    | Some rs, Some v1, Some v2 =>
        Some (mkJP
          (dkeys (g_lookup (q_mgr p)) ++
             filter (fun n => negb (dmem n (g_lookup (q_mgr p)))) (dkeys (q_reg p)))
          (map r_asdict rs) (q_id p) (q_order p) (q_build p)
          (fold_left (fun d nv => dset (fst nv) (snd nv) d) v2 v1))
    | _, _, _ => None
    end.

  (** manager/base.py:68-70: the first pass over the loaded objects. *)
  Fixpoint g_load (names : list string) (g : mgr) (i : nat) (rs : list regs)
    : option (list string * mgr) :=
    match rs with
    | [] => Some (names, g)
    | r :: rs' =>
        match g_add names g i r with
        | Some (ns, g') => g_load ns g' (S i) rs'
        | None => None
        end
    end.

  (** base.py:111-128: the build items; [sers] are the serializables not used
      yet. *)
  Definition build_item (s : proto * list (string * node)) (it : bitem)
    : option (proto * list (string * node)) :=
    let '(p, sers) := s in
    match it with
    | BBits i =>
        match nth_error (g_fields (q_mgr p)) i with
        | Some o => option_map (fun p => (p, sers)) (pr_place p o false)
        | None => None
        end
    | BSpec n k e l => option_map (fun p => (p, sers)) (pr_field p n (Some k) e l false)
    | BSer n =>
        match dget n sers with
        | Some x => option_map (fun p => (p, ddel n sers)) (pr_ser p n [x] None)
        | None => None
        end
    end.
  Fixpoint build_all (s : proto * list (string * node)) (l : list bitem)
    : option (proto * list (string * node)) :=
    match l with
    | [] => Some s
    | it :: r => match build_item s it with Some s' => build_all s' r | None => None end
    end.

  (** base.py:65-128 [__init__] with a manager made of the objects [rs]. *)
  Definition pr_init (names : list string) (rs : list regs) (build : list bitem) (id : Z)
      (bo : byte_order) (sers : list (string * node)) : option proto :=
    match g_load names (mkMgr [] [] []) 0 rs with
    | None => None
    | Some (ns, g) =>
        match build_all
                (mkProto id bo [NArr (a_empty bo)] ns
                   (map (fun r => mkB (r_finalize r) None) rs) g [] [] [] [], sers) build with
        | Some (p, []) => Some p
        | _ => None
        end
    end.

  (** json.py:104-115: the build specification as imported; None is TypeError
      (a string has no item "name"). *)
  Definition parse_item (it : bitem) : option bitem :=
    match it with
    | BBits i => Some (BBits i)
    | BSpec n k e _ => Some (BSpec n k e None)
    | BSer _ => None
    end.

  Fixpoint set_all (p : proto) (l : list (string * val)) : option proto :=
    match l with
    | [] => Some p
    | (n, v) :: r => match pr_set p n v with Some p' => set_all p' r | None => None end
    end.

  (** json.py:92-130 [import_json] with manager/__init__.py:70-84. *)
  Definition pr_import (j : jproto) : option proto :=
    if forallb valid (jp_names j) then
      match all_some (r_import word) (jp_fields j), all_some parse_item (jp_build j) with
      | Some rs, Some build =>
          match pr_init (jp_names j) rs build (jp_id j) (jp_order j) [] with
          | Some p => set_all p (jp_values j)
          | None => None
          end
      | _, _ => None
      end
    else None.

  (** base.py:130-143 [__copy__] (the identifier is not passed on). *)
  Definition pr_copy (p : proto) : option proto :=
    match mgr_regs p with
    | None => None
    | Some rs =>
        match all_some (fun r => r_import word (r_asdict r)) rs with
        | None => None
        | Some rs' =>
            pr_init (q_names p) rs' (q_build p) 1 (q_order p)
              (flat_map (fun ni => match nth_error (q_chain p) (snd ni) with
                                   | Some n => [(fst ni, n_copy n)] | None => [] end)
                        (q_ser p))
        end
    end.

  (** ** Histories of one protocol *)
  Inductive pop :=
  | PField (name : string) (k : option kind) (enum : option ekey) (array_length : option Z)
  | PBits (k : kind) (ops : list rop)
  | PSer (name : string) (c : chain) (array_length : option Z)
  | PSet (name : string) (v : val)
  | PRecv (data : list Z).

  (** One call; None when a call that defines the protocol raises.  An assignment
      that raises changes nothing. *)
  Definition pr_step (p : proto) (o : pop) : option proto :=
    match o with
    | PField n k e l => pr_field p n k e l true
    | PBits k ops => pr_bits p (fst (r_run (FieldModel.r_new k) [] ops))
    | PSer n c l => pr_ser p n c l
    | PSet n v => Some (match pr_set p n v with Some p' => p' | None => p end)
    | PRecv d => Some (with_chain p (fst (c_from_stream native_le (q_chain p) d)))
    end.
  Fixpoint pr_run (p : proto) (ops : list pop) : option proto :=
    match ops with
    | [] => Some p
    | o :: r => match pr_step p o with Some p' => pr_run p' r | None => None end
    end.
End Proto.
