(** Model of runtimepy/enum/__init__.py (RuntimeEnum) and
    runtimepy/registry/bool.py (BooleanRegistry).

    Parameters: [valid] (name pattern), [int_of] (Python's [int(str)]; None is
    ValueError) and [bool_of] (vcorelib's StrToBool.parse; None is "not
    valid"). *)
From Verif Require Import Base RegistryModel.

Section Enum.
  Context (valid : string -> bool).
  Context (int_of : string -> option Z).
  Context (bool_of : string -> option bool).

  (** registry/bool.py:12-26 [BooleanRegistry.register] (does not append to
      [registered_order]). *)
  Definition b_register (m : nmap bool) (name : string) (value : bool)
    : nmap bool * bool :=
    if negb (valid name) || dmem name (m_rev m) || dmem value (m_fwd m)
    then (m, false)
    else (mkNmap (dset value name (m_fwd m)) (dset name value (m_rev m)) (m_order m),
          true).

  (** enum/__init__.py:60-73: exactly one of [_ints] / [_bools] is set. *)
  Inductive renum :=
  | EInt (r : nreg)
  | EBool (m : nmap bool).

  (** mapping.py:122-141, 147-165: [int_from_dict] / [bool_from_dict] split the
      items by the Python type of the key.  The values are taken as already
      converted by [int(value)] / [bool(value)] / [str(value)]. *)
  Inductive entry (K : Type) :=
  | ByName (name : string) (value : K)
  | ByKey (key : K) (name : string).
  Arguments ByName {K}. Arguments ByKey {K}.

  Definition by_key {K} (l : list (entry K)) : list (K * string) :=
    flat_map (fun e => match e with ByKey k n => [(k, n)] | ByName _ _ => [] end) l.
  Definition by_name {K} (l : list (entry K)) : list (string * K) :=
    flat_map (fun e => match e with ByName n k => [(n, k)] | ByKey _ _ => [] end) l.

  (** enum/__init__.py:66-73; None when the constructor raises. *)
  Definition e_new_int (items : list (entry Z)) : option renum :=
    match r_new valid (by_key items) (by_name items) with
    | Some r => Some (EInt r)
    | None => None
    end.
  Definition e_new_bool (items : list (entry bool)) : option renum :=
    match m_new valid (by_key items) (by_name items) with
    | Some m => Some (EBool m)
    | None => None
    end.

  (** Values passed to the lookup functions. *)
  Inductive val := VStr (s : string) | VInt (z : Z) | VBool (b : bool).

  (** Python's [True == 1]: a bool key looked up in an int-keyed dictionary and
      conversely. *)
  Definition z_of_bool (b : bool) : Z := if b then 1 else 0.
  Definition bool_key (z : Z) : option bool :=
    if z =? 0 then Some false else if z =? 1 then Some true else None.

  (** enum/__init__.py:91-99 [as_str]. *)
  Definition e_as_str (e : renum) (v : val) : option string :=
    match e with
    | EInt r =>
        match v with
        | VStr s => m_name_str (r_map r) s
        | VInt z => m_name (r_map r) z
        | VBool b => m_name (r_map r) (z_of_bool b)
        end
    | EBool m =>
        match v with
        | VStr s => m_name_str m s
        | VInt z => match bool_key z with Some b => m_name m b | None => None end
        | VBool b => m_name m b
        end
    end.

  (** enum/__init__.py:101-107 [get_str]: None is KeyError. *)
  Definition e_get_str := e_as_str.

  (** enum/__init__.py:109-121 [as_int] (integer enumerations). *)
  Definition e_as_int (r : nreg) (v : val) : option Z :=
    match v with
    | VStr s =>
        match m_identifier (r_map r) s with
        | Some z => Some z
        | None =>
            match int_of s with
            | Some z => m_identifier_key (r_map r) z
            | None => None
            end
        end
    | VInt z => m_identifier_key (r_map r) z
    | VBool b => m_identifier_key (r_map r) (z_of_bool b)
    end.

  (** enum/__init__.py:139-148 [as_bool] (boolean enumerations). *)
  Definition e_as_bool (m : nmap bool) (v : val) : option bool :=
    match v with
    | VStr s =>
        match m_identifier m s with
        | Some b => Some b
        | None => bool_of s
        end
    | VInt z => match bool_key z with Some b => m_identifier_key m b | None => None end
    | VBool b => m_identifier_key m b
    end.

  (** enum/__init__.py:123-137 [get_int]: None is KeyError. *)
  Definition e_get_int (e : renum) (v : val) : option Z :=
    match e with
    | EInt r => e_as_int r v
    | EBool m => option_map z_of_bool (e_as_bool m v)
    end.

  (** enum/__init__.py:150-156 [get_bool]: None is KeyError (or the assertion
      in the [bools] property for an integer enumeration). *)
  Definition e_get_bool (e : renum) (v : val) : option bool :=
    match e with
    | EInt _ => None
    | EBool m => e_as_bool m v
    end.

  (** enum/__init__.py:158-164 [register_int] / [register_bool]; the [ints] /
      [bools] properties (38-48) raise for the wrong kind. *)
  Inductive eop := ERegInt (name : string) | ERegBool (name : string) (value : bool).
  Definition e_step (e : renum) (o : eop) : renum :=
    match o, e with
    | ERegInt n, EInt r => EInt (fst (r_register valid r n None))
    | ERegBool n b, EBool m => EBool (fst (b_register m n b))
    | _, _ => e
    end.
  Definition e_run (e : renum) (ops : list eop) : renum := fold_left e_step ops e.

  (** enum/__init__.py:75-89 [asdict]["items"] seen as constructor items. *)
  Definition e_items_int (r : nreg) : list (entry Z) :=
    map (fun nk => ByName (fst nk) (snd nk)) (m_asdict (r_map r)).
  Definition e_items_bool (m : nmap bool) : list (entry bool) :=
    map (fun nk => ByName (fst nk) (snd nk)) (m_asdict m).

  (** Re-creating an enumeration from its own dictionary. *)
  Definition e_reload (e : renum) : option renum :=
    match e with
    | EInt r => e_new_int (e_items_int r)
    | EBool m => e_new_bool (e_items_bool m)
    end.
End Enum.
Arguments ByName {K}. Arguments ByKey {K}.
