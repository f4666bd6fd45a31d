(** Model of channel environments and the commands that act on them:
    runtimepy/channel/environment/base.py, create.py, command/processor.py,
    runtimepy/primitives/field/manager/base.py and runtimepy/mixins/finalize.py.

    Primitives are objects that channels and bit fields may share, so they live
    in a heap of cells addressed by index; so do the [BitFields] registers.
    Names are taken after the namespace was applied (create.py:53, base.py:436).
    Simplifications: default values are not represented; the enumeration registry is a fixed function [enums];
    primitive callbacks and timestamps are not represented here (see
    CallbackModel); hooks do not call back into the environment; finite floats
    are rationals and the rounding done by storing a Python float in a C float
    is the parameter [fround]; an integer too large for a double is stored
    rather than raising OverflowError. *)
From Coq Require Import QArith.
From Verif Require Import Base PrimModel ScalingModel RegistryModel EnumModel FieldModel.
Open Scope Z_scope.

(** ** Python numbers *)

(** A Python float: finite, infinite (negative when [true]) or not a number. *)
Inductive flo := FFin (q : Q) | FInf (neg : bool) | FNan.
Inductive num := NInt (z : Z) | NBool (b : bool) | NFlo (f : flo).
(** channel/environment/base.py:42-47 [ChannelValue]. *)
Inductive cval := CStr (s : string) | CNum (n : num).

Definition q_neg (q : Q) : bool := Qnum q <? 0.
Definition fadd (a b : flo) : flo :=
  match a, b with
  | FFin x, FFin y => FFin (Qplus x y)
  | FNan, _ | _, FNan => FNan
  | FInf s, FInf s' => if Bool.eqb s s' then FInf s else FNan
  | FInf s, _ => FInf s
  | _, FInf s => FInf s
  end.
Definition fmul (a b : flo) : flo :=
  match a, b with
  | FFin x, FFin y => FFin (Qmult x y)
  | FNan, _ | _, FNan => FNan
  | FInf s, FInf s' => FInf (xorb s s')
  | FInf s, FFin x | FFin x, FInf s =>
      if Qeq_bool x 0 then FNan else FInf (xorb s (q_neg x))
  end.

Definition to_flo (n : num) : flo :=
  match n with
  | NInt z => FFin (inject_Z z)
  | NBool b => FFin (inject_Z (z_of_bool b))
  | NFlo f => f
  end.

(** Exceptions: ValueError, KeyError (the two [do_set] catches) and any other
    (AssertionError, TypeError, OverflowError, ZeroDivisionError). *)
Inductive exn := XValue | XKey | XOther.
Inductive res (A : Type) := Ok (a : A) | Err (x : exn).
Arguments Ok {A}. Arguments Err {A}.

(** ** Primitives *)

(** What a primitive stores: an integer (0/1 for booleans) or a float. *)
Inductive stored := RI (z : Z) | RF (f : flo).
Record cell := mkCell { c_kind : kind; c_scaling : list Q; c_raw : stored }.

(** scaling.py:12-34 [invert] before rounding. *)
Definition f_invert (f : flo) (scaling : list Q) : res flo :=
  match scaling with
  | [] => Ok f
  | [offset] => Ok (fadd f (FFin (Qopp offset)))
  | [offset; scale] =>
      if Qeq_bool scale 0 then Err XOther
      else Ok (fmul (fadd f (FFin (Qopp offset))) (FFin (Qinv scale)))
  | _ => Err XOther
  end.

(** [round(value)]: OverflowError for infinities, ValueError for NaN. *)
Definition f_round (f : flo) : res Z :=
  match f with
  | FFin q => Ok (py_round q)
  | FInf _ => Err XOther
  | FNan => Err XValue
  end.

(** scaling.py:44-48. *)
Fixpoint f_loop (scaling : list Q) (value result power : flo) : flo :=
  match scaling with
  | [] => result
  | c :: rest => f_loop rest value (fadd result (fmul (FFin c) power)) (fmul power value)
  end.

Section Env.
  Context (valid : string -> bool).
  Context (int_of : string -> option Z).      (* int(str); None is ValueError *)
  Context (float_of : string -> option flo).  (* float(str); None is ValueError *)
  Context (bool_of : string -> option bool).  (* StrToBool.parse *)
  Context (fround : kind -> flo -> flo).      (* storing a float in a C float *)
  Context (enums : string + Z -> option renum).

  (** primitives/base.py:137-166: assigning [raw.value]. *)
  Definition cell_set (c : cell) (n : num) : res cell :=
    let k := c_kind c in
    let put s := Ok (mkCell k (c_scaling c) s) in
    if k_is_int k then
      match n with
      | NInt z => put (RI (k_store k z))
      | NBool b => put (RI (k_store k (z_of_bool b)))
      | NFlo _ => Err XOther
      end
    else if k_is_float k then put (RF (fround k (to_flo n)))
    else
      put (RI (match n with
               | NInt z => if z =? 0 then 0 else 1
               | NBool b => z_of_bool b
               | NFlo (FFin q) => if Qeq_bool q 0 then 0 else 1
               | NFlo _ => 1
               end)).

  (** primitives/base.py:132-135. *)
  Definition cell_get (c : cell) : num :=
    match c_raw c with
    | RF f => NFlo f
    | RI z => match c_kind c with KBool => NBool (negb (z =? 0)) | _ => NInt z end
    end.

  (** primitives/base.py:173-176, 182-192: assigning [raw.scaled]. *)
  Definition cell_set_scaled (c : cell) (n : num) : res cell :=
    let k := c_kind c in
    if k_is_int k then
      let rounded :=
        match c_scaling c, n with
        | [], NInt z => Ok z
        | [], NBool b => Ok (z_of_bool b)
        | sc, _ =>
            match f_invert (to_flo n) sc with
            | Ok f => f_round f
            | Err x => Err x
            end
        end in
      match rounded with
      | Err x => Err x
      | Ok z =>
          cell_set c (NInt (match k_bounds k with Some b => b_clamp b z | None => z end))
      end
    else
      match c_scaling c with
      | [] => cell_set c n
      | sc =>
          match f_invert (to_flo n) sc with
          | Ok f => cell_set c (NFlo f)
          | Err x => Err x
          end
      end.

  (** primitives/base.py:168-171, 178-180, scaling.py:37-51. *)
  Definition cell_get_scaled (c : cell) : num :=
    match c_scaling c with
    | [] => cell_get c
    | sc => NFlo (f_loop sc (to_flo (cell_get c)) (FFin 0) (FFin 1))
    end.

  (** ** The environment *)

  (** channel/__init__.py:85-112 and base.py:81-87 [channel_enums]. *)
  Record chan := mkChan { ch_ref : nat; ch_cmd : bool; ch_enum : option renum }.

  (** fields.py:35-49: a [BitFields] register as the environment uses it: its
      primitive and the fields by name. *)
  Record bitfields := mkBf { bf_ref : nat; bf_fields : list (string * field) }.

  Record env := mkEnv {
    e_heap : list cell;                  (* primitives *)
    e_names : nreg;                      (* channels.names *)
    e_chans : list (string * chan);      (* channels.items *)
    e_bfs : list bitfields;              (* every BitFields object *)
    e_mgr : list nat;                    (* fields.fields *)
    e_lookup : list (string * nat);      (* fields.lookup: position in e_mgr *)
    e_flenum : list (string * renum);    (* fields.enum_lookup *)
    e_byprim : list (nat * nat);         (* fields.by_primitive *)
    e_toadd : list nat;                  (* to_add *)
    e_final : bool;                      (* _finalized *)
    e_bypass : bool                      (* _finalized_bypass *)
  }.

  Definition with_heap (e : env) (h : list cell) : env :=
    mkEnv h (e_names e) (e_chans e) (e_bfs e) (e_mgr e) (e_lookup e) (e_flenum e)
      (e_byprim e) (e_toadd e) (e_final e) (e_bypass e).

  (** base.py:48-106 with no arguments. *)
  Definition e_new : env := mkEnv [] (mkNreg m_empty 1) [] [] [] [] [] [] [] false false.

  (** Replacing one element of a list. *)
  Fixpoint upd {A} (l : list A) (n : nat) (x : A) : list A :=
    match l, n with
    | [], _ => []
    | _ :: r, O => x :: r
    | y :: r, S n' => y :: upd r n' x
    end.

  (** registry/name.py:19 [RegistryKey]. *)
  Definition key := (string + Z)%type.
  (** mapping.py:104-111 [name]. *)
  Definition e_name (e : env) (k : key) : option string :=
    match k with
    | inl s => m_name_str (r_map (e_names e)) s
    | inr z => m_name (r_map (e_names e)) z
    end.

  (** registry/__init__.py:94-101, base.py:230-241 [get]. *)
  Definition e_get (e : env) (k : key) : option chan :=
    match e_name e k with
    | Some n => dget n (e_chans e)
    | None => None
    end.

  (** manager/base.py:197-201 [has_field]. *)
  Definition e_has_field (e : env) (k : key) : bool :=
    match e_name e k with
    | Some n => dmem n (e_lookup e)
    | None => false
    end.

  (** manager/base.py:164-186 [get_fields], [get_field]: the field and the
      primitive it lives in. *)
  Definition e_get_field (e : env) (k : key) : option (nat * field) :=
    match e_name e k with
    | None => None
    | Some n =>
        match dget n (e_lookup e) with
        | None => None
        | Some i =>
            match nth_error (e_mgr e) i with
            | None => None
            | Some b =>
                match nth_error (e_bfs e) b with
                | None => None
                | Some bf =>
                    match dget n (bf_fields bf) with
                    | Some f => Some (bf_ref bf, f)
                    | None => None
                    end
                end
            end
        end
    end.

  (** base.py:210-212 [exists]. *)
  Definition e_exists (e : env) (k : key) : bool :=
    e_has_field e k || match e_get e k with Some _ => true | None => false end.

  (** base.py:214-228 [field_or_channel]: the channel wins. *)
  Inductive target := TChan (c : chan) | TField (r : nat) (f : field).
  Definition e_target (e : env) (k : key) : option target :=
    match e_get e k with
    | Some c => Some (TChan c)
    | None =>
        match e_get_field e k with
        | Some (r, f) => Some (TField r f)
        | None => None
        end
    end.
  Definition t_cmd (t : target) : bool :=
    match t with TChan c => ch_cmd c | TField _ f => fl_cmd f end.

  (** Writing a cell (the heap has no dangling references; the default is
      unreachable). *)
  Definition e_cell (e : env) (r : nat) : option cell := nth_error (e_heap e) r.
  Definition e_put (e : env) (r : nat) (c : cell) : env := with_heap e (upd (e_heap e) r c).

  (** field/__init__.py:58-78 [__call__] on the primitive at [r]. *)
  Definition cell_field_write (c : cell) (f : field) (v : Z) : res cell :=
    match c_raw c with
    | RI raw =>
        Ok (mkCell (c_kind c) (c_scaling c)
              (RI (fst (bf_write (c_kind c) raw (fl_index f) (fl_width f) v))))
    | RF _ => Err XOther
    end.
  Definition cell_field_read (c : cell) (f : field) : Z :=
    match c_raw c with RI raw => bf_read raw (fl_index f) (fl_width f) | RF _ => 0 end.
  Definition e_field_write (e : env) (r : nat) (f : field) (v : Z) : res env :=
    match e_cell e r with
    | None => Err XOther
    | Some c =>
        match cell_field_write c f v with
        | Ok c' => Ok (e_put e r c')
        | Err x => Err x
        end
    end.

  (** manager/base.py:111-133 [set], after base.py:119. *)
  Definition e_set_field (e : env) (k : key) (v : cval) : res env :=
    match v with
    | CNum (NFlo _) => Err XOther
    | _ =>
        match e_get_field e k with
        | None => Err XKey
        | Some (r, f) =>
            match v with
            | CNum (NInt z) => e_field_write e r f z
            | CNum (NBool b) => e_field_write e r f (z_of_bool b)
            | CNum (NFlo _) => Err XOther
            | CStr s =>
                match dget (fl_name f) (e_flenum e) with
                | Some en =>
                    match e_get_int int_of bool_of en (VStr s) with
                    | Some z => e_field_write e r f z
                    | None => Err XKey
                    end
                | None =>
                    match bool_of s with
                    | Some b => e_field_write e r f (z_of_bool b)
                    | None =>
                        match int_of s with
                        | Some z => e_field_write e r f z
                        | None => Err XValue
                        end
                    end
                end
            end
        end
    end.

  (** base.py:125-160: the number a value stands for. *)
  Definition resolve (c : cell) (en : option renum) (v : cval) : res num :=
    match v with
    | CNum n => Ok n
    | CStr s =>
        match en with
        | None =>
            if k_is_int (c_kind c) || k_is_float (c_kind c) then
              if k_is_int (c_kind c) && match c_scaling c with [] => true | _ => false end
              then match int_of s with Some z => Ok (NInt z) | None => Err XValue end
              else match float_of s with Some f => Ok (NFlo f) | None => Err XValue end
            else match bool_of s with Some b => Ok (NBool b) | None => Err XValue end
        | Some en =>
            match c_kind c with
            | KBool =>
                match en with
                | EInt _ => Err XOther
                | EBool _ =>
                    match e_get_bool bool_of en (VStr s) with
                    | Some b => Ok (NBool b)
                    | None => Err XKey
                    end
                end
            | _ =>
                match e_get_int int_of bool_of en (VStr s) with
                | Some z => Ok (NInt z)
                | None => Err XKey
                end
            end
        end
    end.

  (** base.py:112-166 [set]. *)
  Definition e_set (e : env) (k : key) (v : cval) (scaled : bool) : res env :=
    if e_has_field e k then e_set_field e k v
    else
      match e_get e k with
      | None => Err XKey
      | Some ch =>
          match e_cell e (ch_ref ch) with
          | None => Err XOther
          | Some c =>
              match resolve c (ch_enum ch) v with
              | Err x => Err x
              | Ok n =>
                  match (if scaled then cell_set_scaled c n else cell_set c n) with
                  | Ok c' => Ok (e_put e (ch_ref ch) c')
                  | Err x => Err x
                  end
              end
          end
      end.

  (** Looking a number up in an enumeration (dict lookup: 1.0 == 1). *)
  Definition enum_name (en : renum) (n : num) : option string :=
    match n with
    | NInt z => e_get_str en (VInt z)
    | NBool b => e_get_str en (VBool b)
    | NFlo (FFin q) =>
        if Qeq_bool q (inject_Z (py_round q)) then e_get_str en (VInt (py_round q)) else None
    | NFlo _ => None
    end.

  (** manager/base.py:135-154 [get], base.py:189-208 [value]. *)
  Definition e_value (e : env) (k : key) (resolve_enum scaled : bool) : res cval :=
    if e_has_field e k then
      match e_get_field e k with
      | None => Err XKey
      | Some (r, f) =>
          match e_cell e r with
          | None => Err XOther
          | Some c =>
              let v := cell_field_read c f in
              match fl_enum f, resolve_enum with
              | Some _, true =>
                  match e_name e k with
                  | None => Err XOther
                  | Some n =>
                      match dget n (e_flenum e) with
                      | None => Err XKey
                      | Some en =>
                          match enum_name en (NInt v) with
                          | Some s => Ok (CStr s)
                          | None => Err XKey
                          end
                      end
                  end
              | _, _ =>
                  if fl_width f =? 1 then Ok (CNum (NBool (negb (v =? 0))))
                  else Ok (CNum (NInt v))
              end
          end
      end
    else
      match e_get e k with
      | None => Err XKey
      | Some ch =>
          match e_cell e (ch_ref ch) with
          | None => Err XOther
          | Some c =>
              let n := if scaled then cell_get_scaled c else cell_get c in
              match ch_enum ch, resolve_enum with
              | Some en, true =>
                  match enum_name en n with Some s => Ok (CStr s) | None => Err XKey end
              | _, _ => Ok (CNum n)
              end
          end
      end.

  (** ** Commands *)

  (** command/parser.py:11-17 and the parsed arguments (parser.py:40-74). *)
  Inductive verb := VSet | VToggle | VGet | VCustom.
  Record args := mkArgs {
    a_verb : verb; a_force : bool; a_remote : bool; a_chan : string; a_extra : list string
  }.

  (** What a command reports; [CRaise] is an exception that escapes. *)
  Inductive reply := CSuccess | CValue (v : cval) | CFailure | CRaise (x : exn).
  Definition accepted (r : reply) : bool :=
    match r with CSuccess | CValue _ => true | _ => false end.

  (** processor.py:89-107 [do_set]. *)
  Definition do_set (e : env) (a : args) : env * reply :=
    match a_extra a with
    | [] => (e, CFailure)
    | v :: _ =>
        match e_set e (inl (a_chan a)) (CStr v) true with
        | Ok e' => (e', CSuccess)
        | Err XOther => (e, CRaise XOther)
        | Err _ => (e, CFailure)
        end
    end.

  (** processor.py:109-128 [do_toggle]. *)
  Definition do_toggle (e : env) (t : target) : env * reply :=
    match t with
    | TField r f =>
        match e_cell e r with
        | None => (e, CRaise XOther)
        | Some c =>
            match e_field_write e r f (Z.lnot (cell_field_read c f)) with
            | Ok e' => (e', CSuccess)
            | Err x => (e, CRaise x)
            end
        end
    | TChan ch =>
        match e_cell e (ch_ref ch) with
        | None => (e, CRaise XOther)
        | Some c =>
            match c_kind c with
            | KBool =>
                match c_raw c with
                | RI z =>
                    (e_put e (ch_ref ch)
                       (mkCell KBool (c_scaling c) (RI (if z =? 0 then 1 else 0))), CSuccess)
                | RF _ => (e, CRaise XOther)
                end
            | _ => (e, CFailure)
            end
        end
    end.

  (** processor.py:130-171 [handle_command]; the hooks are numbered and each
      call records the hook, and the channel argument it received. *)
  Definition call_hooks (hooks : list nat) (t : option target) : list (nat * option target) :=
    map (fun h => (h, t)) hooks.
  Definition handle (hooks : list nat) (e : env) (a : args)
    : env * reply * list (nat * option target) :=
    if a_remote a || match a_verb a with VCustom => true | _ => false end
    then (e, CSuccess, call_hooks hooks None)
    else
      match a_verb a, e_exists e (inl (a_chan a)) with
      | VGet, true =>
          match e_value e (inl (a_chan a)) true true with
          | Ok v => (e, CValue v, [])
          | Err x => (e, CRaise x, [])
          end
      | _, _ =>
          match e_target e (inl (a_chan a)) with
          | None => (e, CFailure, [])
          | Some t =>
              if negb (t_cmd t) && negb (a_force a) then (e, CFailure, [])
              else
                let '(e', r) :=
                  match a_verb a with
                  | VToggle => do_toggle e t
                  | VSet => do_set e a
                  | _ => (e, CSuccess)
                  end in
                (e', r, if accepted r then call_hooks hooks (Some t) else [])
          end
      end.

  (** processor.py:224-228 [RemoteCommandProcessor.handle_command]. *)
  Definition handle_remote (hooks : list nat) (e : env) (a : args) :=
    handle hooks e (mkArgs (a_verb a) (a_force a) true (a_chan a) (a_extra a)).

  (** ** Building an environment *)

  (** mixins/finalize.py:26-30. *)
  Definition e_finalized (e : env) : bool := if e_bypass e then false else e_final e.

  (** A primitive made by the caller. *)
  Definition e_prim (e : env) (k : kind) (scaling : list Q) : env :=
    with_heap e (e_heap e ++ [mkCell k scaling (if k_is_float k then RF (FFin 0) else RI 0)]).

  Definition with_names (e : env) (n : nreg) : env :=
    mkEnv (e_heap e) n (e_chans e) (e_bfs e) (e_mgr e) (e_lookup e) (e_flenum e)
      (e_byprim e) (e_toadd e) (e_final e) (e_bypass e).
  Definition with_chans (e : env) (c : list (string * chan)) : env :=
    mkEnv (e_heap e) (e_names e) c (e_bfs e) (e_mgr e) (e_lookup e) (e_flenum e)
      (e_byprim e) (e_toadd e) (e_final e) (e_bypass e).

  (** create.py:37-79 [channel] with a primitive (registry.py:87-139,
      registry/__init__.py:69-92).  [true] when the call returned.  A channel
      whose enumeration does not exist stays registered although the call
      raises KeyError (create.py:76-77). *)
  Definition e_channel (e : env) (name : string) (r : nat) (cmd : bool)
    (en : option (string + Z)) : env * bool :=
    if e_finalized e then (e, false)
    else if negb (Nat.ltb r (List.length (e_heap e))) then (e, false)
    else
      match r_register valid (e_names e) name None with
      | (n, Ret (Some i)) =>
          let e := with_names e n in
          if dmem name (e_chans e) then (e, false)
          else
            match en with
            | None => (with_chans e (dset name (mkChan r cmd None) (e_chans e)), true)
            | Some k =>
                match enums k with
                | Some m => (with_chans e (dset name (mkChan r cmd (Some m)) (e_chans e)), true)
                | None => (with_chans e (dset name (mkChan r cmd None) (e_chans e)), false)
                end
            end
      | (n, _) => (with_names e n, false)
      end.

  (** manager/base.py:211-226 and base.py:429-436 [add_field] with a field on
      the primitive at [r]. *)
  Definition e_add_field (e : env) (r : nat) (f : field) : env * bool :=
    match e_cell e r with
    | None => (e, false)
    | Some c =>
        if negb (field_ok (c_kind c) (fl_name f) (fl_index f) (fl_width f)) then (e, false)
        else
          let '(e, b) :=
            match dget r (e_byprim e) with
            | Some b => (e, b)
            | None =>
                let b := List.length (e_bfs e) in
                (mkEnv (e_heap e) (e_names e) (e_chans e) (e_bfs e ++ [mkBf r []]) (e_mgr e)
                   (e_lookup e) (e_flenum e) (dset r b (e_byprim e)) (e_toadd e ++ [b])
                   (e_final e) (e_bypass e), b)
            end in
          match nth_error (e_bfs e) b with
          | None => (e, false)
          | Some bf =>
              if dmem (fl_name f) (bf_fields bf) then (e, false)
              else
                (mkEnv (e_heap e) (e_names e) (e_chans e)
                   (upd (e_bfs e) b (mkBf (bf_ref bf) (dset (fl_name f) f (bf_fields bf))))
                   (e_mgr e) (e_lookup e) (e_flenum e) (e_byprim e) (e_toadd e)
                   (e_final e) (e_bypass e), true)
          end
    end.

  (** manager/base.py:100-107: registering one field. *)
  Definition mgr_field (index : nat) (acc : env * bool) (nf : string * field) : env * bool :=
    let '(e, ok) := acc in
    if negb ok then (e, false)
    else
      match r_register valid (e_names e) (fst nf) None with
      | (n, Ret (Some _)) =>
          let e := with_names e n in
          let e := mkEnv (e_heap e) (e_names e) (e_chans e) (e_bfs e) (e_mgr e)
                     (dset (fst nf) index (e_lookup e)) (e_flenum e) (e_byprim e) (e_toadd e)
                     (e_final e) (e_bypass e) in
          match fl_enum (snd nf) with
          | None => (e, true)
          | Some k =>
              match enums k with
              | Some m =>
                  (mkEnv (e_heap e) (e_names e) (e_chans e) (e_bfs e) (e_mgr e) (e_lookup e)
                     (dset (fst nf) m (e_flenum e)) (e_byprim e) (e_toadd e)
                     (e_final e) (e_bypass e), true)
              | None => (e, false)
              end
          end
      | (n, _) => (with_names e n, false)
      end.

  (** manager/base.py:89-109 [add] of the register [b]. *)
  Definition mgr_add (e : env) (b : nat) : env * bool :=
    match nth_error (e_bfs e) b with
    | None => (e, false)
    | Some bf =>
        let index := List.length (e_mgr e) in
        let e := mkEnv (e_heap e) (e_names e) (e_chans e) (e_bfs e) (e_mgr e ++ [b])
                   (e_lookup e) (e_flenum e) (e_byprim e) (e_toadd e)
                   (e_final e) (e_bypass e) in
        fold_left (mgr_field index) (bf_fields bf) (e, true)
    end.

  (** base.py:438-444 [finalize], mixins/finalize.py:32-38. *)
  Definition e_finalize (e : env) (strict : bool) : env * bool :=
    let '(e, ok) :=
      fold_left (fun (acc : env * bool) b =>
                   let '(e, ok) := acc in if ok then mgr_add e b else (e, false))
        (e_toadd e) (e, true) in
    if negb ok then (e, false)
    else if strict && e_finalized e then (e, false)
    else
      (mkEnv (e_heap e) (e_names e) (e_chans e) (e_bfs e) (e_mgr e) (e_lookup e) (e_flenum e)
         (e_byprim e) (e_toadd e) true (e_bypass e), true).

  (** mixins/finalize.py:40-55: entering and leaving [bypass_finalized]. *)
  Definition e_set_bypass (e : env) (on : bool) : env * bool :=
    if on && e_bypass e then (e, false)
    else
      (mkEnv (e_heap e) (e_names e) (e_chans e) (e_bfs e) (e_mgr e) (e_lookup e) (e_flenum e)
         (e_byprim e) (e_toadd e) (e_final e) on, true).

  (** Everything a user can do to an environment; the flag says whether the
      call returned. *)
  Inductive op :=
  | OPrim (k : kind) (scaling : list Q)
  | OChannel (name : string) (r : nat) (cmd : bool) (en : option (string + Z))
  | OAddField (r : nat) (f : field)
  | OFinalize (strict : bool)
  | OBypass (on : bool)
  | OSet (k : key) (v : cval) (scaled : bool)
  | OCommand (hooks : list nat) (a : args).

  Definition step (e : env) (o : op) : env * bool :=
    match o with
    | OPrim k sc => (e_prim e k sc, true)
    | OChannel n r c en => e_channel e n r c en
    | OAddField r f => e_add_field e r f
    | OFinalize s => e_finalize e s
    | OBypass on => e_set_bypass e on
    | OSet k v s => match e_set e k v s with Ok e' => (e', true) | Err _ => (e, false) end
    | OCommand h a =>
        let '(e', r, _) := handle h e a in
        (e', match r with CRaise _ => false | _ => true end)
    end.
  Definition run (e : env) (ops : list op) : env := fold_left (fun e o => fst (step e o)) ops e.
End Env.
