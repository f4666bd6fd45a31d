(** Model of exporting a channel environment and loading it again:
    runtimepy/channel/environment/file.py, with the dictionaries of channels
    (channel/__init__.py), enumerations (enum/__init__.py) and bit-field
    registers (primitives/field/) and the constructor of an environment
    (channel/environment/base.py:49-106).

    The environment itself is [EnvModel.env]; here it is extended by what a
    channel carries besides its primitive (identifier, enumeration key,
    description, controls, default value) and by the enumeration registry.

    Simplifications: the enumeration registry exists before the channels and is
    not changed while they are created; registers are those [add_field] makes;
    the JSON text (or the files) between the two halves is taken to give back
    the same values; controls are opaque except for their default value;
    [word] is the regular-expression class \w of the enumeration keys. *)
From Coq Require Import QArith.
From Verif Require Import Base PrimModel ScalingModel RegistryModel EnumModel FieldModel EnvModel.
Open Scope Z_scope.

(** Calling a function that may raise on every element. *)
Fixpoint opt_map {A B} (f : A -> option B) (l : list A) : option (list B) :=
  match l with
  | [] => Some []
  | a :: r =>
      match f a, opt_map f r with
      | Some b, Some s => Some (b :: s)
      | _, _ => None
      end
  end.

Section Export.
  Context (valid validE word : string -> bool).
  Context (int_of : string -> option Z) (float_of : string -> option flo)
    (bool_of : string -> option bool) (fround : kind -> flo -> flo).
  Context {C : Type} (cdefault : C -> option num).

  (** enum/__init__.py:50-73: the primitive's name and the items. *)
  Definition epay := (string * renum)%type.
  Definition ereg := registry epay.

  (** registry/__init__.py:94-109 [enums[key]]: None is KeyError. *)
  Definition enums_of (g : ereg) (k : string + Z) : option renum :=
    option_map (fun it => snd (i_payload it))
      (match k with inl n => g_get_name g n | inr i => g_get_id g i end).

  (** channel/__init__.py:85-112. *)
  Record cmeta := mkMeta {
    cm_id : Z; cm_enum : option (string + Z); cm_desc : option string;
    cm_ctl : option C; cm_default : option num
  }.
  Record xenv := mkX { x_env : env; x_meta : list (string * cmeta); x_enums : ereg }.
  Definition with_env (x : xenv) (e : env) : xenv := mkX e (x_meta x) (x_enums x).

  (** An environment without channels (base.py:49-106). *)
  Definition x_new (g : ereg) : xenv := mkX e_new [] g.

  (** data/schemas/Channel.yaml: identifier, type, enumeration key. *)
  Definition enum_schema (en : option (string + Z)) : bool :=
    match en with Some (inl n) => word n | Some (inr i) => 1 <=? i | None => true end.
  Definition chan_schema (k : kind) (id : Z) (en : option (string + Z)) : bool :=
    (1 <=? id) && negb (match k with Half => true | _ => false end) && enum_schema en.

  (** channel/__init__.py:96-101: the default, or the one of the controls. *)
  Definition dflt (d : option num) (ctl : option C) : option num :=
    match d with
    | Some _ => d
    | None => match ctl with Some c => cdefault c | None => None end
    end.

  (** channel/__init__.py:78-82, types/base.py:104-107 [valid_primitive]. *)
  Definition default_fits (k : kind) (d : option num) : bool :=
    match d with
    | None => true
    | Some (NInt _) => k_is_int k
    | Some (NBool _) => negb (k_is_float k)
    | Some (NFlo _) => k_is_float k
    end.

  (** channel/__init__.py:83 on the primitive at [r]. *)
  Definition put_default (e : env) (r : nat) (d : option num) : env :=
    match d, e_cell e r with
    | Some n, Some c =>
        match cell_set fround c n with Ok c' => e_put e r c' | Err _ => e end
    | _, _ => e
    end.

  (** registry.py:124-125: an empty description is none. *)
  Definition keep_desc (d : option string) : option string :=
    match d with Some EmptyString => None | _ => d end.

  (** create.py:37-79 and registry.py:87-139.  The name is registered before
      the channel is constructed (registry/__init__.py:84-90), so it stays
      registered when the constructor raises. *)
  Definition x_channel (x : xenv) (name : string) (r : nat) (cmd : bool)
    (en : option (string + Z)) (desc : option string) (ctl : option C) (d : option num)
    : xenv * bool :=
    let e := x_env x in
    if e_finalized e then (x, false)
    else
      match e_cell e r with
      | None => (x, false)
      | Some c =>
          match r_register valid (e_names e) name None with
          | (n, Ret (Some i)) =>
              if chan_schema (c_kind c) i en && default_fits (c_kind c) (dflt d ctl) then
                let '(e', ok) := e_channel valid (enums_of (x_enums x)) e name r cmd en in
                if dmem name (e_chans e) then (with_env x e', ok)
                else
                  (mkX (put_default e' r (dflt d ctl))
                     (dset name (mkMeta i en (keep_desc desc) ctl (dflt d ctl)) (x_meta x))
                     (x_enums x), ok)
              else (with_env x (with_names e n), false)
          | (n, _) => (with_env x (with_names e n), false)
          end
      end.

  (** Everything a user can do; the flag says whether the call returned. *)
  Inductive xop :=
  | XChannel (name : string) (r : nat) (cmd : bool) (en : option (string + Z))
             (desc : option string) (ctl : option C) (d : option num)
  | XOther (o : op).
  Definition x_step (x : xenv) (o : xop) : xenv * bool :=
    match o with
    | XChannel n r cmd en desc ctl d => x_channel x n r cmd en desc ctl d
    | XOther (OChannel n r cmd en) => x_channel x n r cmd en None None None
    | XOther o =>
        let '(e, ok) := step valid int_of float_of bool_of fround (enums_of (x_enums x)) (x_env x) o in
        (with_env x e, ok)
    end.
  Definition x_run (x : xenv) (ops : list xop) : xenv := fold_left (fun x o => fst (x_step x o)) ops x.

  (** ** Export *)

  (** channel/__init__.py:114-134 [asdict]. *)
  Record jchan := mkJC {
    jc_id : Z; jc_kind : kind; jc_cmd : bool; jc_enum : option (string + Z);
    jc_ctl : option C; jc_desc : option string; jc_default : option num
  }.
  (** enum/__init__.py:75-89 [asdict]. *)
  Record jenum := mkJE {
    je_id : Z; je_prim : string; je_items : list (string * Z) + list (string * bool)
  }.
  (** file.py:56-67. *)
  Record jenv := mkJEnv {
    jv_chans : list (string * jchan); jv_enums : list (string * jenum);
    jv_fields : list jregs; jv_names : list (string * Z); jv_enames : list (string * Z);
    jv_values : list (string * cval)
  }.

  Definition chan_dict (x : xenv) (nc : string * chan) : option (string * jchan) :=
    match dget (fst nc) (x_meta x), e_cell (x_env x) (ch_ref (snd nc)) with
    | Some m, Some c =>
        Some (fst nc, mkJC (cm_id m) (c_kind c) (ch_cmd (snd nc)) (cm_enum m) (cm_ctl m)
                        (cm_desc m) (cm_default m))
    | _, _ => None
    end.

  Definition enum_dict (ni : string * RegistryModel.item epay) : string * jenum :=
    (fst ni, mkJE (i_id (snd ni)) (fst (i_payload (snd ni)))
               (match snd (i_payload (snd ni)) with
                | EInt r => inl (m_asdict (r_map r))
                | EBool m => inr (m_asdict m)
                end)).

  (** fields.py:194-200: [by_index] of a register made by [claim_field]. *)
  Definition by_index (fs : list (string * field)) : list (Z * FieldModel.item) :=
    fold_left (fun d nf => dset (fl_index (snd nf)) (IField (snd nf)) d) fs [].

  (** fields.py:101-119; the register was finalized (manager/base.py:94). *)
  Definition regs_dict (e : env) (b : nat) : option jregs :=
    match nth_error (e_bfs e) b with
    | None => None
    | Some bf =>
        match e_cell e (bf_ref bf) with
        | Some (mkCell k _ (RI raw)) =>
            Some (mkJR k (map (item_dict raw) (by_index (bf_fields bf))) true)
        | _ => None
        end
    end.

  (** base.py:174-187 [values]: None when a value cannot be obtained. *)
  Definition is_nan (v : cval) : bool := match v with CNum (NFlo FNan) => true | _ => false end.
  Definition values (e : env) (re : bool) : option (list (string * cval)) :=
    option_map (filter (fun nv => negb (is_nan (snd nv))))
      (opt_map (fun n => match e_value e (inl n) re true with Ok v => Some (n, v) | Err _ => None end)
         (m_names (r_map (e_names e)))).

  (** file.py:50-67 [export_json] (and 69-105 [export]): the environment
      afterwards, and the dictionary; None when the call raises. *)
  Definition x_export (x : xenv) (re : bool) : xenv * option jenv :=
    let '(e, ok) := e_finalize valid (enums_of (x_enums x)) (x_env x) false in
    let x := with_env x e in
    if negb ok then (x, None)
    else
      (x, match opt_map (chan_dict x) (e_chans e), opt_map (regs_dict e) (e_mgr e),
                values e re with
          | Some cs, Some fs, Some vs =>
              Some (mkJEnv cs (map enum_dict (g_items (x_enums x))) fs
                      (m_asdict (r_map (e_names e)))
                      (m_asdict (r_map (g_names (x_enums x)))) vs)
          | _, _, _ => None
          end).

  (** ** Load *)

  (** channel/__init__.py:85-112 behind the schemas (Channel.yaml and
      ChannelRegistry.yaml): the new primitive. *)
  Definition chan_load (nj : string * jchan) : option cell :=
    let '(n, j) := nj in
    if nonempty n && all_chars lower_name_char n && chan_schema (jc_kind j) (jc_id j) (jc_enum j)
       && default_fits (jc_kind j) (dflt (jc_default j) (jc_ctl j)) then
      let c := mkCell (jc_kind j) [] (if k_is_float (jc_kind j) then RF (FFin 0) else RI 0) in
      match dflt (jc_default j) (jc_ctl j) with
      | None => Some c
      | Some d => match cell_set fround c d with Ok c' => Some c' | Err _ => None end
      end
    else None.

  (** enum/__init__.py:50-73 behind RuntimeEnum.yaml. *)
  Definition enum_load (nj : string * jenum) : option (string * RegistryModel.item epay) :=
    let '(n, j) := nj in
    if 1 <=? je_id j then
      match
        match je_items j with
        | inl items => e_new_int validE (map (fun nk => ByName (fst nk) (snd nk)) items)
        | inr items => e_new_bool validE (map (fun nk => ByName (fst nk) (snd nk)) items)
        end
      with
      | Some en => Some (n, mkItem (je_id j) (je_prim j, en))
      | None => None
      end
    else None.

  (** mapping.py:89-92 on a registry's names. *)
  Definition load_names (v : string -> bool) (r : nreg) (nks : list (string * Z)) : option nreg :=
    match m_load_rev v (r_map r) nks with
    | (m, true) => Some (mkNreg m (r_cur r))
    | (_, false) => None
    end.

  (** base.py:168-172 [apply]. *)
  Fixpoint apply_values (e : env) (vs : list (string * cval)) : option env :=
    match vs with
    | [] => Some e
    | (n, v) :: r =>
        match e_set int_of float_of bool_of fround e (inl n) v true with
        | Ok e' => apply_values e' r
        | Err _ => None
        end
    end.

  (** base.py:83-87 [channel_enums]: KeyError when there is none. *)
  Definition enum_link (g : ereg) (nc : string * (chan * option (string + Z)))
    : option (string * chan) :=
    let '(n, (ch, en)) := nc in
    match en with
    | None => Some (n, ch)
    | Some k =>
        match enums_of g k with
        | Some m => Some (n, mkChan (ch_ref ch) (ch_cmd ch) (Some m))
        | None => None
        end
    end.

  Definition indexed {A} (l : list A) : list (nat * A) := combine (seq 0 (List.length l)) l.

  (** The enumeration registry (file.py:131, 137-139). *)
  Definition load_enums (d : jenv) : option ereg :=
    match opt_map enum_load (jv_enums d) with
    | None => None
    | Some items =>
        match g_new validE items with
        | None => None
        | Some g =>
            match load_names validE (g_names g) (jv_enames d) with
            | Some en => Some (mkRegistry (g_items g) en)
            | None => None
            end
        end
    end.

  (** base.py:74-77: a new manager with the registers, before the channels'
      enumerations are looked up. *)
  Definition load_base (d : jenv) (names : nreg) (cells : list cell) (regs : list regs) : env :=
    mkEnv (cells ++ map (fun s => mkCell (r_kind s) [] (RI (r_raw s))) regs) names
      (map (fun inj => (fst (snd inj), mkChan (fst inj) (jc_cmd (snd (snd inj))) None))
         (indexed (jv_chans d)))
      (map (fun is => mkBf (List.length cells + fst is)%nat (r_fields (snd is))) (indexed regs))
      [] [] [] [] [] false false.

  Definition meta_load (nj : string * jchan) : string * cmeta :=
    (fst nj, mkMeta (jc_id (snd nj)) (jc_enum (snd nj)) (jc_desc (snd nj)) (jc_ctl (snd nj))
               (dflt (jc_default (snd nj)) (jc_ctl (snd nj)))).

  (** file.py:124-153 [load_json] (and 155-201 [load]); None when it raises. *)
  Definition x_load (d : jenv) : option xenv :=
    match opt_map chan_load (jv_chans d),
          RegistryModel.r_new valid [] (map (fun nj => (fst nj, jc_id (snd nj))) (jv_chans d)),
          load_enums d, opt_map (r_import word) (jv_fields d) with
    | Some cells, Some names0, Some g, Some regs =>
        match load_names valid names0 (jv_names d) with
        | None => None
        | Some names =>
            let '(e, ok) :=
              fold_left (fun (acc : env * bool) b =>
                           let '(e, ok) := acc in
                           if ok then mgr_add valid (enums_of g) e b else (e, false))
                (seq 0 (List.length regs)) (load_base d names cells regs, true) in
            if negb ok then None
            else
              match opt_map (enum_link g)
                      (combine (map fst (e_chans e))
                         (combine (map snd (e_chans e)) (map (fun nj => jc_enum (snd nj)) (jv_chans d)))) with
              | None => None
              | Some chans =>
                  match apply_values (with_chans e chans) (jv_values d) with
                  | None => None
                  | Some e =>
                      match e_finalize valid (enums_of g) e true with
                      | (e, true) => Some (mkX e (map meta_load (jv_chans d)) g)
                      | (_, false) => None
                      end
                  end
              end
        end
    | _, _, _, _ => None
    end.
End Export.
Arguments cmeta : clear implicits. Arguments xenv : clear implicits.
Arguments xop : clear implicits. Arguments jchan : clear implicits.
Arguments jenv : clear implicits.
