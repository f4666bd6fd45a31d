(** Model of runtimepy/mapping.py, runtimepy/registry/name.py and
    runtimepy/registry/__init__.py.

    Names are [string]s.  Name validation (a class-level regular expression,
    runtimepy/mixins/regex.py:24-37) is the parameter [valid]: every theorem
    holds for every pattern. *)
From Verif Require Import Base.

(** ** runtimepy/mapping.py: TwoWayNameMapping *)
Section Mapping.
  Context {K : Type} {KD : EqDec K}.
  Context (valid : string -> bool).

  (** mapping.py:52-54: [_mapping], [_reverse], [registered_order]. *)
  Record nmap := mkNmap {
    m_fwd : list (K * string);
    m_rev : list (string * K);
    m_order : list string
  }.

  (** mapping.py:52-54 (nothing loaded yet). *)
  Definition m_empty : nmap := mkNmap [] [] [].

  (** mapping.py:62-82 [_set].  Result: the mapping as the call leaves it and
      whether it returned normally ([true]) or raised AssertionError
      ([false]). *)
  Definition m_set (m : nmap) (key : K) (name : string) : nmap * bool :=
    (* 65 *)
    if negb (valid name) then (m, false)
    else
      (* 68-73 *)
      let after_fwd :=
        match dget key (m_fwd m) with
        | None => Some (dset key name (m_fwd m))
        | Some curr_name =>
            if eq_dec curr_name name then Some (m_fwd m) else None
        end in
      match after_fwd with
      | None => (m, false)
      | Some fwd' =>
          (* 76-82 *)
          match dget name (m_rev m) with
          | None =>
              (mkNmap fwd' (dset name key (m_rev m)) (m_order m ++ [name]), true)
          | Some curr_key =>
              if eq_dec curr_key key
              then (mkNmap fwd' (m_rev m) (m_order m), true)
              else (mkNmap fwd' (m_rev m) (m_order m), false)
          end
      end.

  (** mapping.py:84-87 [load_key_to_name]: stops at the first failure. *)
  Fixpoint m_load (m : nmap) (kvs : list (K * string)) : nmap * bool :=
    match kvs with
    | [] => (m, true)
    | (key, name) :: kvs' =>
        match m_set m key name with
        | (m', true) => m_load m' kvs'
        | (m', false) => (m', false)
        end
    end.

  (** mapping.py:89-92 [load_name_to_key]. *)
  Definition m_load_rev (m : nmap) (nks : list (string * K)) : nmap * bool :=
    m_load m (map (fun nk => (snd nk, fst nk)) nks).

  (** mapping.py:94-102 [identifier] with a string key. *)
  Definition m_identifier (m : nmap) (name : string) : option K :=
    dget name (m_rev m).
  (** mapping.py:94-102 [identifier] with a non-string key. *)
  Definition m_identifier_key (m : nmap) (key : K) : option K :=
    if dmem key (m_fwd m) then Some key else None.
  (** mapping.py:104-111 [name] with a non-string key. *)
  Definition m_name (m : nmap) (key : K) : option string := dget key (m_fwd m).
  (** mapping.py:104-111 [name] with a string key (a string is never a key of
      [_mapping], so the final [.get] gives None). *)
  Definition m_name_str (m : nmap) (name : string) : option string :=
    if dmem name (m_rev m) then Some name else None.
  (** mapping.py:113-116 [names]. *)
  Definition m_names (m : nmap) : list string := dkeys (m_rev m).
  (** mapping.py:118-120 [asdict]. *)
  Definition m_asdict (m : nmap) : list (string * K) := m_rev m.

  (** mapping.py:45-60 [__init__]: None when the constructor raises. *)
  Definition m_new (mapping : list (K * string)) (reverse : list (string * K))
    : option nmap :=
    match m_load m_empty mapping with
    | (m1, true) =>
        match m_load_rev m1 reverse with
        | (m2, true) => Some m2
        | (_, false) => None
        end
    | (_, false) => None
    end.
End Mapping.
Arguments nmap K : clear implicits.

(** ** runtimepy/registry/name.py: NameRegistry *)
Section NameRegistry.
  Context (valid : string -> bool).

  (** name.py:28-29: the mapping plus [_current]. *)
  Record nreg := mkNreg { r_map : nmap Z; r_cur : Z }.

  (** name.py:33-35: bump [_current] above every loaded key. *)
  Definition r_bump (cur : Z) (keys : list Z) : Z :=
    fold_left (fun c k => if k >=? c then k + 1 else c) keys cur.

  (** name.py:21-35 [__init__]. *)
  Definition r_new (mapping : list (Z * string)) (reverse : list (string * Z))
    : option nreg :=
    match m_new valid mapping reverse with
    | Some m => Some (mkNreg m (r_bump 1 (dkeys (m_fwd m))))
    | None => None
    end.

  (** name.py:53-54: [while self._current in self._mapping].  The fuel is one
      more than the number of entries; [None] would mean the loop did not stop
      within it (proved impossible). *)
  Fixpoint r_scan (fuel : nat) (cur : Z) (fwd : list (Z * string)) : option Z :=
    match fuel with
    | O => None
    | S f => if dmem cur fwd then r_scan f (cur + 1) fwd else Some cur
    end.

  (** What a call produced: a return value, an AssertionError, or a loop that
      did not terminate within its bound. *)
  Inductive outcome (A : Type) := Ret (a : A) | Raise | Stuck.
  Arguments Ret {A}. Arguments Raise {A}. Arguments Stuck {A}.

  (** name.py:37-62 [register_name]. *)
  Definition r_register (r : nreg) (name : string) (identifier : option Z)
    : nreg * outcome (option Z) :=
    let m := r_map r in
    match m_identifier m name with
    | Some curr =>
        (* 43-45 *)
        match identifier with
        | None => (r, Ret (Some curr))
        | Some i => if curr =? i then (r, Ret (Some curr)) else (r, Raise)
        end
    | None =>
        (* 48-49 *)
        if negb (valid name) then (r, Ret None)
        else
          (* 52-55 *)
          let choice :=
            match identifier with
            | Some i => Some (r_cur r, i)
            | None =>
                match r_scan (S (List.length (m_fwd m))) (r_cur r) (m_fwd m) with
                | Some c => Some (c, c)
                | None => None
                end
            end in
          match choice with
          | None => (r, Stuck)
          | Some (cur', i) =>
              (* 58-62 *)
              if dmem i (m_fwd m) then (mkNreg m cur', Ret None)
              else
                match m_set valid m i name with
                | (m', true) => (mkNreg m' cur', Ret (Some i))
                | (m', false) => (mkNreg m' cur', Raise)
                end
          end
    end.

  (** Calls a user can make on a live registry. *)
  Inductive rop :=
  | RegisterName (name : string) (identifier : option Z)
  | LoadKeys (kvs : list (Z * string))      (* load_key_to_name *)
  | LoadNames (nks : list (string * Z)).    (* load_name_to_key *)

  Definition r_step (r : nreg) (o : rop) : nreg * outcome (option Z) :=
    match o with
    | RegisterName n i => r_register r n i
    | LoadKeys kvs =>
        match m_load valid (r_map r) kvs with
        | (m', true) => (mkNreg m' (r_cur r), Ret None)
        | (m', false) => (mkNreg m' (r_cur r), Raise)
        end
    | LoadNames nks =>
        match m_load_rev valid (r_map r) nks with
        | (m', true) => (mkNreg m' (r_cur r), Ret None)
        | (m', false) => (mkNreg m' (r_cur r), Raise)
        end
    end.

  (** A whole history, with the outcome of each call. *)
  Fixpoint r_run (r : nreg) (ops : list rop) : nreg * list (outcome (option Z)) :=
    match ops with
    | [] => (r, [])
    | o :: ops' =>
        let (r', out) := r_step r o in
        let (r'', outs) := r_run r' ops' in
        (r'', out :: outs)
    end.
End NameRegistry.
Arguments Ret {A}. Arguments Raise {A}. Arguments Stuck {A}.

(** ** runtimepy/registry/__init__.py: Registry

    Items carry their [id] (registry/item.py:26-28 in the file, [init]) and an
    opaque payload.  Building an item from dictionary data
    ([self.kind(data)], schema validation included) is the parameter
    [construct], which may fail (raise). *)
Section Registry.
  Context (valid : string -> bool).
  Context (D P : Type).
  Context (construct : D -> option P).

  Record item := mkItem { i_id : Z; i_payload : P }.
  (** Dictionary data passed to register_dict: the optional "id" key and the
      rest. *)
  Record idata := mkIdata { d_id : option Z; d_rest : D }.

  (** registry/__init__.py:42-50: [items] and [names]. *)
  Record registry := mkRegistry {
    g_items : list (string * item);
    g_names : nreg
  }.

  (** [self.kind(data)] once "id" is present. *)
  Definition g_kind (i : Z) (d : D) : option item :=
    match construct d with Some p => Some (mkItem i p) | None => None end.

  (** registry/__init__.py:38-50 [init] from already constructed items; None
      when the name registry refuses them. *)
  Definition g_new (items : list (string * item)) : option registry :=
    match r_new valid [] (map (fun ni => (fst ni, i_id (snd ni))) items) with
    | Some n => Some (mkRegistry items n)
    | None => None
    end.

  (** registry/__init__.py:69-78 [register]. *)
  Definition g_register (g : registry) (name : string) (it : item)
    : registry * outcome bool :=
    match r_register valid (g_names g) name (Some (i_id it)) with
    | (n', Ret (Some _)) =>
        if dmem name (g_items g) then (mkRegistry (g_items g) n', Ret false)
        else (mkRegistry (dset name it (g_items g)) n', Ret true)
    | (n', Ret None) => (mkRegistry (g_items g) n', Ret false)
    | (n', Raise) => (mkRegistry (g_items g) n', Raise)
    | (n', Stuck) => (mkRegistry (g_items g) n', Stuck)
    end.

  (** registry/__init__.py:90-92: the part of [register_dict] after the
      identifier is known. *)
  Definition g_finish (g : registry) (name : string) (i : Z) (rest : D)
    : registry * outcome (option item) :=
    match g_kind i rest with
    | None => (g, Raise)
    | Some it =>
        match g_register g name it with
        | (g', Ret true) => (g', Ret (Some it))
        | (g', Ret false) => (g', Ret None)
        | (g', Raise) => (g', Raise)
        | (g', Stuck) => (g', Stuck)
        end
    end.

  (** registry/__init__.py:80-92 [register_dict]. *)
  Definition g_register_dict (g : registry) (name : string) (d : idata)
    : registry * outcome (option item) :=
    match d_id d with
    | Some i => g_finish g name i (d_rest d)
    | None =>
        match r_register valid (g_names g) name None with
        | (n', Ret (Some i)) =>
            g_finish (mkRegistry (g_items g) n') name i (d_rest d)
        | (n', Ret None) => (mkRegistry (g_items g) n', Ret None)
        | (n', Raise) => (mkRegistry (g_items g) n', Raise)
        | (n', Stuck) => (mkRegistry (g_items g) n', Stuck)
        end
    end.

  (** registry/__init__.py:94-101 [get] by name / by identifier. *)
  Definition g_get_name (g : registry) (name : string) : option item :=
    match m_name_str (r_map (g_names g)) name with
    | Some n => dget n (g_items g)
    | None => None
    end.
  Definition g_get_id (g : registry) (i : Z) : option item :=
    match m_name (r_map (g_names g)) i with
    | Some n => dget n (g_items g)
    | None => None
    end.

  (** User-level operations and histories. *)
  Inductive gop :=
  | GRegisterDict (name : string) (d : idata)
  | GRegister (name : string) (it : item).

  (** The item added by the call, if it added one. *)
  Definition g_step (g : registry) (o : gop) : registry * outcome (option item) :=
    match o with
    | GRegisterDict name d => g_register_dict g name d
    | GRegister name it =>
        match g_register g name it with
        | (g', Ret true) => (g', Ret (Some it))
        | (g', Ret false) => (g', Ret None)
        | (g', Raise) => (g', Raise)
        | (g', Stuck) => (g', Stuck)
        end
    end.

  Definition g_run (g : registry) (ops : list gop) : registry :=
    fold_left (fun g o => fst (g_step g o)) ops g.
End Registry.
Arguments mkItem {P}. Arguments i_id {P}. Arguments i_payload {P}.
Arguments mkIdata {D}. Arguments d_id {D}. Arguments d_rest {D}.
Arguments mkRegistry {P}. Arguments g_items {P}. Arguments g_names {P}.
Arguments g_get_name {P}. Arguments g_get_id {P}. Arguments g_new valid {P}.
Arguments g_step valid {D P}. Arguments g_run valid {D P}.
Arguments g_register valid {P}. Arguments g_register_dict valid {D P}.
Arguments GRegisterDict {D P}. Arguments GRegister {D P}.
