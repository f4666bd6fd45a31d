(** Model of RuntimeIntEnum (runtimepy/enum/registry.py:48-94) and of how a Python
    enumeration class becomes a runtime enumeration (enum/__init__.py:166-181).

    A class is the list of its definitions, in order.  Simplifications: names are ASCII;
    the identifiers that the registry gives out are at least 1, as the schema of an
    enumeration demands (data/schemas/RuntimeEnum.yaml). *)
From Verif Require Import Base RegistryModel EnumModel.
From Coq Require Import Ascii.
Open Scope list_scope.

(** [str.upper] and [str.lower]. *)
Definition upper_char (c : ascii) : ascii :=
  let n := nat_of_ascii c in if Nat.leb 97 n && Nat.leb n 122 then ascii_of_nat (n - 32) else c.
Definition lower_char (c : ascii) : ascii :=
  let n := nat_of_ascii c in if Nat.leb 65 n && Nat.leb n 90 then ascii_of_nat (n + 32) else c.
Fixpoint smap (f : ascii -> ascii) (s : string) : string :=
  match s with EmptyString => EmptyString | String c s => String (f c) (smap f s) end.
Definition py_upper : string -> string := smap upper_char.
Definition py_lower : string -> string := smap lower_char.

(** Python's enum: a definition with a value that was used before is another name of
    that member; iteration gives the members. *)
Definition cls := list (string * Z).
Fixpoint members_from (seen : list Z) (c : cls) : list (string * Z) :=
  match c with
  | [] => []
  | (n, v) :: c => if existsb (Z.eqb v) seen then members_from seen c else (n, v) :: members_from (v :: seen) c
  end.
Definition members (c : cls) : list (string * Z) := members_from [] c.
(** [cls(v)] and [cls[n]]; None where they raise. *)
Definition by_value (c : cls) (v : Z) : option (string * Z) := find (fun m => snd m =? v) (members c).
Definition by_attr (c : cls) (n : string) : option (string * Z) :=
  match dget n c with Some v => by_value c v | None => None end.

(** enum/registry.py:51-64 [normalize].  A boolean and a member of any integer
    enumeration are integers; [AOther] is anything that is neither integer nor string. *)
Inductive arg := AInt (z : Z) | ABool (b : bool) | AMember (v : Z) | AStr (s : string) | AOther.
Inductive norm := Member (m : string * Z) | Unchanged | Raised.
Definition or_raise (o : option (string * Z)) : norm := match o with Some m => Member m | None => Raised end.
Definition normalize (c : cls) (a : arg) : norm :=
  match a with
  | AInt z => or_raise (by_value c z)
  | ABool b => or_raise (by_value c (if b then 1 else 0))
  | AMember v => or_raise (by_value c v)
  | AStr s => or_raise (by_attr c (py_upper s))
  | AOther => Unchanged
  end.

(** enum/__init__.py:166-173 [data_from_enum]["items"]. *)
Definition data_from_enum (c : cls) : list (string * Z) :=
  fold_left (fun d m => dset (py_lower (fst m)) (snd m) d) (members c) [].

(** data/schemas/RuntimeEnum.yaml. *)
Definition PRIMITIVES : list string := ["int8"; "int16"; "int32"; "int64"; "uint8"; "uint16"; "uint32"; "uint64"]%string.
(** enum/registry.py:20. *)
Definition DEFAULT_ENUM_PRIMITIVE : string := "uint8".
Record runtime := mkRuntime { rt_enum : renum; rt_primitive : string }.
Section Runtime.
  Context (valid : string -> bool).
  (** enum/__init__.py:50-73 [RuntimeEnum.init] for an integer enumeration. *)
  Definition make (d : list (string * Z) * string) : option runtime :=
    if existsb (String.eqb (snd d)) PRIMITIVES then
      match e_new_int valid (map (fun nk => ByName (fst nk) (snd nk)) (fst d)) with
      | Some e => Some (mkRuntime e (snd d))
      | None => None
      end
    else None.
  (** enum/__init__.py:175-181 [from_enum], registry.py:76-79 [runtime_enum]: the schema
      fills in the primitive. *)
  Definition from_enum (c : cls) (identifier : Z) : option runtime :=
    if identifier <? 1 then None else make (data_from_enum c, DEFAULT_ENUM_PRIMITIVE).
  (** enum/registry.py:81-94 [register_enum]; [primitive] is what the class says
      (66-69); None: it raises. *)
  Definition register_enum (primitive : string) (c : cls)
      (g : registry runtime) (name : string) : registry runtime * option (item runtime) :=
    match g_register_dict valid make g name (mkIdata None (data_from_enum c, primitive)) with
    | (g', Ret (Some it)) => (g', Some it)
    | (g', _) => (g', None)
    end.
End Runtime.
