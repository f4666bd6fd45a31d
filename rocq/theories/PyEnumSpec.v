(** What is said of Python enumerations. *)
From Verif Require Import Base RegistryModel EnumModel EnumSpec PyEnumModel.
From Coq Require Import Ascii.
Open Scope list_scope.

(** A class: no name is defined twice. *)
Definition a_class (c : cls) : Prop := NoDup (map fst c).
(** The member with this name and value: the first definition of the value. *)
Definition is_member (c : cls) (n : string) (v : Z) : Prop :=
  exists pre post, c = pre ++ (n, v) :: post /\ ~ In v (map snd pre).
(** The members in order. *)
Fixpoint in_order (c : cls) (l : list (string * Z)) : Prop :=
  match l with
  | [] => True
  | m :: l => exists pre post, c = pre ++ m :: post /\ in_order post l
  end.
(** Two members whose names differ at most in case. *)
Definition same_letters (a b : string) : Prop := py_lower a = py_lower b.
(** The last member with this lower-case name. *)
Definition last_with (c : cls) (k : string) (v : Z) : Prop :=
  exists pre n post, members c = pre ++ (n, v) :: post /\ py_lower n = k /\
    forall m, In m post -> py_lower (fst m) <> k.
(** Names as Python style wants them. *)
Definition all_upper (c : cls) : Prop := forall n v, In (n, v) c -> py_upper n = n.
(** No two members have the same letters. *)
Definition letters_differ (c : cls) : Prop :=
  forall n v n' v', is_member c n v -> is_member c n' v' -> same_letters n n' -> v = v'.
Definition fits_uint8 (v : Z) : Prop := 0 <= v <= 255.
(** Every name, in small letters, is one that registries accept. *)
Definition valid_names (valid : string -> bool) (c : cls) : Prop := forall n v, In (n, v) c -> valid (py_lower n) = true.
(** The dictionary of a runtime enumeration made of a class. *)
Definition made (c : cls) (e : renum) : Prop := forall k v, In (k, v) (e_pairs e) <-> last_with c k v.
(** The letters. *)
Definition SMALL : string := "abcdefghijklmnopqrstuvwxyz".
Definition CAPITAL : string := "ABCDEFGHIJKLMNOPQRSTUVWXYZ".
Definition letter (small capital : ascii) : Prop := exists i, String.get i SMALL = Some small /\ String.get i CAPITAL = Some capital.
(** The kinds of integer. *)
Definition integers : list string := ["int8"; "int16"; "int32"; "int64"; "uint8"; "uint16"; "uint32"; "uint64"]%string.
