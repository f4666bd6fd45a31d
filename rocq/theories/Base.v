(** Shared vocabulary: decidable equality, Python dictionaries, byte lists.

    This file models no repository code by itself; it fixes how the Python
    built-ins used everywhere are represented. *)
From Coq Require Export List ZArith Lia Bool String.
Export ListNotations.
Open Scope string_scope.
Open Scope list_scope.
Open Scope Z_scope.

(** Decidable equality as a class, so that dictionaries can be keyed by
    integers, strings, booleans, ... *)
Class EqDec (A : Type) := eq_dec : forall a b : A, {a = b} + {a <> b}.

#[global] Instance EqDec_Z : EqDec Z := Z.eq_dec.
#[global] Instance EqDec_nat : EqDec nat := Nat.eq_dec.
#[global] Instance EqDec_string : EqDec string := string_dec.
#[global] Instance EqDec_bool : EqDec bool := Bool.bool_dec.
#[global] Instance EqDec_listZ : EqDec (list Z) := list_eq_dec Z.eq_dec.

(** A Python [dict]: insertion-ordered association list.  [dset] on an existing
    key keeps the key's position (as CPython does); a new key goes last. *)
Section Dict.
  Context {K V : Type} {KD : EqDec K}.

  Fixpoint dget (k : K) (d : list (K * V)) : option V :=
    match d with
    | [] => None
    | (k', v) :: d' => if eq_dec k k' then Some v else dget k d'
    end.

  (** [k in d] *)
  Definition dmem (k : K) (d : list (K * V)) : bool :=
    match dget k d with Some _ => true | None => false end.

  (** [d[k] = v] *)
  Fixpoint dset (k : K) (v : V) (d : list (K * V)) : list (K * V) :=
    match d with
    | [] => [(k, v)]
    | (k', v') :: d' =>
        if eq_dec k k' then (k', v) :: d' else (k', v') :: dset k v d'
    end.

  (** [del d[k]] / [d.pop(k)] (no-op when missing: callers check first) *)
  Fixpoint ddel (k : K) (d : list (K * V)) : list (K * V) :=
    match d with
    | [] => []
    | (k', v') :: d' =>
        if eq_dec k k' then ddel k d' else (k', v') :: ddel k d'
    end.

  Definition dkeys (d : list (K * V)) : list K := map fst d.
  Definition dvals (d : list (K * V)) : list V := map snd d.
End Dict.

(** A byte is an integer in [0, 256); a byte string is a list of bytes. *)
Definition is_byte (b : Z) : Prop := 0 <= b < 256.
Definition is_bytes (l : list Z) : Prop := Forall is_byte l.
Definition is_byteb (b : Z) : bool := (0 <=? b) && (b <? 256).

(** Python [len] of a byte string / list, as an integer. *)
Definition zlen {A} (l : list A) : Z := Z.of_nat (List.length l).
