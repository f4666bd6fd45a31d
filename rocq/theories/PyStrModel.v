(** Python string operations on lists of code points (only what the modelled
    code uses; ASCII behaviour, which is all that reaches them in the modelled
    code). *)
From Coq Require Import Ascii.
From Verif Require Import Base.

Notation str := (list Z).

(** A literal. *)
Fixpoint lit (s : string) : str :=
  match s with
  | EmptyString => []
  | String c s' => Z.of_nat (nat_of_ascii c) :: lit s'
  end.

Fixpoint str_eqb (a b : str) : bool :=
  match a, b with
  | [], [] => true
  | x :: a', y :: b' => (x =? y) && str_eqb a' b'
  | _, _ => false
  end.

(** [s.split(c)]: always at least one part. *)
Fixpoint split_on (c : Z) (s : str) : list str :=
  match s with
  | [] => [[]]
  | x :: s' =>
      if x =? c then [] :: split_on c s'
      else match split_on c s' with
           | p :: ps => (x :: p) :: ps
           | [] => [[x]]
           end
  end.

(** [s.split(c, maxsplit=1)]: the part before and the part after the first
    [c]; None when there is no [c] (one part). *)
Fixpoint split_once (c : Z) (s : str) : option (str * str) :=
  match s with
  | [] => None
  | x :: s' =>
      if x =? c then Some ([], s')
      else match split_once c s' with
           | Some (a, b) => Some (x :: a, b)
           | None => None
           end
  end.

(** ASCII white space ([str.strip], [int]). *)
Definition is_space (x : Z) : bool :=
  (x =? 32) || ((9 <=? x) && (x <=? 13)) || ((28 <=? x) && (x <=? 31)).
Fixpoint lstrip (s : str) : str :=
  match s with
  | [] => []
  | x :: s' => if is_space x then lstrip s' else s
  end.
Definition strip (s : str) : str := rev (lstrip (rev (lstrip s))).

(** [str.lower], ASCII. *)
Definition lower1 (x : Z) : Z := if (65 <=? x) && (x <=? 90) then x + 32 else x.
Definition lower (s : str) : str := map lower1 s.

Definition starts_with (c : Z) (s : str) : bool :=
  match s with x :: _ => x =? c | [] => false end.

(** [sep.join(parts)] for a one-character separator. *)
Fixpoint join (c : Z) (parts : list str) : str :=
  match parts with
  | [] => []
  | [p] => p
  | p :: ps => p ++ c :: join c ps
  end.

(** [str(n)] for an integer. *)
Fixpoint dec_pos (fuel : nat) (n : Z) (acc : str) : str :=
  match fuel with
  | O => acc
  | S fuel' =>
      let acc' := (48 + n mod 10) :: acc in
      if n <? 10 then acc' else dec_pos fuel' (n / 10) acc'
  end.
Definition dec (n : Z) : str :=
  if n <? 0 then 45 :: dec_pos (S (Z.to_nat (Z.log2 (- n)))) (- n) []
  else dec_pos (S (Z.to_nat (Z.log2 n))) n [].

(** [int(s)], base ten: surrounding white space, one optional sign, digits with
    single underscores between them; None is ValueError.  (CPython's limit of
    4300 digits is not modelled.) *)
Fixpoint digits (acc : Z) (prev : bool) (s : str) : option Z :=
  match s with
  | [] => if prev then Some acc else None
  | x :: s' =>
      if (48 <=? x) && (x <=? 57) then digits (10 * acc + (x - 48)) true s'
      else if (x =? 95) && prev then digits acc false s'
      else None
  end.
Definition py_int (s : str) : option Z :=
  match strip s with
  | 45 :: s' => option_map Z.opp (digits 0 false s')
  | 43 :: s' => digits 0 false s'
  | s' => digits 0 false s'
  end.
