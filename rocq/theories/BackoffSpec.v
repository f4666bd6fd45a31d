(** What a back-off promises, said without its implementation. *)
From Coq Require Import QArith.
From Verif Require Import Base BackoffModel.
Open Scope list_scope.
Open Scope Z_scope.

(** The durations of the first [n] sleeps. *)
Fixpoint waits (b : backoff) (n : nat) : list Q :=
  match n with
  | O => []
  | S n => fst (bo_sleep b) :: waits (snd (bo_sleep b)) n
  end.

(** The property as promised: waits never decrease. *)
Definition never_decreases (l : list Q) : Prop :=
  forall i x y, nth_error l i = Some x -> nth_error l (S i) = Some y -> (x <= y)%Q.
(** Each wait but the first two is the double of the one before or the cap. *)
Definition doubles_up_to (cap : Q) (l : list Q) : Prop :=
  forall i x y, (1 <= i)%nat -> nth_error l i = Some x -> nth_error l (S i) = Some y -> (y == 2 * x \/ y == cap)%Q.
