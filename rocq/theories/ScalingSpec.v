(** Specification vocabulary for C11. *)
From Coq Require Import QArith Qabs.
From Verif Require Import Base PrimModel.

(** The polynomial c0 + c1 x + c2 x^2 + ... (Horner form). *)
Fixpoint poly (cs : list Q) (x : Q) : Q :=
  match cs with
  | [] => 0
  | c :: cs' => (c + x * poly cs' x)%Q
  end.

(** [v] is a point of the set [ok] closest to [q]. *)
Definition nearest (ok : Z -> Prop) (q : Q) (v : Z) : Prop :=
  ok v /\ forall w, ok w -> (Qabs (q - inject_Z v) <= Qabs (q - inject_Z w))%Q.
