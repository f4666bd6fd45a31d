(** Specification vocabulary for C91. *)
From Verif Require Import Base TcpModel.
Open Scope list_scope.
Open Scope Z_scope.

(** What arrived in session [i], in order, according to the history alone is not
    enough (a closed transport receives nothing), so these read the records of the
    connection. *)
Definition processed (c : conn) (i : nat) : list chunk := map snd (filter (fun e => Nat.eqb (fst e) i) (c_done c)).
Definition arrived (c : conn) (i : nat) : list chunk := match ses c i with Some s => s_recv s | None => [] end.
Definition transmitted (c : conn) (i : nat) : list chunk := match ses c i with Some s => s_out s | None => [] end.
Definition bytes (l : list chunk) : Z := fold_right (fun x s => zlen x + s) 0 l.
(** A list of sessions numbers that never goes back. *)
Fixpoint ascending (l : list nat) : Prop :=
  match l with a :: ((b :: _) as r) => (a <= b)%nat /\ ascending r | _ => True end.
