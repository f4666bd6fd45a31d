(** Specification vocabulary for C92. *)
From Verif Require Import Base MgrModel.
Open Scope list_scope.

(** The connections whose processing was started when they were taken, in order. *)
Definition accepted (m : mgr) : list nat := map k_conn (filter k_first (m_calls m)).
(** A connection taken from the queue and not accepted yet. *)
Definition in_hand (m : mgr) : list nat := match m_get m with Some (Some c) => [c] | _ => [] end.
(** How often process() of a connection was called by the manager. *)
Definition calls_of (c : nat) (m : mgr) : nat := List.length (filter (fun k => Nat.eqb (k_conn k) c) (m_calls m)).
(** The manager has nothing to do with connection [c]. *)
Definition unknown (c : nat) (m : mgr) : Prop := ~ In c (m_conns m) /\ ~ In c (in_hand m) /\ ~ In c (m_queue m).
