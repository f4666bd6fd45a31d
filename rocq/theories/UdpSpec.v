(** Specification vocabulary for C86: kinds of histories. *)
From Verif Require Import Base UdpModel.
Open Scope list_scope.

(** The connection is not restarted. *)
Definition no_restart (o : op) : Prop := match o with ORestart _ => False | _ => True end.
(** No other remote address is set. *)
Definition keeps_remote (o : op) : Prop := match o with OSetRemote _ => False | _ => True end.
(** The remote address last set, [r] at first. *)
Fixpoint aimed (r : option addr) (ops : list op) : option addr :=
  match ops with [] => r | OSetRemote a :: l => aimed (Some a) l | _ :: l => aimed r l end.
(** Datagrams arrive and are processed, and everything sent leaves. *)
Definition quiet (o : op) : Prop :=
  match o with OReceive _ _ => True | ORead fs => forall i, fs i = Leaves | _ => False end.
