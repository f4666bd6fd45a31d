(** Specification vocabulary for C73 to C75. *)
From Verif Require Import Base PrimModel SubprocModel.

Definition is_full (c : chunk) : bool := match c with [] => false | _ => true end.
(** The chunks that carry data, in order. *)
Definition full (cs : list chunk) : list chunk := filter is_full cs.

(** The chunks with data that arrived on a file descriptor. *)
Fixpoint chunks_of (fd : Z) (ops : list sop) : list chunk :=
  match ops with
  | OData n d :: ops' => if n =? fd then full [d] ++ chunks_of fd ops' else chunks_of fd ops'
  | _ :: ops' => chunks_of fd ops'
  | [] => []
  end.

(** The queues have not been assigned in a run. *)
Definition no_attach (ops : list sop) : Prop := forall o e, ~ In (OAttach o e) ops.

(** What is waiting in a queue. *)
Definition waiting (q : option (list chunk)) : list chunk :=
  match q with Some l => full l | None => [] end.

(** The number of data chunks for which neither queue stands ready although
    the one for stderr exists. *)
Fixpoint misplaced (o e : bool) (ops : list sop) : nat :=
  match ops with
  | OData fd _ :: ops' =>
      (if e && negb (fd =? 2) && negb (o && (fd =? 1)) then 1 else 0) + misplaced o e ops'
  | _ :: ops' => misplaced o e ops'
  | [] => 0
  end.

(** No message handler raised. *)
Definition handlers_ok (ops : list sop) : Prop := ~ In (OMsg false) ops.

(** The polling task only. *)
Definition service (o : sop) : Prop := o = OWake \/ o = OTake \/ o = OMsg true.

(** Number of bytes. *)
Definition total (cs : list chunk) : Z := zlen (List.concat cs).

(** The bytes the program read. *)
Fixpoint read_of (ops : list iop) : list Z :=
  match ops with
  | IByte b :: ops' => b :: read_of ops'
  | _ :: ops' => read_of ops'
  | [] => []
  end.
Definition no_end (ops : list iop) : Prop := ~ In IEnd ops /\ ~ In ICancel ops.
