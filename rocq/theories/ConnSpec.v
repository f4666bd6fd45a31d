(** Vocabulary for the connection lifecycle. *)
From Verif Require Import Base PrimModel BackoffModel TaskModel ConnModel.
Open Scope list_scope.

(** How often the connection went from enabled to disabled. *)
Fixpoint ends (c : conn) (h : list cev) : nat :=
  match h with
  | [] => O
  | e :: h =>
      ((if c_enabled c && negb (c_enabled (c_step c e)) then 1 else 0) + ends (c_step c e) h)%nat
  end.

(** The calls of restart() made by the process() call [k], and those of them
    made after the stop signal. *)
Definition by_proc (k : nat) (a : attempt) : bool := Nat.eqb (at_proc a) k.
Definition attempts_of (k : nat) (c : conn) : list attempt := filter (by_proc k) (c_log c).
Definition late_attempts (k : nat) (c : conn) : list attempt := filter at_stop (attempts_of k c).
(** The calls of restart() that returned and those that returned True. *)
Fixpoint restarted (c : conn) (h : list cev) : list bool :=
  match h with
  | [] => []
  | e :: h =>
      match e with
      | EProc k (Ret ok) =>
          match nth_error (c_procs c) k with
          | Some p => match pr_pc p with PRestart => [ok] | _ => [] end
          | None => []
          end
      | _ => []
      end ++ restarted (c_step c e) h
  end.

(** process() calls do not overlap. *)
Definition over (p : proc) : bool := match pr_pc p with PReturned | PRaised => true | _ => false end.
Fixpoint separate (c : conn) (h : list cev) : Prop :=
  match h with
  | [] => True
  | e :: h =>
      ((List.length (c_procs c) < List.length (c_procs (c_step c e)))%nat -> forallb over (c_procs c) = true) /\
      separate (c_step c e) h
  end.

(** The tasks of process() call [k], which is waiting for them. *)
Definition serving (c : conn) (k : nat) : Prop :=
  exists p, nth_error (c_procs c) k = Some p /\ pr_pc p = PGather.
Definition task_done (c : conn) (k : nat) (w : which) : Prop :=
  exists p, nth_error (c_procs c) k = Some p /\ done (pr_get w p) = true.

Inductive subseq {A} : list A -> list A -> Prop :=
| sub_nil : subseq [] []
| sub_skip : forall x l l', subseq l l' -> subseq l (x :: l')
| sub_take : forall x l l', subseq l l' -> subseq (x :: l) (x :: l').

(** No awaited call of the reader or the writer raises. *)
Definition no_raise (h : list cev) : Prop :=
  forall k w, In (ESub k w Raise) h -> w = Init \/ w = WaitSig.
(** No initialization fails. *)
Definition init_succeeds (h : list cev) : Prop := forall k, ~ In (ESub k Init (Ret false)) h.
