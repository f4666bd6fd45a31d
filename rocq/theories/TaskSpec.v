(** Vocabulary for the task properties. *)
From Verif Require Import Base PrimModel TaskModel.
Open Scope list_scope.
Open Scope Z_scope.

(** ** Tasks with an iteration limit *)

(** Nobody changes the limit. *)
Definition limit_kept (cs : list acmd) : Prop := forall n, ~ In (ASetMax n) cs.
Definition limit_fixed (l : list iteration) : Prop :=
  forall i, In i l -> limit_kept (it_during i) /\ limit_kept (it_asleep i).
(** An iteration after which only the limit can end the run: the dispatch
    returns True, there is no stop signal, and nobody disables the task or
    cancels it while it sleeps. *)
Definition quiet (i : iteration) : Prop :=
  it_result i = true /\ it_stop i = false /\ it_cancel i = false /\ ~ In (ASetEnabled false) (it_asleep i).
Definition run_dispatches (a : atask) during ok l : nat := fst (fst (a_run a during ok l)).
Definition run_ended (a : atask) during ok l : bool := snd (fst (a_run a during ok l)).

(** ** Periodic tasks *)

Definition loop_at (p : ptask) (i : nat) (pc : lpc) (stop canc : bool) : Prop :=
  nth_error (p_loops p) i = Some (mkLoop pc stop canc).
(** How often loop [i] has started a dispatch. *)
Definition starts (p : ptask) (i : nat) : nat := count_occ Nat.eq_dec (p_started p) i.
(** The run loops that have not returned. *)
Definition live (p : ptask) : list loop := filter (fun x => negb (finished (lp_pc x))) (p_loops p).
Definition in_progress (c : call) : bool := match cl_pc c with CDone | CRaised => false | _ => true end.

(** Whoever uses the task calls task() and stop() one after the other, and does
    not call run() directly. *)
Fixpoint sequential (p : ptask) (h : list pev) : Prop :=
  match h with
  | [] => True
  | e :: h =>
      match e with
      | PRun _ => False
      | PTask _ | PStop => forallb (fun c => negb (in_progress c)) (p_calls p) = true
      | _ => True
      end /\ sequential (p_step p e) h
  end.

(** No dispatch raises, and nobody but stop() cancels a loop that is awaiting a
    dispatch. *)
Fixpoint orderly (p : ptask) (h : list pev) : Prop :=
  match h with
  | [] => True
  | e :: h =>
      match e with
      | PLoop i DRaise | PCancel i =>
          match nth_error (p_loops p) i with Some (mkLoop LDispatch _ false) => False | _ => True end
      | _ => True
      end /\ orderly (p_step p e) h
  end.

Definition no_new_run (h : list pev) : Prop := forall b, ~ In (PRun b) h /\ ~ In (PTask b) h.

(** Dispatches that returned while their loop was waiting for them. *)
Fixpoint returned (p : ptask) (h : list pev) : list bool :=
  match h with
  | [] => []
  | e :: h =>
      match e with
      | PLoop i (DRet _ over) =>
          match nth_error (p_loops p) i with
          | Some (mkLoop LDispatch _ false) => [over]
          | _ => []
          end
      | _ => []
      end ++ returned (p_step p e) h
  end.
