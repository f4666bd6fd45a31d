(** Vocabulary for asynchronous commands. *)
From Verif Require Import Base TaskModel AsyncCmdModel.
Open Scope list_scope.

(** The commands handed to the hooks after the object was set up. *)
Fixpoint issued (ready : bool) (h : list aev) : list cmd :=
  match h with
  | [] => []
  | ESetup _ :: h => issued true h
  | EIssue c true :: h => (if ready then [c] else []) ++ issued ready h
  | _ :: h => issued ready h
  end.
Definition active (p : ppc) : bool := match p with PCalled | PHandling _ => true | _ => false end.
(** A processor is only called when no other is at work. *)
Fixpoint one_at_a_time (s : acs) (h : list aev) : Prop :=
  match h with
  | [] => True
  | e :: h => (e = ECall -> forallb (fun p => negb (active p)) (ac_procs s) = true) /\ one_at_a_time (ac_step s e) h
  end.
Definition no_failure (h : list aev) : Prop := forall k, ~ In (EMove k false) h.
Definition handling (s : acs) : list cmd := flat_map (fun p => match p with PHandling c => [c] | _ => [] end) (ac_procs s).
(** [l] contains [a] and [b], each in its order. *)
Inductive merged {A} : list A -> list A -> list A -> Prop :=
| m_nil : merged [] [] []
| m_left x a b l : merged a b l -> merged (x :: a) b (x :: l)
| m_right x a b l : merged a b l -> merged a (x :: b) (x :: l).
(** A known custom command goes to the function of its name, any other command
    to the command handler of the object. *)
Definition right_target (customs : list string) (c : cmd) (t : target) : Prop :=
  if cm_custom c then t = TCustom (cm_name c) /\ In (cm_name c) customs else t = THandle.

(** Housekeeping and the commands of the objects. *)
Inductive hev := HIssue (k : nat) (raises : bool) | HDispatch.
Definition hk_step (s : hk) (e : hev) : hk := match e with HIssue k r => hk_issue k r s | HDispatch => hk_dispatch s end.
