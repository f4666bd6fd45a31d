(** Specification vocabulary for C85. *)
From Verif Require Import Base StepModel.
Open Scope list_scope.
Open Scope Z_scope.

(** What a user can tell of a stepper: the position of the switch, whether time
    is simulated, the number of iterations per edge, the iterations so far. *)
Record view := mkView { v_step : bool; v_sim : bool; v_count : Z; v_total : Z }.
(** What does not change: where the simulated clock starts, its increment, the
    structs polled. *)
Record setup := mkSetup { u_start : Z; u_dt : Z; u_polls : list nat }.
Definition ideal_time (u : nat -> option setup) (v : nat -> view) (src : option nat) : seen_time :=
  match src with
  | Some s => match u s with Some x => Sim (u_start x + v_total (v s) * u_dt x) | None => Real end
  | None => Real
  end.
Definition upv (v : nat -> view) (s : nat) (x : view) : nat -> view := fun i => if Nat.eqb i s then x else v i.

Section Ideal.
  Context (u : nat -> option setup).
  (** [n] iterations of stepper [s]: each polls every struct of [s] once. *)
  Fixpoint ideal_iterations (v : nat -> view) (src : option nat) (s : nat) (polls : list nat) (n : nat) : list (nat * seen_time) :=
    match n with
    | O => []
    | S n' =>
        map (fun i => (i, ideal_time u v src)) polls ++
        ideal_iterations (upv v s (mkView (v_step (v s)) (v_sim (v s)) (v_count (v s)) (v_total (v s) + 1))) src s polls n'
    end.
  (** An operation: what is polled, and the state after. *)
  Definition ideal_edge (v : nat -> view) (src : option nat) (s : nat) (b : bool)
    : list (nat * seen_time) * (nat -> view) * option nat :=
    match u s with
    | None => ([], v, src)
    | Some x =>
        let y := v s in
        if Bool.eqb (v_step y) b then ([], v, src)
        else (ideal_iterations v src s (u_polls x) (Z.to_nat (v_count y)),
              upv v s (mkView b (v_sim y) (v_count y) (v_total y + v_count y)), src)
    end.
  Definition ideal_step (v : nat -> view) (src : option nat) (o : op) : list (nat * seen_time) * (nat -> view) * option nat :=
    match o with
    | SetStep s b => ideal_edge v src s b
    | Toggle s => ideal_edge v src s (negb (v_step (v s)))
    | SetCount s n =>
        match u s with
        | None => ([], v, src)
        | Some _ => ([], upv v s (mkView (v_step (v s)) (v_sim (v s)) (n mod 2 ^ 32) (v_total (v s))), src)
        end
    | SetSim s b =>
        match u s with
        | None => ([], v, src)
        | Some _ =>
            if Bool.eqb (v_sim (v s)) b then ([], v, src)
            else ([], upv v s (mkView (v_step (v s)) b (v_count (v s)) (v_total (v s))), if b then Some s else None)
        end
    end.
  Fixpoint ideal_run (v : nat -> view) (src : option nat) (ops : list op) : list (nat * seen_time) * (nat -> view) * option nat :=
    match ops with
    | [] => ([], v, src)
    | o :: r =>
        let '(l1, v1, s1) := ideal_step v src o in
        let '(l2, v2, s2) := ideal_run v1 s1 r in (l1 ++ l2, v2, s2)
    end.
End Ideal.

(** The world is in the state the user sees. *)
Definition shows (c0 : nat -> Z) (w : world) (u : nat -> option setup) (v : nat -> view) (src : option nat) : Prop :=
  w_source w = src /\
  forall s, match w_step w s, u s with
            | None, None => True
            | Some t, Some x =>
                t_step t = v_step (v s) /\ t_sim t = v_sim (v s) /\ t_count t = v_count (v s) /\ 0 <= v_count (v s) < 2 ^ 32 /\
                t_counts t = (c0 s + v_total (v s)) mod 2 ^ 32 /\ t_now t = u_start x + v_total (v s) * u_dt x /\
                t_dt t = u_dt x /\ t_poll t = u_polls x
            | _, _ => False
            end.
(** No stepper polls a stepper. *)
Definition plain (u : nat -> option setup) : Prop :=
  forall s x i, u s = Some x -> In i (u_polls x) -> u i = None.
