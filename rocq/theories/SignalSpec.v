(** What is said of signals. *)
From Verif Require Import Base SignalModel.
Open Scope list_scope.

(** The last assignment of each channel in a history, and the angle of the last step. *)
Section Last.
  Context {F : Type} (tau : F) (mul div : F -> F -> F) (of_step : Z -> F) (rnd : F -> F).
  Definition last_amp (d : F) (ops : list (top F)) : F := fold_left (fun x o => match o with SetAmp v => rnd v | _ => x end) ops d.
  Definition last_sin_phase (d : F) (ops : list (top F)) : F := fold_left (fun x o => match o with SetSinPhase v => rnd v | _ => x end) ops d.
  Definition last_cos_phase (d : F) (ops : list (top F)) : F := fold_left (fun x o => match o with SetCosPhase v => rnd v | _ => x end) ops d.
  Definition last_steps (d : F) (ops : list (top F)) : F := fold_left (fun x o => match o with SetSteps v => rnd v | _ => x end) ops d.
  (** The step is a fraction of the circle, with the number of steps at that time. *)
  Fixpoint last_angle (steps angle : F) (ops : list (top F)) : F :=
    match ops with
    | [] => angle
    | SetSteps v :: ops => last_angle (rnd v) angle ops
    | Dispatch s :: ops => last_angle steps (mul (div tau steps) (of_step s)) ops
    | _ :: ops => last_angle steps angle ops
    end.
End Last.
(** A number of flushes. *)
Definition flushes (l : list bool) : Z := zlen (filter (fun b => b) l).
Definition captures (l : list bool) : Z := zlen (filter negb l).
