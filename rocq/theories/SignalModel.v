(** Model of runtimepy/mixins/trig.py (sine and cosine channels), runtimepy/control/
    source.py (signal sources) and of the dispatch method of the sample telemetry task
    (runtimepy/telemetry/sample.py).

    Numbers are a parameter: a type with the operations the code uses, so what is proved
    holds for floating-point numbers and their rounding.  [fsin] and [fcos] give None
    where math.sin and math.cos raise (infinite angles); [neb] is the comparison [!=] that
    decides whether callbacks are called; [rnd] is what storing a value in a Float
    primitive makes of it.  Simplification: nobody else assigns the sin and cos channels
    (they are not commandable). *)
From Verif Require Import Base PyStrModel.
Open Scope list_scope.

Section Trig.
  Context {F : Type} (zero tau : F) (mul add div : F -> F -> F) (of_step : Z -> F)
          (fsin fcos : F -> option F) (rnd : F -> F) (neb : F -> F -> bool) (is_zero : F -> bool).

  (** mixins/trig.py:28-49. *)
  Record trig := mkTrig {
    t_angle : F; t_steps : F; t_amp : F; t_sp : F; t_cp : F; t_sin : F; t_cos : F
  }.
  (** 26-49: [step_angle] is [float()]; sin and cos are created without values; the
      others have the defaults of their controls (ui/controls.py:33-44, assigned by
      channel/__init__.py:72-83 before the callbacks are registered). *)
  Definition trig0 (steps amp sp cp : F) : trig := mkTrig zero (rnd steps) (rnd amp) (rnd sp) (rnd cp) zero zero.
  (** 65-71 [_update_sin]; the flag: it did not raise. *)
  Definition update_sin (t : trig) : trig * bool :=
    match fsin (add (t_angle t) (t_sp t)) with
    | None => (t, false)
    | Some c => (mkTrig (t_angle t) (t_steps t) (t_amp t) (t_sp t) (t_cp t) (rnd (mul (t_amp t) c)) (t_cos t), true)
    end.
  (** 73-79 [_update_cos]. *)
  Definition update_cos (t : trig) : trig * bool :=
    match fcos (add (t_angle t) (t_cp t)) with
    | None => (t, false)
    | Some c => (mkTrig (t_angle t) (t_steps t) (t_amp t) (t_sp t) (t_cp t) (t_sin t) (rnd (mul (t_amp t) c)), true)
    end.
  (** One after the other; the second is not reached if the first raises. *)
  Definition both (t : trig) : trig * bool :=
    let '(t1, ok) := update_sin t in if ok then update_cos t1 else (t1, false).
  Inductive top :=
  | SetAmp (v : F) | SetSinPhase (v : F) | SetCosPhase (v : F) | SetSteps (v : F) | Dispatch (step : Z).
  (** 59-63 with primitives/base.py:136-164: an assignment stores the value and then
      calls the callbacks if the value differs from the stored one; 81-86
      [dispatch_trig], where a zero number of steps is a ZeroDivisionError. *)
  Definition t_step (t : trig) (o : top) : trig * bool :=
    match o with
    | SetAmp v =>
        let t1 := mkTrig (t_angle t) (t_steps t) (rnd v) (t_sp t) (t_cp t) (t_sin t) (t_cos t) in
        if neb (t_amp t) v then both t1 else (t1, true)
    | SetSinPhase v =>
        let t1 := mkTrig (t_angle t) (t_steps t) (t_amp t) (rnd v) (t_cp t) (t_sin t) (t_cos t) in
        if neb (t_sp t) v then update_sin t1 else (t1, true)
    | SetCosPhase v =>
        let t1 := mkTrig (t_angle t) (t_steps t) (t_amp t) (t_sp t) (rnd v) (t_sin t) (t_cos t) in
        if neb (t_cp t) v then update_cos t1 else (t1, true)
    | SetSteps v => (mkTrig (t_angle t) (rnd v) (t_amp t) (t_sp t) (t_cp t) (t_sin t) (t_cos t), true)
    | Dispatch s =>
        if is_zero (t_steps t) then (t, false)
        else both (mkTrig (mul (div tau (t_steps t)) (of_step s)) (t_steps t) (t_amp t) (t_sp t) (t_cp t) (t_sin t) (t_cos t))
    end.
  Fixpoint t_run (ops : list top) (t : trig) : trig * list bool :=
    match ops with
    | [] => (t, [])
    | o :: ops => let '(t1, ok) := t_step t o in let '(t2, oks) := t_run ops t1 in (t2, ok :: oks)
    end.

  (** control/source.py:57-64 [poll]: the outputs in order; [source] gives None where it
      raises.  [conv] is what assigning to an output makes of a value. *)
  Context (conv : F -> F).
  Fixpoint poll (source : nat -> option F) (i : nat) (amps outs : list F) : list F * bool :=
    match amps, outs with
    | a :: amps, o :: outs =>
        match source i with
        | None => (o :: outs, false)
        | Some s => let '(rest, ok) := poll source (S i) amps outs in (conv (mul a s) :: rest, ok)
        end
    | _, _ => (outs, true)
    end.
End Trig.
Arguments trig : clear implicits.
Arguments top : clear implicits.

(** control/source.py:41-53: the channels of a source, in the order they are made. *)
Definition output_name (i : nat) : str := dec (Z.of_nat i) ++ lit ".output".
Definition amplitude_name (i : nat) : str := dec (Z.of_nat i) ++ lit ".amplitude".
Definition source_names (count : Z) : list str :=
  List.concat (map (fun i => [output_name i; amplitude_name i]) (seq 0 (Z.to_nat count))).

(** telemetry/sample.py:96-104 [dispatch] of the sample task, for the number of
    dispatches before it and the value of its channel: the captures it makes (True: one
    that flushes) and whether it returns. *)
Definition sample_dispatch (dispatches flush_count : Z) : list bool * bool :=
  if flush_count =? 0 then ([false], false)
  else if dispatches mod flush_count =? 0 then ([false; true], true) else ([false], true).
(** Dispatches one after the other, the first with number [d]; metrics/task.py:68 counts
    them in 32 bits.  An exception ends the task (task/basic/periodic.py:162-175). *)
Fixpoint sample_run (d : Z) (counts : list Z) : list bool :=
  match counts with
  | [] => []
  | c :: counts =>
      let '(caps, ok) := sample_dispatch (d mod 2 ^ 32) c in
      caps ++ if ok then sample_run (d + 1) counts else []
  end.
