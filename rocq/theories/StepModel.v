(** Model of the manual clock: runtimepy/control/step.py.

    Structs of the application are numbered; some are steppers.  What a plain
    struct does when it is polled is reduced to that it was polled, at what
    time, and whether it raised (an arbitrary function of what was polled
    before); it does not operate a stepper.  Time is in nanoseconds.  The
    simulated time of vcorelib.math (SimulatedTime, set_simulated_source,
    restore_time_source) is assumed to be: one global source, either the real
    clock or a counter that a step advances by the configured amount. *)
From Coq Require Import Ascii.
From Verif Require Import Base.
Open Scope list_scope.
Open Scope Z_scope.

(** 27-41 [should_poll]: by the name of the struct's class. *)
Definition dont_poll : list string := ["ToggleStepper"; "UiState"; "SampleStruct"]%string.
Definition should_poll (kind : string) : bool :=
  negb (existsb (String.eqb kind) dont_poll) && negb (String.prefix "Rt" kind).
(** 160-164: the structs a stepper polls, given the classes of all of them
    (including its own) and the configuration's "global". *)
Fixpoint poll_set_from (i : nat) (kinds : list string) : list nat :=
  match kinds with
  | [] => []
  | k :: r => if should_poll k then i :: poll_set_from (S i) r else poll_set_from (S i) r
  end.
Definition poll_set (glob : bool) (kinds : list string) : list nat := if glob then poll_set_from 0 kinds else [].

(** What a reading of the default time source gives. *)
Inductive seen_time := Real | Sim (ns : Z).

Record stepper := mkStepper {
  t_step : bool; t_sim : bool; t_count : Z; t_counts : Z; t_time : seen_time;
  t_now : Z; t_dt : Z;           (* the simulated clock and its increment *)
  t_poll : list nat              (* to_poll, in the order the set is iterated *)
}.
Record world := mkWorld {
  w_step : nat -> option stepper;      (* the steppers among the structs *)
  w_source : option nat;               (* whose simulated clock is the time source *)
  w_log : list (nat * seen_time)       (* plain structs polled, and when *)
}.

Definition u32 (v : Z) : Z := v mod 2 ^ 32.
Definition time_now (w : world) : seen_time :=
  match w_source w with
  | Some s => match w_step w s with Some t => Sim (t_now t) | None => Real end
  | None => Real
  end.
Definition put (w : world) (s : nat) (t : stepper) : world :=
  mkWorld (fun i => if Nat.eqb i s then Some t else w_step w i) (w_source w) (w_log w).
Definition s_time (t : stepper) (x : seen_time) : stepper :=
  mkStepper (t_step t) (t_sim t) (t_count t) (t_counts t) x (t_now t) (t_dt t) (t_poll t).
(** 74-76 [_poll_time]. *)
Definition poll_time (w : world) (s : nat) : world :=
  match w_step w s with Some t => put w s (s_time t (time_now w)) | None => w end.

Section Polls.
  (** Whether polling a plain struct raises, given what was polled before. *)
  Context (fails : list (nat * seen_time) -> nat -> bool).

  Fixpoint poll_items (f : world -> nat -> world * bool) (w : world) (items : list nat) : world * bool :=
    match items with
    | [] => (w, false)
    | i :: r => match f w i with (w', true) => (w', true) | (w', false) => poll_items f w' r end
    end.

  (** 166-181 [poll] of a stepper; [fuel] is what remains of Python's recursion
      limit.  The boolean tells that it raised. *)
  Fixpoint poll (fuel : nat) (w : world) (s : nat) : world * bool :=
    match fuel with
    | O => (w, true)
    | S f =>
        match w_step w s with
        | None => if fails (w_log w) s then (w, true)
                  else (mkWorld (w_step w) (w_source w) (w_log w ++ [(s, time_now w)]), false)
        | Some t =>
            match poll_items (poll f) (poll_time w s) (t_poll t) with
            | (w', true) => (w', true)
            | (w', false) =>
                match w_step w' s with
                | Some t' =>
                    (put w' s (mkStepper (t_step t') (t_sim t') (t_count t') (u32 (t_counts t' + 1)) (t_time t')
                                 (t_now t' + t_dt t') (t_dt t') (t_poll t')), false)
                | None => (w', false)
                end
            end
        end
    end.

  (** 103-107 [do_step]: the number of iterations is read once. *)
  Fixpoint iterate (limit : nat) (n : nat) (w : world) (s : nat) : world * bool :=
    match n with
    | O => (w, false)
    | S n' => match poll limit w s with (w', true) => (w', true) | (w', false) => iterate limit n' w' s end
    end.

  (** Assignments to the channels of a stepper.  A callback runs when the value
      changes, after it is stored. *)
  Inductive op := SetStep (s : nat) (b : bool) | SetCount (s : nat) (v : Z) | SetSim (s : nat) (b : bool) | Toggle (s : nat).
  Definition set_step (limit : nat) (w : world) (s : nat) (b : bool) : world * bool :=
    match w_step w s with
    | None => (w, false)
    | Some t =>
        if Bool.eqb (t_step t) b then (w, false)
        else iterate limit (Z.to_nat (t_count t))
               (put w s (mkStepper b (t_sim t) (t_count t) (t_counts t) (t_time t) (t_now t) (t_dt t) (t_poll t))) s
    end.
  (** 142-155 [do_simulate_time]; clearing the plots of clients is left out. *)
  Definition set_sim (w : world) (s : nat) (b : bool) : world :=
    match w_step w s with
    | None => w
    | Some t =>
        if Bool.eqb (t_sim t) b then w
        else
          let w1 := put w s (mkStepper (t_step t) b (t_count t) (t_counts t) (t_time t) (t_now t) (t_dt t) (t_poll t)) in
          poll_time (mkWorld (w_step w1) (if b then Some s else None) (w_log w1)) s
    end.
  Definition set_count (w : world) (s : nat) (v : Z) : world :=
    match w_step w s with
    | None => w
    | Some t => put w s (mkStepper (t_step t) (t_sim t) (u32 v) (t_counts t) (t_time t) (t_now t) (t_dt t) (t_poll t))
    end.
  Definition step (limit : nat) (w : world) (o : op) : world * bool :=
    match o with
    | SetStep s b => set_step limit w s b
    | SetCount s v => (set_count w s v, false)
    | SetSim s b => (set_sim w s b, false)
    | Toggle s => match w_step w s with Some t => set_step limit w s (negb (t_step t)) | None => (w, false) end
    end.
  Fixpoint run (limit : nat) (w : world) (ops : list op) : world * list bool :=
    match ops with
    | [] => (w, [])
    | o :: r => let '(w1, b) := step limit w o in let '(w2, bs) := run limit w1 r in (w2, b :: bs)
    end.

  (** 196-203 [dispatch] of the task: every stepper is toggled. *)
  Fixpoint dispatch (limit : nat) (w : world) (steppers : list nat) : world * bool :=
    match steppers with
    | [] => (w, false)
    | s :: r => match step limit w (Toggle s) with (w', true) => (w', true) | (w', false) => dispatch limit w' r end
    end.
End Polls.

(** 78-164 [init_env]: a stepper as built. *)
Definition stepper_new (count dt start : Z) (polls : list nat) : stepper :=
  mkStepper false false (u32 count) 0 Real start dt polls.
