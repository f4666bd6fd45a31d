(** Asynchronous tasks with an iteration limit, and periodic tasks.

    Coroutines are modelled as state machines that move from one [await] to the
    next; whatever other coroutines and callers do happens in between.  Names,
    logging and durations are left out. *)
From Verif Require Import Base PrimModel.
Open Scope list_scope.
Open Scope Z_scope.

(** * AsyncTask *)

(** The channels of task/asynchronous.py:42-60 that decide when it stops:
    enabled, max_iterations (uint32) and dispatches (uint8). *)
Record atask := mkAtask { a_enabled : bool; a_max : Z; a_count : Z }.

(** asynchronous.py:51-60 with the initial values of the channels. *)
Definition a_new (max_iterations : Z) : atask := mkAtask false (k_store U32 max_iterations) 0.

(** asynchronous.py:119-125 [enable], [disable]; also what a command on the
    channel does. *)
Definition a_set_enabled (b : bool) (a : atask) : atask := mkAtask b (a_max a) (a_count a).
(** A command on the commandable channel max_iterations. *)
Definition a_set_max (n : Z) (a : atask) : atask := mkAtask (a_enabled a) (k_store U32 n) (a_count a).
(** asynchronous.py:84-93 [reset_metrics]. *)
Definition a_reset (a : atask) : atask := mkAtask (a_enabled a) (a_max a) 0.

(** What other coroutines (or the dispatch method itself) do to the channels. *)
Inductive acmd := ASetEnabled (b : bool) | ASetMax (n : Z).
Definition a_cmd (a : atask) (c : acmd) : atask :=
  match c with ASetEnabled b => a_set_enabled b a | ASetMax n => a_set_max n a end.
Definition a_cmds (a : atask) (cs : list acmd) : atask := fold_left a_cmd cs a.

(** One iteration: what happens during the dispatch, what it returns, whether
    the stop signal is set afterwards, what happens during the sleep and
    whether the sleep is cancelled. *)
Record iteration := mkIt {
  it_during : list acmd; it_result : bool; it_stop : bool; it_asleep : list acmd; it_cancel : bool
}.

(** asynchronous.py:147-177: the loop body.  Line 151: the left operand of
    [&=] is read before the [await], so a command that arrives during the
    dispatch is overwritten. *)
Definition a_iter (a : atask) (i : iteration) : atask :=
  let e := a_enabled a in
  let a := a_cmds a (it_during i) in
  let a := a_set_enabled (e && it_result i) a in
  let a := mkAtask (a_enabled a) (a_max a) (k_store U8 (a_count a + 1)) in
  let a := if ((a_max a >? 0) && (a_count a >=? a_max a)) || it_stop i then a_set_enabled false a else a in
  if a_enabled a then
    let a := a_cmds a (it_asleep i) in
    if it_cancel i then a_set_enabled false a else a
  else a.

(** asynchronous.py:146: the loop.  Returns the number of dispatches and
    whether the loop has ended (it has not when the iterations run out). *)
Fixpoint a_loop (a : atask) (l : list iteration) : nat * bool * atask :=
  if a_enabled a then
    match l with
    | [] => (O, false, a)
    | i :: l => let '(n, ended, a') := a_loop (a_iter a i) l in (S n, ended, a')
    end
  else (O, true, a).

(** asynchronous.py:127-180 [run]: [during] and [ok] are what happens during
    [init] and what it returns. *)
Definition a_run (a : atask) (during : list acmd) (ok : bool) (l : list iteration) : nat * bool * atask :=
  let a := a_set_enabled true (a_reset a) in
  a_loop (a_set_enabled (true && ok) (a_cmds a during)) l.

(** * PeriodicTask *)

(** Where a run loop is (task/basic/periodic.py:139-187). *)
Inductive lpc :=
| LNew                        (* created, not started *)
| LDispatch                   (* 167: awaiting the dispatch *)
| LSleep                      (* 182: asleep *)
| LEnd                        (* returned *)
| LFailed                     (* 147: assertion failed *)
| LCancelled                  (* a cancellation escaped *)
| LRaised.                    (* an exception of the dispatch escaped *)
Definition finished (p : lpc) : bool :=
  match p with LNew | LDispatch | LSleep => false | _ => true end.

(** [lp_stop]: the loop was given the stop signal; [lp_cancel]: a cancellation
    is pending. *)
Record loop := mkLoop { lp_pc : lpc; lp_stop : bool; lp_cancel : bool }.

(** Calls of stop() and task(): at the start, waiting for a cancelled loop
    (periodic.py:204), in stop_extra (207), returned or raised. *)
Inductive cpc := CNew | CWait (l : nat) | CExtra | CDone | CRaised.
(** [cl_task]: Some stop when the call is task(stop_sig) / task(), None when it
    is stop(). *)
Record call := mkCall { cl_task : option bool; cl_pc : cpc }.

Record ptask := mkPtask {
  p_enabled : bool;              (* 67 *)
  p_paused : bool;               (* 79 *)
  p_sig : bool;                  (* the stop signal *)
  p_task : option nat;           (* 64: the current event-loop task *)
  p_loops : list loop;
  p_calls : list call;
  p_started : list nat;          (* the loops that started a dispatch, in order *)
  p_dispatches : Z;              (* metrics/task.py:111 *)
  p_overruns : Z                 (* metrics/task.py:116 *)
}.
Definition p_new : ptask := mkPtask false false false None [] [] [] 0 0.

Definition p_set_enabled (b : bool) (p : ptask) : ptask :=
  mkPtask b (p_paused p) (p_sig p) (p_task p) (p_loops p) (p_calls p) (p_started p) (p_dispatches p) (p_overruns p).
Definition p_set_paused (b : bool) (p : ptask) : ptask :=
  mkPtask (p_enabled p) b (p_sig p) (p_task p) (p_loops p) (p_calls p) (p_started p) (p_dispatches p) (p_overruns p).
Definition p_set_sig (p : ptask) : ptask :=
  mkPtask (p_enabled p) (p_paused p) true (p_task p) (p_loops p) (p_calls p) (p_started p) (p_dispatches p) (p_overruns p).
Definition p_set_task (t : option nat) (p : ptask) : ptask :=
  mkPtask (p_enabled p) (p_paused p) (p_sig p) t (p_loops p) (p_calls p) (p_started p) (p_dispatches p) (p_overruns p).
Definition p_set_loops (l : list loop) (p : ptask) : ptask :=
  mkPtask (p_enabled p) (p_paused p) (p_sig p) (p_task p) l (p_calls p) (p_started p) (p_dispatches p) (p_overruns p).
Definition p_set_calls (l : list call) (p : ptask) : ptask :=
  mkPtask (p_enabled p) (p_paused p) (p_sig p) (p_task p) (p_loops p) l (p_started p) (p_dispatches p) (p_overruns p).
Definition p_start (i : nat) (p : ptask) : ptask :=
  mkPtask (p_enabled p) (p_paused p) (p_sig p) (p_task p) (p_loops p) (p_calls p)
    (p_started p ++ [i]) (p_dispatches p) (p_overruns p).
(** metrics/task.py:148-156: after a dispatch that returned; [over] tells
    whether it took longer than the period. *)
Definition p_measure (over : bool) (p : ptask) : ptask :=
  mkPtask (p_enabled p) (p_paused p) (p_sig p) (p_task p) (p_loops p) (p_calls p) (p_started p)
    (k_store U32 (p_dispatches p + 1))
    (if over then k_store U16 (p_overruns p + 1) else p_overruns p).

Fixpoint upd {A} (i : nat) (x : A) (l : list A) : list A :=
  match i, l with
  | _, [] => []
  | O, _ :: l => x :: l
  | S i, y :: l => y :: upd i x l
  end.

Definition set_pc (i : nat) (x : loop) (pc : lpc) (p : ptask) : ptask :=
  p_set_loops (upd i (mkLoop pc (lp_stop x) false) (p_loops p)) p.
(** Task.cancel(): the next resumption raises CancelledError; nothing happens
    to a finished task. *)
Definition cancel (i : nat) (p : ptask) : ptask :=
  match nth_error (p_loops p) i with
  | Some x => if finished (lp_pc x) then p else p_set_loops (upd i (mkLoop (lp_pc x) (lp_stop x) true) (p_loops p)) p
  | None => p
  end.

(** periodic.py:171-182: after the dispatch (or instead of it when paused), up
    to the sleep.  When the task is no longer enabled the loop ends. *)
Definition p_tail (i : nat) (x : loop) (p : ptask) : ptask :=
  let p := if lp_stop x then p_set_enabled (negb (p_sig p)) p else p in
  if p_enabled p then set_pc i x LSleep p else set_pc i x LEnd p.

(** periodic.py:158-169: the head of the loop, up to the next [await].  The
    dispatch is recorded when its coroutine is scheduled (simplification: it
    starts to execute at the following turn of the event loop). *)
Definition p_head (i : nat) (x : loop) (p : ptask) : ptask :=
  if p_enabled p then
    if p_paused p then p_tail i x p
    else set_pc i x LDispatch (p_start i p)
  else set_pc i x LEnd p.

(** What a dispatch does in the end. *)
Inductive dres := DRet (ok over : bool) | DRaise.

(** periodic.py:139-187 [run], from one [await] to the next.  [r] is the
    outcome of the dispatch when the loop awaits one.  A pending cancellation
    is raised at the [await]: line 183 catches it around the sleep only; the
    dispatch is shielded, so it goes on by itself. *)
Definition p_resume (i : nat) (r : dres) (p : ptask) : ptask :=
  match nth_error (p_loops p) i with
  | None => p
  | Some x =>
      match lp_pc x with
      | LNew =>
          if lp_cancel x then set_pc i x LCancelled p
          else if p_enabled p then set_pc i x LFailed p
          else p_head i x (p_set_enabled true p)
      | LDispatch =>
          if lp_cancel x then set_pc i x LCancelled p
          else
            match r with
            | DRaise => set_pc i x LRaised p
            | DRet ok over => p_tail i x (p_measure over (p_set_enabled ok p))
            end
      | LSleep => if lp_cancel x then set_pc i x LEnd (p_set_enabled false p) else p_head i x p
      | _ => p
      end
  end.

Definition set_call (j : nat) (c : call) (pc : cpc) (p : ptask) : ptask :=
  p_set_calls (upd j (mkCall (cl_task c) pc) (p_calls p)) p.

(** periodic.py:207-208, 218-221: stop_extra has returned. *)
Definition c_finish (j : nat) (c : call) (p : ptask) : ptask :=
  match cl_task c with
  | None => set_call j c CDone p
  | Some stop =>
      set_call j c CDone
        (p_set_task (Some (List.length (p_loops p))) (p_set_loops (p_loops p ++ [mkLoop LNew stop false]) p))
  end.

(** periodic.py:192-221 [stop] and [task], from one [await] to the next. *)
Definition c_resume (j : nat) (p : ptask) : ptask :=
  match nth_error (p_calls p) j with
  | None => p
  | Some c =>
      match cl_pc c with
      | CNew =>
          match p_task p with
          | None => c_finish j c p
          | Some i =>
              match nth_error (p_loops p) i with
              | Some x =>
                  if finished (lp_pc x) then set_call j c CExtra (p_set_task None p)
                  else set_call j c (CWait i) (cancel i (p_set_enabled false p))
              | None => p
              end
          end
      | CWait i =>
          match nth_error (p_loops p) i with
          | Some x =>
              match lp_pc x with
              | LEnd | LCancelled => set_call j c CExtra (p_set_task None p)
              | LFailed | LRaised => set_call j c CRaised p
              | _ => p               (* still waiting *)
              end
          | None => p
          end
      | CExtra => c_finish j c p
      | _ => p
      end
  end.

(** Everything that can happen. *)
Inductive pev :=
| PPause (b : bool)              (* the commandable channel "paused" *)
| PDisable                       (* periodic.py:131-137 *)
| PSignal                        (* the stop signal is set *)
| PRun (stop : bool)             (* run() scheduled directly *)
| PTask (stop : bool)            (* task() *)
| PStop                          (* stop() *)
| PCancel (i : nat)              (* somebody cancels an event-loop task *)
| PLoop (i : nat) (r : dres)
| PCall (j : nat).

Definition p_step (p : ptask) (e : pev) : ptask :=
  match e with
  | PPause b => p_set_paused b p
  | PDisable => p_set_enabled false p
  | PSignal => p_set_sig p
  | PRun stop => p_set_loops (p_loops p ++ [mkLoop LNew stop false]) p
  | PTask stop => p_set_calls (p_calls p ++ [mkCall (Some stop) CNew]) p
  | PStop => p_set_calls (p_calls p ++ [mkCall None CNew]) p
  | PCancel i => cancel i p
  | PLoop i r => p_resume i r p
  | PCall j => c_resume j p
  end.
Definition p_run (p : ptask) (h : list pev) : ptask := fold_left p_step h p.
