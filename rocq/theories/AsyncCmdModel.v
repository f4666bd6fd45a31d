(** Commands that are handled asynchronously: hook, queue and processors.

    A processor is one call of process_command_queue; it moves from one await to
    the next, and the history decides who moves when. *)
From Verif Require Import Base TaskModel.
Open Scope list_scope.

(** The parsed arguments, as far as they matter: a custom command (and its
    name) or another one, and everything else about it. *)
Record cmd := mkCmd { cm_custom : bool; cm_name : string; cm_rest : Z }.

(** Where a processor is: called, awaiting the handler of a command, returned,
    or ended by an exception of a handler. *)
Inductive ppc := PCalled | PHandling (c : cmd) | PDone | PFailed.
(** What a command was given to. *)
Inductive target := TCustom (name : string) | THandle.
Record acs := mkAcs {
  ac_hooks : nat;                     (* how often _handle_command is in command.hooks *)
  ac_customs : list string;           (* names of registered custom commands *)
  ac_queue : list cmd;
  ac_begun : list (cmd * target);     (* handlers that were started *)
  ac_unknown : list cmd;              (* custom commands only warned about *)
  ac_taken : list cmd;                (* everything taken out of the queue *)
  ac_ended : list cmd;                (* handlers that returned *)
  ac_procs : list ppc
}.
Definition ac_new : acs := mkAcs 0 [] [] [] [] [] [] [].

(** mixins/async_command.py:31-38 [_setup_async_commands] and
    channel/environment/command/processor.py:52-62; False is the assertion that
    fails for a duplicate name (the ones before it are registered). *)
Fixpoint register (names : list string) (l : list string) : list string * bool :=
  match names with
  | [] => (l, true)
  | n :: names => if existsb (String.eqb n) l then (l, false) else register names (l ++ [n])
  end.
Definition ac_setup (names : list string) (s : acs) : acs * bool :=
  let (l, ok) := register names (ac_customs s) in
  (mkAcs (if Nat.eqb (ac_hooks s) 0 then 1 else ac_hooks s) l (ac_queue s) (ac_begun s) (ac_unknown s) (ac_taken s) (ac_ended s) (ac_procs s), ok).

(** channel/environment/command/processor.py:135-171 [handle_command]: a remote
    or custom command, or a local one that succeeded, is given to every hook;
    mixins/async_command.py:45-50 [_handle_command]. *)
Definition ac_issue (c : cmd) (passed : bool) (s : acs) : acs :=
  if passed then
    mkAcs (ac_hooks s) (ac_customs s) (ac_queue s ++ repeat c (ac_hooks s)) (ac_begun s) (ac_unknown s) (ac_taken s) (ac_ended s) (ac_procs s)
  else s.

(** mixins/async_command.py:55-61: the loop, up to the next await.  An unknown
    custom command is only logged (processor.py:208-215). *)
Fixpoint ac_loop (customs : list string) (q : list cmd) : list cmd * list cmd * option (cmd * target) :=
  match q with
  | [] => ([], [], None)
  | c :: q =>
      if cm_custom c then
        if existsb (String.eqb (cm_name c)) customs then ([], q, Some (c, TCustom (cm_name c)))
        else let '(u, q', r) := ac_loop customs q in (c :: u, q', r)
      else ([], q, Some (c, THandle))
  end.
Definition ac_go (k : nat) (s : acs) : acs :=
  let '(u, q, r) := ac_loop (ac_customs s) (ac_queue s) in
  match r with
  | None => mkAcs (ac_hooks s) (ac_customs s) q (ac_begun s) (ac_unknown s ++ u) (ac_taken s ++ u) (ac_ended s) (upd k PDone (ac_procs s))
  | Some (c, t) =>
      mkAcs (ac_hooks s) (ac_customs s) q (ac_begun s ++ [(c, t)]) (ac_unknown s ++ u) (ac_taken s ++ u ++ [c]) (ac_ended s) (upd k (PHandling c) (ac_procs s))
  end.
(** Processor [k] moves; [ok] tells whether the handler it waits for returns or
    raises. *)
Definition ac_move (k : nat) (ok : bool) (s : acs) : acs :=
  match nth_error (ac_procs s) k with
  | Some PCalled => ac_go k s
  | Some (PHandling c) =>
      if ok then ac_go k (mkAcs (ac_hooks s) (ac_customs s) (ac_queue s) (ac_begun s) (ac_unknown s) (ac_taken s) (ac_ended s ++ [c]) (ac_procs s))
      else mkAcs (ac_hooks s) (ac_customs s) (ac_queue s) (ac_begun s) (ac_unknown s) (ac_taken s) (ac_ended s) (upd k PFailed (ac_procs s))
  | _ => s
  end.

Inductive aev := EIssue (c : cmd) (passed : bool) | ECall | EMove (k : nat) (ok : bool) | ESetup (names : list string).
Definition ac_step (s : acs) (e : aev) : acs :=
  match e with
  | EIssue c passed => ac_issue c passed s
  | ECall => mkAcs (ac_hooks s) (ac_customs s) (ac_queue s) (ac_begun s) (ac_unknown s) (ac_taken s) (ac_ended s) (ac_procs s ++ [PCalled])
  | EMove k ok => ac_move k ok s
  | ESetup names => fst (ac_setup names s)
  end.
Definition ac_run (s : acs) (h : list aev) : acs := fold_left ac_step h s.

(** net/arbiter/housekeeping/__init__.py:50-74 [dispatch], run periodically: it
    processes the queues of all objects in parallel; if a handler raises, the
    exception ends the task (task/basic/periodic.py; see TaskModel).  Here one
    dispatch is one step, a queue is the list of its commands, and a command is
    the answer to "does its handler raise?". *)
Record hk := mkHk { hk_alive : bool; hk_queues : list (list bool) }.
Fixpoint drain (q : list bool) : list bool * bool :=
  match q with
  | [] => ([], true)
  | raises :: q => if raises then (q, false) else drain q
  end.
Definition hk_dispatch (s : hk) : hk :=
  if hk_alive s then mkHk (forallb (fun q => snd (drain q)) (hk_queues s)) (map (fun q => fst (drain q)) (hk_queues s)) else s.
Definition hk_issue (k : nat) (raises : bool) (s : hk) : hk :=
  match nth_error (hk_queues s) k with
  | Some q => mkHk (hk_alive s) (upd k (q ++ [raises]) (hk_queues s))
  | None => s
  end.
