(** Lifecycle of a connection: enabling, disabling, restarting, its reader,
    initializer and writer tasks, and the manager that (re)starts it.

    Each coroutine is a state machine that moves from one [await] to the next;
    the history decides who moves when.  The binary queue works like the text
    queue and is left out, as is disable_in (its effect is that of a call of
    disable at some moment).  The hooks a subclass overrides (disable_extra,
    async_init, process_text, restart) only return, and raise where said. *)
From Verif Require Import Base PrimModel BackoffModel TaskModel.
Open Scope list_scope.
Open Scope Z_scope.

(** A task: created, at its first await (next message, next text to send,
    async_init, stop signal), at its second await (processing a message,
    sending a text) or finished; and whether its cancellation is pending. *)
Inductive tpc := TStart | TWait | TWork (m : Z) | TDone.
Record sub := mkSub { s_pc : tpc; s_cancel : bool }.
Definition sub_new : sub := mkSub TStart false.
Definition sub_done : sub := mkSub TDone false.
Definition done (s : sub) : bool := match s_pc s with TDone => true | _ => false end.
(** Task.cancel() on a task that is not done. *)
Definition s_cancelled (s : sub) : sub := if done s then s else mkSub (s_pc s) true.

(** Where a process() call is (connection.py:269-319): created, in the sleep of
    the back-off (251), in restart() (252), waiting for its tasks (313), in
    close() (318), returned, or ended by an exception of restart(). *)
Inductive prpc := PStart | PSleep | PRestart | PGather | PClose | PReturned | PRaised.
Record proc := mkProc {
  pr_pc : prpc; pr_bo : backoff; pr_sig : bool;
  pr_read : sub; pr_init : sub; pr_write : sub; pr_wait : sub
}.
Definition pr_set (pc : prpc) (p : proc) : proc := mkProc pc (pr_bo p) (pr_sig p) (pr_read p) (pr_init p) (pr_write p) (pr_wait p).
Definition pr_set_bo (b : backoff) (p : proc) : proc := mkProc (pr_pc p) b (pr_sig p) (pr_read p) (pr_init p) (pr_write p) (pr_wait p).
Definition pr_map (f : sub -> sub) (p : proc) : proc :=
  mkProc (pr_pc p) (pr_bo p) (pr_sig p) (f (pr_read p)) (f (pr_init p)) (f (pr_write p)) (f (pr_wait p)).
(** The tasks of a process() call; the last exists only with a stop signal. *)
Inductive which := Read | Init | Write | WaitSig.
Definition pr_get (w : which) (p : proc) : sub :=
  match w with Read => pr_read p | Init => pr_init p | Write => pr_write p | WaitSig => pr_wait p end.
Definition pr_put (w : which) (s : sub) (p : proc) : proc :=
  match w with
  | Read => mkProc (pr_pc p) (pr_bo p) (pr_sig p) s (pr_init p) (pr_write p) (pr_wait p)
  | Init => mkProc (pr_pc p) (pr_bo p) (pr_sig p) (pr_read p) s (pr_write p) (pr_wait p)
  | Write => mkProc (pr_pc p) (pr_bo p) (pr_sig p) (pr_read p) (pr_init p) s (pr_wait p)
  | WaitSig => mkProc (pr_pc p) (pr_bo p) (pr_sig p) (pr_read p) (pr_init p) (pr_write p) s
  end.

(** A call of restart(): by which process() call, and whether the connection
    was enabled and the stop signal set at that moment. *)
Record attempt := mkAttempt { at_proc : nat; at_enabled : bool; at_stop : bool }.

(** The fields of connection.py:60-120, and records of what was done. *)
Record conn := mkConn {
  c_enabled : bool;           (* 88: the channel "enabled" *)
  c_hooks : nat;              (* how often disable_extra has run *)
  c_init : bool;              (* 76: the event initialized *)
  c_exited : bool;            (* 77 *)
  c_stop : bool;              (* the stop signal *)
  c_auto : bool;              (* 111: the channel auto_restart *)
  c_managed : bool;           (* whether the manager still holds the connection *)
  c_restarts : Z;             (* 98, uint8 *)
  c_attempts : Z;             (* 99, uint8 *)
  c_queue : list Z;           (* 63: the text messages not yet taken *)
  c_enq : list Z;             (* everything send_text was given *)
  c_started : list Z;         (* what _send_text_message was called with *)
  c_sent : list Z;            (* the calls that returned *)
  c_log : list attempt;       (* calls of restart() *)
  c_cur : option nat;         (* the process() call whose tasks are in _tasks *)
  c_procs : list proc         (* the process() calls *)
}.
Definition set_enabled (v : bool) (c : conn) : conn :=
  mkConn v (c_hooks c) (c_init c) (c_exited c) (c_stop c) (c_auto c) (c_managed c) (c_restarts c) (c_attempts c) (c_queue c) (c_enq c) (c_started c) (c_sent c) (c_log c) (c_cur c) (c_procs c).
Definition set_hooks (v : nat) (c : conn) : conn :=
  mkConn (c_enabled c) v (c_init c) (c_exited c) (c_stop c) (c_auto c) (c_managed c) (c_restarts c) (c_attempts c) (c_queue c) (c_enq c) (c_started c) (c_sent c) (c_log c) (c_cur c) (c_procs c).
Definition set_init (v : bool) (c : conn) : conn :=
  mkConn (c_enabled c) (c_hooks c) v (c_exited c) (c_stop c) (c_auto c) (c_managed c) (c_restarts c) (c_attempts c) (c_queue c) (c_enq c) (c_started c) (c_sent c) (c_log c) (c_cur c) (c_procs c).
Definition set_exited (v : bool) (c : conn) : conn :=
  mkConn (c_enabled c) (c_hooks c) (c_init c) v (c_stop c) (c_auto c) (c_managed c) (c_restarts c) (c_attempts c) (c_queue c) (c_enq c) (c_started c) (c_sent c) (c_log c) (c_cur c) (c_procs c).
Definition set_stop (v : bool) (c : conn) : conn :=
  mkConn (c_enabled c) (c_hooks c) (c_init c) (c_exited c) v (c_auto c) (c_managed c) (c_restarts c) (c_attempts c) (c_queue c) (c_enq c) (c_started c) (c_sent c) (c_log c) (c_cur c) (c_procs c).
Definition set_auto (v : bool) (c : conn) : conn :=
  mkConn (c_enabled c) (c_hooks c) (c_init c) (c_exited c) (c_stop c) v (c_managed c) (c_restarts c) (c_attempts c) (c_queue c) (c_enq c) (c_started c) (c_sent c) (c_log c) (c_cur c) (c_procs c).
Definition set_managed (v : bool) (c : conn) : conn :=
  mkConn (c_enabled c) (c_hooks c) (c_init c) (c_exited c) (c_stop c) (c_auto c) v (c_restarts c) (c_attempts c) (c_queue c) (c_enq c) (c_started c) (c_sent c) (c_log c) (c_cur c) (c_procs c).
Definition set_restarts (v : Z) (c : conn) : conn :=
  mkConn (c_enabled c) (c_hooks c) (c_init c) (c_exited c) (c_stop c) (c_auto c) (c_managed c) v (c_attempts c) (c_queue c) (c_enq c) (c_started c) (c_sent c) (c_log c) (c_cur c) (c_procs c).
Definition set_attempts (v : Z) (c : conn) : conn :=
  mkConn (c_enabled c) (c_hooks c) (c_init c) (c_exited c) (c_stop c) (c_auto c) (c_managed c) (c_restarts c) v (c_queue c) (c_enq c) (c_started c) (c_sent c) (c_log c) (c_cur c) (c_procs c).
Definition set_queue (v : list Z) (c : conn) : conn :=
  mkConn (c_enabled c) (c_hooks c) (c_init c) (c_exited c) (c_stop c) (c_auto c) (c_managed c) (c_restarts c) (c_attempts c) v (c_enq c) (c_started c) (c_sent c) (c_log c) (c_cur c) (c_procs c).
Definition set_enq (v : list Z) (c : conn) : conn :=
  mkConn (c_enabled c) (c_hooks c) (c_init c) (c_exited c) (c_stop c) (c_auto c) (c_managed c) (c_restarts c) (c_attempts c) (c_queue c) v (c_started c) (c_sent c) (c_log c) (c_cur c) (c_procs c).
Definition set_started (v : list Z) (c : conn) : conn :=
  mkConn (c_enabled c) (c_hooks c) (c_init c) (c_exited c) (c_stop c) (c_auto c) (c_managed c) (c_restarts c) (c_attempts c) (c_queue c) (c_enq c) v (c_sent c) (c_log c) (c_cur c) (c_procs c).
Definition set_sent (v : list Z) (c : conn) : conn :=
  mkConn (c_enabled c) (c_hooks c) (c_init c) (c_exited c) (c_stop c) (c_auto c) (c_managed c) (c_restarts c) (c_attempts c) (c_queue c) (c_enq c) (c_started c) v (c_log c) (c_cur c) (c_procs c).
Definition set_log (v : list attempt) (c : conn) : conn :=
  mkConn (c_enabled c) (c_hooks c) (c_init c) (c_exited c) (c_stop c) (c_auto c) (c_managed c) (c_restarts c) (c_attempts c) (c_queue c) (c_enq c) (c_started c) (c_sent c) v (c_cur c) (c_procs c).
Definition set_cur (v : option nat) (c : conn) : conn :=
  mkConn (c_enabled c) (c_hooks c) (c_init c) (c_exited c) (c_stop c) (c_auto c) (c_managed c) (c_restarts c) (c_attempts c) (c_queue c) (c_enq c) (c_started c) (c_sent c) (c_log c) v (c_procs c).
Definition set_procs (v : list proc) (c : conn) : conn :=
  mkConn (c_enabled c) (c_hooks c) (c_init c) (c_exited c) (c_stop c) (c_auto c) (c_managed c) (c_restarts c) (c_attempts c) (c_queue c) (c_enq c) (c_started c) (c_sent c) (c_log c) (c_cur c) v.


(** connection.py:52-122: a new connection is enabled; no process() call yet. *)
Definition c_new (auto : bool) : conn :=
  mkConn true O false false false auto true 0 0 [] [] [] [] [] None [].

Definition put_proc (k : nat) (p : proc) (c : conn) : conn := set_procs (upd k p (c_procs c)) c.
Definition put_sub (k : nat) (w : which) (s : sub) (c : conn) : conn :=
  match nth_error (c_procs c) k with Some p => put_proc k (pr_put w s p) c | None => c end.

(** connection.py:180-188 [_set_enabled]. *)
Definition c_set_enabled (b : bool) (c : conn) : conn :=
  if b then set_enabled true c else set_init false (set_enabled false c).

(** connection.py:190-204 [disable]. *)
Definition c_disable (c : conn) : conn :=
  if c_enabled c then
    let c := set_hooks (S (c_hooks c)) c in
    let c :=
      match c_cur c with
      | Some k => match nth_error (c_procs c) k with Some p => put_proc k (pr_map s_cancelled p) c | None => c end
      | None => c
      end in
    c_set_enabled false c
  else c.

(** connection.py:246-256, 279-311: the head of the restart loop, up to the
    next await. *)
Definition c_head (k : nat) (p : proc) (c : conn) : conn :=
  if negb (c_enabled c) && negb (bo_give_up (pr_bo p)) && negb (pr_sig p && c_stop c) then
    put_proc k (pr_set_bo (snd (bo_sleep (pr_bo p))) (pr_set PSleep p)) c
  else if negb (c_enabled c) then put_proc k (pr_set PReturned p) c
  else
    set_exited false (set_cur (Some k)
      (put_proc k (mkProc PGather (pr_bo p) (pr_sig p) sub_new sub_new sub_new (if pr_sig p then sub_new else sub_done)) c)).

(** What an awaited call does in the end: it returns True or False (or None, or
    something), or raises. *)
Inductive res := Ret (ok : bool) | Raise.

(** connection.py:269-319 [process] and 236-256 [_handle_restart], from one
    await to the next.  A process() call goes on from its gathering only when all
    its tasks are done. *)
Definition c_proc (k : nat) (r : res) (c : conn) : conn :=
  match nth_error (c_procs c) k with
  | None => c
  | Some p =>
      match pr_pc p with
      | PStart => c_head k p c
      | PSleep =>
          put_proc k (pr_set PRestart p)
            (set_log (c_log c ++ [mkAttempt k (c_enabled c) (c_stop c)]) c)
      | PRestart =>
          match r with
          | Raise => put_proc k (pr_set PRaised p) c
          | Ret ok =>
              let c := if ok then set_restarts (k_store U8 (c_restarts c + 1)) (c_set_enabled true c) else c in
              c_head k p (set_attempts (k_store U8 (c_attempts c + 1)) c)
          end
      | PGather =>
          if done (pr_read p) && done (pr_init p) && done (pr_write p) && done (pr_wait p)
          then put_proc k (pr_set PClose p) c else c
      | PClose => put_proc k (pr_set PReturned p) (set_exited true c)
      | _ => c
      end
  end.

(** The next test of [while self._enabled] (connection.py:325, 346). *)
Definition loop_pc (c : conn) : tpc := if c_enabled c then TWait else TDone.
Definition finish (k : nat) (w : which) (pc : tpc) (c : conn) : conn := put_sub k w (mkSub pc false) c.
(** Disabling from within task [w], which then goes on without another await
    and finishes. *)
Definition disable_and_end (k : nat) (w : which) (c : conn) : conn := finish k w TDone (c_disable c).

(** connection.py:321-339 [_process_read].  At the first await [Ret true] is a
    message and [Ret false] is None. *)
Definition c_read (k : nat) (s : sub) (r : res) (c : conn) : conn :=
  match s_pc s with
  | TStart => finish k Read (loop_pc c) c
  | TWait =>
      match r with
      | Ret true => finish k Read (TWork 0) c
      | Ret false => disable_and_end k Read c
      | Raise => finish k Read TDone c
      end
  | TWork _ =>
      match r with
      | Ret true => finish k Read (loop_pc c) c
      | Ret false => disable_and_end k Read c
      | Raise => finish k Read TDone c
      end
  | TDone => c
  end.

(** connection.py:212-221 [_async_init]. *)
Definition c_init_task (k : nat) (s : sub) (r : res) (c : conn) : conn :=
  match s_pc s with
  | TStart => finish k Init TWait c
  | TWait =>
      match r with
      | Ret ok => finish k Init TDone (set_init true (if ok then c else c_disable c))
      | Raise => finish k Init TDone c
      end
  | _ => c
  end.

(** connection.py:341-353 [_process_write_text]. *)
Definition c_write (k : nat) (s : sub) (r : res) (c : conn) : conn :=
  match s_pc s with
  | TStart => finish k Write (loop_pc c) c
  | TWait =>
      match c_queue c with
      | [] => c
      | m :: q => finish k Write (TWork m) (set_started (c_started c ++ [m]) (set_queue q c))
      end
  | TWork m =>
      match r with
      | Ret _ => finish k Write (loop_pc c) (set_sent (c_sent c ++ [m]) c)
      | Raise => finish k Write TDone c
      end
  | TDone => c
  end.

(** connection.py:206-210 [_wait_sig]. *)
Definition c_waitsig (k : nat) (s : sub) (c : conn) : conn :=
  match s_pc s with
  | TStart | TWait => if c_stop c then disable_and_end k WaitSig c else finish k WaitSig TWait c
  | _ => c
  end.

(** A task moves from one await to the next.  A pending cancellation is raised
    instead; none of these coroutines catches it. *)
Definition c_sub (k : nat) (w : which) (r : res) (c : conn) : conn :=
  match nth_error (c_procs c) k with
  | None => c
  | Some p =>
      match pr_pc p with
      | PGather =>
          let s := pr_get w p in
          if s_cancel s then finish k w TDone c
          else
            match w with
            | Read => c_read k s r c
            | Init => c_init_task k s r c
            | Write => c_write k s r c
            | WaitSig => c_waitsig k s c
            end
      | _ => c
      end
  end.

(** process(stop_sig) scheduled as a task, with the default back-off. *)
Definition c_process (sig : bool) (c : conn) : conn :=
  set_procs (c_procs c ++ [mkProc PStart bo_default sig sub_done sub_done sub_done sub_done]) c.

(** manager.py:97-110: what the manager does with the connection every time it
    wakes up, for whatever reason. *)
Definition c_manager (c : conn) : conn :=
  if c_managed c then
    if c_enabled c then c
    else if c_auto c then c_process true c
    else set_managed false c
  else c.

Inductive cev :=
| EDisable                       (* somebody calls disable() *)
| ESend (m : Z)                  (* send_text, connection.py:164-166 *)
| EStop                          (* the stop signal is set *)
| EAuto (b : bool)               (* a command on auto_restart *)
| EProcess (sig : bool)          (* somebody calls process() *)
| EManager                       (* the manager wakes up *)
| EProc (k : nat) (r : res)
| ESub (k : nat) (w : which) (r : res).

Definition c_step (c : conn) (e : cev) : conn :=
  match e with
  | EDisable => c_disable c
  | ESend m => set_enq (c_enq c ++ [m]) (set_queue (c_queue c ++ [m]) c)
  | EStop => set_stop true c
  | EAuto b => set_auto b c
  | EProcess sig => c_process sig c
  | EManager => c_manager c
  | EProc k r => c_proc k r c
  | ESub k w r => c_sub k w r c
  end.
Definition c_run (c : conn) (h : list cev) : conn := fold_left c_step h c.

(** channels of the connection's environment, connection.py:98-109. *)
Definition channel (name : string) (c : conn) : option Z :=
  if String.eqb name "restarts" then Some (c_restarts c)
  else if String.eqb name "restart_attempts" then Some (c_restarts c)
  else None.
