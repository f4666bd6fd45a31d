(** Model of runtimepy/net/manager.py (ConnectionManager), with any number of
    connections.  ConnModel has one connection and what its process() does; here a
    process() call is a task that starts, and ends at some time, with an exception or
    not, and a connection is what the manager looks at: whether it is enabled and
    whether it restarts automatically.

    Assumed of asyncio: Queue.put on an unbounded queue puts at once, Queue.get takes
    the oldest item and a get that is cancelled takes nothing; wait(FIRST_COMPLETED)
    goes on once a task is done; gather raises the exception of a task that raised;
    wait_for cancels at the time limit.  vcorelib's log_exceptions returns the tasks
    that are not done. *)
From Verif Require Import Base.
Open Scope list_scope.

(** A process() call that was started: of which connection, for the first time
    (taken from the queue) or again. *)
Record call := mkCall { k_conn : nat; k_first : bool }.
Inductive tstate := TRun | TDone | TRaised.
(** The call of manage() that manages: none, in asyncio.wait (89-92), in wait_for
    (130), or ended by an exception or cancellation. *)
Inductive phase := MIdle | MWait | MShut | MDead.
Record mgr := mkMgr {
  m_enabled : nat -> bool;          (* of each connection *)
  m_auto : nat -> bool;
  m_queue : list nat;               (* 32 *)
  m_running : bool;                 (* 33 *)
  m_conns : list nat;               (* 34 *)
  m_stop : bool;                    (* the stop signal of the managing call *)
  m_phase : phase;
  m_get : option (option nat);      (* new_conn_task: none, waiting, or with a connection *)
  m_tasks : list tstate;            (* the tasks of the managing call *)
  m_second : nat;                   (* calls of manage() that only wait *)
  (* records *)
  m_put : list nat;                 (* everything put into the queue *)
  m_calls : list call               (* process() calls, in order *)
}.
(** 28-34. *)
Definition m_new (enabled auto : nat -> bool) : mgr := mkMgr enabled auto [] false [] false MIdle None [] 0 [] [].

Inductive ev :=
| EPut (c : nat)                    (* somebody puts a connection into the queue *)
| EGet                              (* the task waiting for a connection runs *)
| EEnabled (c : nat) (b : bool)     (* a connection is enabled or disabled *)
| EAuto (c : nat) (b : bool)
| EEnd (i : nat) (raised : bool)    (* a process() call ends *)
| EStop
| EManage (stopped : bool)          (* manage() is called, with a signal that is set or not *)
| EWake                             (* manage() goes on after asyncio.wait *)
| EShut (timeout : bool)            (* manage() goes on after wait_for *)
| ECancel.                          (* the managing call is cancelled *)

Definition upd_fun (f : nat -> bool) (c : nat) (b : bool) : nat -> bool := fun d => if Nat.eqb d c then b else f d.
Fixpoint set_task (i : nat) (t : tstate) (l : list tstate) : list tstate :=
  match l, i with
  | [], _ => []
  | TRun :: l, O => t :: l
  | x :: l, O => x :: l
  | x :: l, S i => x :: set_task i t l
  end.
Definition is_run (t : tstate) : bool := match t with TRun => true | _ => false end.
Definition is_raised (t : tstate) : bool := match t with TRaised => true | _ => false end.

(** 98-110: the connections that are kept. *)
Definition keeps (m : mgr) (c : nat) : bool := m_enabled m c || m_auto m c.
Definition again (m : mgr) (c : nat) : bool := negb (m_enabled m c) && m_auto m c.

(** 82-88: the head of the loop and what comes before the next await, or 124-132, the
    way out. *)
Definition head (m : mgr) : mgr :=
  if m_stop m then
    mkMgr (m_enabled m) (m_auto m) (m_queue m) (match m_tasks m with [] => false | _ => true end) (m_conns m) true
      (match m_tasks m with [] => MIdle | _ => MShut end) None (m_tasks m) (m_second m) (m_put m) (m_calls m)
  else
    mkMgr (m_enabled m) (m_auto m) (m_queue m) true (m_conns m) false MWait
      (match m_get m with None => Some None | g => g end) (m_tasks m) (m_second m) (m_put m) (m_calls m).

(** 94-122. *)
Definition body (m : mgr) : mgr :=
  let restarts := filter (again m) (m_conns m) in
  let fresh := match m_get m with Some (Some c) => [c] | _ => [] end in
  mkMgr (m_enabled m) (m_auto m) (m_queue m) (m_running m) (filter (keeps m) (m_conns m) ++ fresh) (m_stop m) (m_phase m)
    (match m_get m with Some (Some _) => None | g => g end)
    (filter is_run (m_tasks m) ++ map (fun _ => TRun) (restarts ++ fresh)) (m_second m) (m_put m)
    (m_calls m ++ map (fun c => mkCall c false) restarts ++ map (fun c => mkCall c true) fresh).

(** Whether asyncio.wait goes on. *)
Definition ready (m : mgr) : bool :=
  m_stop m || match m_get m with Some (Some _) => true | _ => false end || existsb (fun t => negb (is_run t)) (m_tasks m).

(** A step; what cannot happen changes nothing. *)
Definition step (m : mgr) (e : ev) : mgr :=
  match e with
  | EPut c => mkMgr (m_enabled m) (m_auto m) (m_queue m ++ [c]) (m_running m) (m_conns m) (m_stop m) (m_phase m) (m_get m) (m_tasks m) (m_second m) (m_put m ++ [c]) (m_calls m)
  | EGet =>
      match m_get m, m_queue m with
      | Some None, c :: q => mkMgr (m_enabled m) (m_auto m) q (m_running m) (m_conns m) (m_stop m) (m_phase m) (Some (Some c)) (m_tasks m) (m_second m) (m_put m) (m_calls m)
      | _, _ => m
      end
  | EEnabled c b => mkMgr (upd_fun (m_enabled m) c b) (m_auto m) (m_queue m) (m_running m) (m_conns m) (m_stop m) (m_phase m) (m_get m) (m_tasks m) (m_second m) (m_put m) (m_calls m)
  | EAuto c b => mkMgr (m_enabled m) (upd_fun (m_auto m) c b) (m_queue m) (m_running m) (m_conns m) (m_stop m) (m_phase m) (m_get m) (m_tasks m) (m_second m) (m_put m) (m_calls m)
  | EEnd i raised => mkMgr (m_enabled m) (m_auto m) (m_queue m) (m_running m) (m_conns m) (m_stop m) (m_phase m) (m_get m) (set_task i (if raised then TRaised else TDone) (m_tasks m)) (m_second m) (m_put m) (m_calls m)
  | EStop => mkMgr (m_enabled m) (m_auto m) (m_queue m) (m_running m) (m_conns m) true (m_phase m) (m_get m) (m_tasks m) (m_second m) (m_put m) (m_calls m)
  | EManage stopped =>
      (* 70-80 *)
      if m_running m then mkMgr (m_enabled m) (m_auto m) (m_queue m) true (m_conns m) (m_stop m) (m_phase m) (m_get m) (m_tasks m) (S (m_second m)) (m_put m) (m_calls m)
      else head (mkMgr (m_enabled m) (m_auto m) (m_queue m) true [] stopped MWait None [] (m_second m) (m_put m) (m_calls m))
  | EWake => match m_phase m with MWait => if ready m then head (body m) else m | _ => m end
  | EShut timeout =>
      (* 128-132: only TimeoutError is suppressed *)
      match m_phase m with
      | MShut =>
          if existsb is_raised (m_tasks m) then
            mkMgr (m_enabled m) (m_auto m) (m_queue m) true (m_conns m) (m_stop m) MDead None (m_tasks m) (m_second m) (m_put m) (m_calls m)
          else if timeout || negb (existsb is_run (m_tasks m)) then
            mkMgr (m_enabled m) (m_auto m) (m_queue m) false (m_conns m) (m_stop m) MIdle None [] (m_second m) (m_put m) (m_calls m)
          else m
      | _ => m
      end
  | ECancel =>
      match m_phase m with
      | MWait | MShut => mkMgr (m_enabled m) (m_auto m) (m_queue m) true (m_conns m) (m_stop m) MDead (m_get m) (m_tasks m) (m_second m) (m_put m) (m_calls m)
      | _ => m
      end
  end.
Definition run (m : mgr) (es : list ev) : mgr := fold_left step es m.
