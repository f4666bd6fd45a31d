(** Model of runtimepy/net/websocket/connection.py: what a WebSocket connection does
    with the messages of its peer and of its user (with the loops of
    net/connection.py:321-367), and the function that serves a client
    (server_handler).

    Assumed of the websockets library: [recv] gives the messages of the peer, one at a
    time and in order, also those that arrived before the connection was closed, and
    then raises ConnectionClosed; [send] either hands the whole message to the peer or,
    once the connection is closed, raises ConnectionClosed.  Simplifications: a send
    does not wait; ConnModel has the start and the end of the loops. *)
From Verif Require Import Base.
Open Scope list_scope.

Inductive msg := MText (s : list Z) | MBin (b : list Z).
Definition is_text (m : msg) : bool := match m with MText _ => true | MBin _ => false end.
Definition texts (l : list msg) : list msg := filter is_text l.
Definition bins (l : list msg) : list msg := filter (fun m => negb (is_text m)) l.

Record ws := mkWs {
  w_enabled : bool;
  w_reading : bool;          (* the reading task is there; an exception ends it *)
  w_open : bool;             (* of the connection to the peer *)
  w_inbox : list msg;        (* arrived, not yet received *)
  w_text : list msg;         (* the two queues *)
  w_bin : list msg;
  (* records *)
  w_asked : list msg;        (* what send_text and send_binary were called with *)
  w_arrived : list msg;      (* what the peer sent *)
  w_seen : list msg;         (* what process_text and process_binary were called with *)
  w_wire : list msg;         (* what the peer gets *)
  w_counted : list msg       (* what the transmit counters count *)
}.
Definition ws_new : ws := mkWs true true true [] [] [] [] [] [] [] [].

Section Ws.
(** The handler of the user: the messages it enqueues and its result; [None]: it
    raises. *)
Context (handler : msg -> list msg * option bool).

(** net/connection.py:164-170 [send_text], [send_binary]. *)
Definition enqueue (m : msg) (w : ws) : ws :=
  mkWs (w_enabled w) (w_reading w) (w_open w) (w_inbox w)
    (if is_text m then w_text w ++ [m] else w_text w) (if is_text m then w_bin w else w_bin w ++ [m])
    (w_asked w ++ [m]) (w_arrived w) (w_seen w) (w_wire w) (w_counted w).
Definition enqueue_all (l : list msg) (w : ws) : ws := fold_left (fun w m => enqueue m w) l w.
(** net/connection.py:190-204 [disable]: nothing but the flag is seen here. *)
Definition disable (w : ws) : ws :=
  mkWs false (w_reading w) (w_open w) (w_inbox w) (w_text w) (w_bin w) (w_asked w) (w_arrived w) (w_seen w) (w_wire w) (w_counted w).

(** 55-73 [_handle_connection_closed], [_await_message] in net/connection.py:321-339. *)
Definition read (w : ws) : ws :=
  if w_enabled w && w_reading w then
    match w_inbox w with
    | [] => if w_open w then w (* waits *) else disable w
    | m :: rest =>
        let '(replies, r) := handler m in
        let w1 := enqueue_all replies
          (mkWs (w_enabled w) (w_reading w) (w_open w) rest (w_text w) (w_bin w) (w_asked w) (w_arrived w) (w_seen w ++ [m]) (w_wire w) (w_counted w)) in
        match r with
        | Some true => w1
        | Some false => disable w1
        | None => mkWs (w_enabled w1) false (w_open w1) (w_inbox w1) (w_text w1) (w_bin w1) (w_asked w1) (w_arrived w1) (w_seen w1) (w_wire w1) (w_counted w1)
        end
    end
  else w.

(** 75-83 [_send_text_message], [_send_binay_message]: the counters count in any
    case. *)
Definition transmit (m : msg) (w : ws) : ws :=
  if w_open w
  then mkWs (w_enabled w) (w_reading w) (w_open w) (w_inbox w) (w_text w) (w_bin w) (w_asked w) (w_arrived w) (w_seen w) (w_wire w ++ [m]) (w_counted w ++ [m])
  else let w1 := disable w in
    mkWs (w_enabled w1) (w_reading w1) (w_open w1) (w_inbox w1) (w_text w1) (w_bin w1) (w_asked w1) (w_arrived w1) (w_seen w1) (w_wire w1) (w_counted w1 ++ [m]).
(** net/connection.py:341-367 [_process_write_text], [_process_write_binary]: one turn. *)
Definition write_text (w : ws) : ws :=
  if w_enabled w then
    match w_text w with
    | [] => w
    | m :: rest => transmit m (mkWs (w_enabled w) (w_reading w) (w_open w) (w_inbox w) rest (w_bin w) (w_asked w) (w_arrived w) (w_seen w) (w_wire w) (w_counted w))
    end
  else w.
Definition write_bin (w : ws) : ws :=
  if w_enabled w then
    match w_bin w with
    | [] => w
    | m :: rest => transmit m (mkWs (w_enabled w) (w_reading w) (w_open w) (w_inbox w) (w_text w) rest (w_asked w) (w_arrived w) (w_seen w) (w_wire w) (w_counted w))
    end
  else w.

(** In any order: the user sends, the peer sends, one of the two closes, one of the
    three loops takes a turn, somebody disables the connection. *)
Inductive ev := ESend (m : msg) | EPeer (m : msg) | EClose | ERead | EWriteText | EWriteBin | EDisable.
Definition step (w : ws) (e : ev) : ws :=
  match e with
  | ESend m => enqueue m w
  | EPeer m =>
      if w_open w
      then mkWs (w_enabled w) (w_reading w) (w_open w) (w_inbox w ++ [m]) (w_text w) (w_bin w) (w_asked w) (w_arrived w ++ [m]) (w_seen w) (w_wire w) (w_counted w)
      else w
  | EClose => mkWs (w_enabled w) (w_reading w) false (w_inbox w) (w_text w) (w_bin w) (w_asked w) (w_arrived w) (w_seen w) (w_wire w) (w_counted w)
  | ERead => read w
  | EWriteText => write_text w
  | EWriteBin => write_bin w
  | EDisable => disable w
  end.
Definition run (w : ws) (h : list ev) : ws := fold_left step h w.
End Ws.
(** net/connection.py:386-409. *)
Definition echo (m : msg) : list msg * option bool := ([m], Some true).
Definition null (m : msg) : list msg * option bool := ([], Some true).

(** ** 115-165 [server_handler]: the call for one client *)
Inductive hpc :=
| HInit            (* in the user's init, if there is one *)
| HWait            (* in asyncio.wait *)
| HProcess         (* in conn.process() *)
| HReturned | HRaised.
Record hconf := mkConf { h_init : bool; h_manager : bool; h_stop : bool }.
Record hstate := mkH {
  h_pc : hpc;
  h_put : nat;              (* how many times the connection was put into the manager's queue *)
  h_processed : nat;        (* calls of process() here *)
  h_disabled : bool;        (* the connection was disabled *)
  h_stopped : bool          (* the stop signal is set *)
}.
(** After a positive init. *)
Definition h_accept (c : hconf) (s : hstate) : hstate :=
  if h_manager c then mkH HWait (S (h_put s)) (h_processed s) (h_disabled s) (h_stopped s)
  else mkH HProcess (h_put s) (S (h_processed s)) (h_disabled s) (h_stopped s).
Definition h_set (pc : hpc) (s : hstate) : hstate := mkH pc (h_put s) (h_processed s) (h_disabled s) (h_stopped s).
Definition h_start (c : hconf) (stopped : bool) : hstate :=
  let s := mkH HInit 0 0 false stopped in if h_init c then s else h_accept c s.
(** The init returns or raises; the connection is disabled; the signal is set; the
    call goes on, if it can; process() returns or raises. *)
Inductive hev := HvInit (r : option bool) | HvDisabled | HvStop | HvWake | HvProcessed (raised : bool).
Definition h_step (c : hconf) (s : hstate) (e : hev) : hstate :=
  match e, h_pc s with
  | HvInit (Some true), HInit => h_accept c s
  | HvInit (Some false), HInit => h_set HReturned s
  | HvInit None, HInit => h_set HRaised s
  | HvDisabled, _ => mkH (h_pc s) (h_put s) (h_processed s) true (h_stopped s)
  | HvStop, _ => mkH (h_pc s) (h_put s) (h_processed s) (h_disabled s) true
  | HvWake, HWait => if h_disabled s || (h_stop c && h_stopped s) then h_set HReturned s else s
  | HvProcessed raised, HProcess => h_set (if raised then HRaised else HReturned) s
  | _, _ => s
  end.
Definition h_run (c : hconf) (stopped : bool) (h : list hev) : hstate := fold_left (h_step c) h (h_start c stopped).
