(** Model of runtimepy/net/tcp/connection.py 43-133, 211-213, net/tcp/protocol.py and
    net/connection.py 167-201, 257-340, as far as they decide which bytes of which
    session of a TCP connection are processed, and where bytes sent go.

    A session is a transport with its protocol; restarting makes a new one.  Assumed of
    asyncio (CPython 3.12, asyncio/selector_events.py, asyncio/queues.py):
    - data_received is called for what arrives until the transport closes;
    - a transport closes when the peer ends the stream or fails, or when close() is
      called; connection_lost is called once, later, after what is buffered was written;
    - while something is buffered, a closing transport still accepts data; afterwards
      data is dropped without an exception;
    - Queue.get returns the oldest item; a get that is cancelled takes nothing;
    - what create_connection returns is handed to the caller before anything arrives
      (true without TLS).
    Only one process() call at a time is modelled (ConnModel has several, the other
    tasks and the back-off).  Other tasks appear as what they do: send, disable. *)
From Verif Require Import Base.
Open Scope list_scope.
Open Scope Z_scope.

Definition chunk : Type := list Z.
(** A transport: open, closing with something buffered, or gone. *)
Inductive tstate := TOpen | TFlushing | TGone.
Record session := mkSes {
  s_queue : list chunk;            (* mixin.py:24-29, the queue of the protocol *)
  s_recv : list chunk;             (* everything data_received was called with *)
  s_out : list chunk;              (* what the transport accepted *)
  s_tr : tstate;
  s_lost : bool                    (* connection_lost was called *)
}.
Definition ses_new : session := mkSes [] [] [] TOpen false.

(** The reading task: not there (no process() call), created, in queue.get(), in
    process_binary, finished. *)
Inductive reader := RNone | RStart | RWait | RWork | RDone.
Record conn := mkConn {
  c_old : list session;            (* former sessions *)
  c_cur : session;
  c_enabled : bool;
  c_reader : reader;
  c_cancel : bool;                 (* the reading task was cancelled *)
  c_client : bool;                 (* made by create_connection *)
  c_rx : Z; c_tx : Z;              (* the metrics, in bytes *)
  c_done : list (nat * chunk);     (* what process_binary was called with, by session *)
  c_sent : list (nat * bool * chunk); (* what was given to send_binary: session, accepted *)
  c_raised : bool                  (* a process() call raised *)
}.
(** 50-70 [__init__], 135-155 [create_connection], 170-180 [serve]. *)
Definition conn_new (client : bool) : conn := mkConn [] ses_new true RNone false client 0 0 [] [] false.

Definition index (c : conn) : nat := List.length (c_old c).
Definition set_cur (c : conn) (s : session) : conn :=
  mkConn (c_old c) s (c_enabled c) (c_reader c) (c_cancel c) (c_client c) (c_rx c) (c_tx c) (c_done c) (c_sent c) (c_raised c).
Definition set_reader (c : conn) (r : reader) : conn :=
  mkConn (c_old c) (c_cur c) (c_enabled c) r (c_cancel c) (c_client c) (c_rx c) (c_tx c) (c_done c) (c_sent c) (c_raised c).
Definition set_old (c : conn) (l : list session) : conn :=
  mkConn l (c_cur c) (c_enabled c) (c_reader c) (c_cancel c) (c_client c) (c_rx c) (c_tx c) (c_done c) (c_sent c) (c_raised c).

(** connection.py:186-201 [disable]: once; a task that is not done is cancelled. *)
Definition disable (c : conn) : conn :=
  if c_enabled c then
    mkConn (c_old c) (c_cur c) false (c_reader c)
      (match c_reader c with RNone | RDone => c_cancel c | _ => true end)
      (c_client c) (c_rx c) (c_tx c) (c_done c) (c_sent c) (c_raised c)
  else c.

(** The session with number [i]. *)
Definition ses (c : conn) (i : nat) : option session :=
  if Nat.eqb i (index c) then Some (c_cur c) else nth_error (c_old c) i.
Fixpoint set_nth {A} (i : nat) (x : A) (l : list A) : list A :=
  match l, i with [], _ => [] | _ :: l, O => x :: l | y :: l, S i => y :: set_nth i x l end.
Definition put_ses (c : conn) (i : nat) (s : session) : conn :=
  if Nat.eqb i (index c) then set_cur c s else set_old c (set_nth i s (c_old c)).

(** tcp/connection.py:107-110 [send_binary] (send_text encodes first). *)
Definition send (c : conn) (data : chunk) : conn :=
  let s := c_cur c in
  let ok := match s_tr s with TGone => false | _ => true end in
  mkConn (c_old c) (if ok then mkSes (s_queue s) (s_recv s) (s_out s ++ [data]) (s_tr s) (s_lost s) else s)
    (c_enabled c) (c_reader c) (c_cancel c) (c_client c) (c_rx c) (c_tx c + Z.of_nat (List.length data)) (c_done c)
    (c_sent c ++ [(index c, ok, data)]) (c_raised c).

(** What process_binary ends with. *)
Inductive result := HTrue | HFalse | HRaise.
Inductive op :=
| OData (i : nat) (data : chunk)      (* something arrives in session i *)
| OClosing (i : nat) (buffered : bool) (* its transport closes (the peer ended or failed) *)
| OLost (i : nat)                     (* connection_lost *)
| OSend (data : chunk)                (* somebody sends *)
| ODisable                            (* somebody disables *)
| OProcess (ok : bool)                (* process() is called; [ok]: a restart would succeed *)
| ORead                               (* the reading task moves on *)
| OFinish (r : result)                (* process_binary ends *)
| OEnd (buffered : bool).             (* process() ends: all its tasks are done *)

Definition closing (s : session) (buffered : bool) : session :=
  mkSes (s_queue s) (s_recv s) (s_out s) (match s_tr s with TOpen => if buffered then TFlushing else TGone | t => t end) (s_lost s).

(** A step; what cannot happen changes nothing. *)
Definition step (c : conn) (o : op) : conn :=
  match o with
  | OData i data =>
      (* protocol.py:29-31 [data_received] *)
      match ses c i with
      | Some s => match s_tr s with
                  | TOpen => put_ses c i (mkSes (s_queue s ++ [data]) (s_recv s ++ [data]) (s_out s) (s_tr s) (s_lost s))
                  | _ => c
                  end
      | None => c
      end
  | OClosing i buffered => match ses c i with Some s => put_ses c i (closing s buffered) | None => c end
  | OLost i =>
      (* protocol.py:41-46 [connection_lost]; [conn] is the same for every session *)
      match ses c i with
      | Some s => if s_lost s then c else disable (put_ses c i (mkSes (s_queue s) (s_recv s) (s_out s) TGone true))
      | None => c
      end
  | OSend data => send c data
  | ODisable => disable c
  | OProcess ok =>
      match c_reader c with
      | RNone =>
          if c_enabled c then
            mkConn (c_old c) (c_cur c) true RStart false (c_client c) (c_rx c) (c_tx c) (c_done c) (c_sent c) (c_raised c)
          else if c_client c then
            (* tcp/connection.py:112-133 [restart]; connection.py:250-253, 274-281 *)
            if ok then mkConn (c_old c ++ [c_cur c]) ses_new true RStart false (c_client c) (c_rx c) (c_tx c) (c_done c) (c_sent c) (c_raised c)
            else c
          else
            (* no arguments were kept: create_connection raises ValueError *)
            mkConn (c_old c) (c_cur c) false RNone (c_cancel c) (c_client c) (c_rx c) (c_tx c) (c_done c) (c_sent c) true
      | _ => c
      end
  | ORead =>
      (* connection.py:324-338, tcp/connection.py:94-100 [_await_message] *)
      match c_reader c with
      | RStart => if c_cancel c then set_reader c RDone else set_reader c (if c_enabled c then RWait else RDone)
      | RWait =>
          if c_cancel c then set_reader c RDone
          else match s_queue (c_cur c) with
               | [] => c
               | data :: rest =>
                   let s := c_cur c in
                   mkConn (c_old c) (mkSes rest (s_recv s) (s_out s) (s_tr s) (s_lost s)) (c_enabled c) RWork (c_cancel c) (c_client c)
                     (c_rx c + Z.of_nat (List.length data)) (c_tx c) (c_done c ++ [(index c, data)]) (c_sent c) (c_raised c)
               end
      | RWork => if c_cancel c then set_reader c RDone else c
      | _ => c
      end
  | OFinish r =>
      match c_reader c with
      | RWork =>
          match r with
          | HTrue => set_reader c (if c_enabled c then RWait else RDone)
          | HFalse => set_reader (disable c) RDone
          | HRaise => set_reader c RDone
          end
      | _ => c
      end
  | OEnd buffered =>
      (* 313-319; the other tasks end when the connection is disabled *)
      match c_reader c with
      | RDone => if c_enabled c then c else set_reader (set_cur c (closing (c_cur c) buffered)) RNone
      | _ => c
      end
  end.
Definition run (c : conn) (ops : list op) : conn := fold_left step ops c.
