(** Model of message connections over their life: runtimepy/net/stream/base.py,
    stream/__init__.py 33-54, stream/string.py, with the restarts of
    net/connection.py and net/tcp/connection.py, net/udp/connection.py.

    The processor is made once, in [init] (stream/base.py:25-29), which runs once
    per connection object (connection.py:123): restarting the connection replaces
    the transport and its queue and leaves the processor as it is. *)
From Verif Require Import Base PrimModel FifoModel MessageModel Utf8Model.
Open Scope list_scope.
Open Scope Z_scope.

(** What [process_single] does with a message: its result, or an exception. *)
Inductive outcome := RTrue | RFalse | RRaise.
Definition o_true (o : outcome) : bool := match o with RTrue => true | _ => false end.
Definition o_stays (o : outcome) : bool := match o with RRaise => false | _ => true end.

Section Conn.
  Context {A : Type}.                               (* senders; unit for TCP *)
  Context (native_le : bool) (handler : list Z -> A -> outcome).

  Record mc := mkMc {
    mc_proc : mproc;
    mc_on : bool;                                   (* the reading task runs *)
    mc_log : list (list Z * A)                      (* calls of process_single *)
  }.
  Definition mc_init : mc := mkMc m_init true [].

  (** stream/base.py:57-71 [process_binary]: every message is processed, also after
      one whose result is false; connection.py:335-338: a false result disables the
      connection, an exception ends the reading task. *)
  Definition process_binary (s : mc) (a : A) (data : list Z) : mc :=
    let '(ms, q, e) := m_process native_le U32 Network (fun m => o_stays (handler m a)) (mc_proc s) data in
    mkMc q (match e with EDone => forallb (fun m => o_true (handler m a)) ms | _ => false end)
         (mc_log s ++ map (fun m => (m, a)) ms).

  Inductive event :=
  | Data (a : A) (data : list Z)                    (* a chunk or datagram arrives *)
  | Restart.                                        (* a new transport *)
  Definition step (s : mc) (e : event) : mc :=
    match e with
    | Data a data => if mc_on s then process_binary s a data else s
    | Restart => mkMc (mc_proc s) true (mc_log s)
    end.
  Definition run (s : mc) (es : list event) : mc := fold_left step es s.
End Conn.
Arguments mc : clear implicits.
Arguments event : clear implicits.

(** stream/string.py:26-31 [process_single] of a string connection: the message is
    decoded (UnicodeDecodeError is an exception of the handler), then handed to
    [process_message]. *)
Definition string_handler {A} (on_text : list Z -> A -> outcome) (m : list Z) (a : A) : outcome :=
  match utf8_decode m with Some s => on_text s a | None => RRaise end.

(** stream/base.py:38-46 [send_message]: the bytes handed to [send_binary] or, for
    UDP (stream/__init__.py:47-52), to [sendto], as one unit. *)
Definition send_message (native_le : bool) (m : list Z) : option (list Z) := m_encode native_le U32 Network m.
(** stream/base.py:48-52 [send_message_str]; None is an exception. *)
Definition send_message_str (native_le : bool) (s : list Z) : option (list Z) :=
  match utf8_encode s with Some m => send_message native_le m | None => None end.

(** stream/__init__.py:55-65 [EchoMessageConnection.process_single]: what it sends in
    answer to the messages it processed, and to whom. *)
Definition echo_sent {A} (native_le : bool) (log : list (list Z * A)) : list (option (list Z) * A) :=
  map (fun e => (send_message native_le (fst e), snd e)) log.
