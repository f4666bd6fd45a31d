(** Model of runtimepy/net/udp/connection.py, net/udp/create.py, net/mixin.py
    (addresses) and net/stream/__init__.py 33-54 (messages over UDP).

    Sockets are numbered.  What asyncio's create_datagram_endpoint and a
    datagram transport do is assumed, as in CPython 3.12 (asyncio/base_events.py,
    asyncio/selector_events.py):
    - an existing socket excludes addresses and family, and must be open;
    - without a socket, an address or a family is needed; the new socket is
      bound to the local address (port 0: one the system chooses) and connected
      to the remote address;
    - a transport built from a remote address refuses to send to another;
    - a socket that has a peer sends to its peer, another to the address given;
      without any address the transport fails and is closed;
    - a closed transport sends nothing.
    Whether a datagram is put on the network is otherwise up to the system.
    Names are not resolved: addresses are given as the system returns them. *)
From Verif Require Import Base.
Open Scope list_scope.
Open Scope Z_scope.

Definition addr : Type := string * Z.
Definition addr_eqb (a b : addr) : bool := String.eqb (fst a) (fst b) && (snd a =? snd b).

Record sock := mkSock { s_local : addr; s_peer : option addr; s_open : bool }.
Record net := mkNet {
  n_sock : nat -> sock;
  n_next : nat;                                  (* the next unused number *)
  n_sent : list (addr * addr * list Z)           (* from, to, data: on the network *)
}.
(** The arguments of an endpoint. *)
Record kwargs := mkKw {
  k_local : option addr; k_remote : option addr; k_sock : option nat;
  k_family : bool;                               (* a family is given *)
  k_backoff : bool                               (* a back-off is given *)
}.
(** A transport: its socket and the remote address it was built with. *)
Record transport := mkTr { tr_sock : nat; tr_addr : option addr }.

Inductive made := MRefused (* ConnectionError *) | MRaised (* any other exception *) | MOk (t : transport).
(** What the system decides: whether creating is refused, and a free address. *)
Record decision := mkDec { d_refused : bool; d_addr : addr }.

Definition set_sock (n : net) (s : nat) (x : sock) : net :=
  mkNet (fun i => if Nat.eqb i s then x else n_sock n i) (n_next n) (n_sent n).
Definition choose (a : option addr) (d : addr) : addr :=
  match a with Some (h, p) => if p =? 0 then (h, snd d) else (h, p) | None => d end.

(** udp/create.py:21-35 [udp_transport_protocol]; an unexpected argument is a
    TypeError. *)
Definition endpoint (n : net) (k : kwargs) (d : decision) : net * made :=
  if k_backoff k then (n, MRaised)
  else
    match k_sock k with
    | Some s =>
        match k_local k, k_remote k, k_family k with
        | None, None, false => if s_open (n_sock n s) then (n, MOk (mkTr s None)) else (n, MRaised)
        | _, _, _ => (n, MRaised)
        end
    | None =>
        match k_local k, k_remote k, k_family k with
        | None, None, false => (n, MRaised)
        | _, _, _ =>
            if d_refused d then (n, MRefused)
            else (mkNet (fun i => if Nat.eqb i (n_next n) then mkSock (choose (k_local k) (d_addr d)) (k_remote k) true else n_sock n i)
                        (S (n_next n)) (n_sent n), MOk (mkTr (n_next n) (k_remote k)))
        end
    end.

Record conn := mkConn {
  c_tr : transport; c_local : addr; c_remote : option addr; c_kw : kwargs; c_connected : bool; c_enabled : bool;
  c_queue : list (list Z * addr);                (* of the current protocol *)
  c_latest : option addr; c_tx : Z; c_rx : Z;
  c_seen : list (list Z * addr)                  (* what process_datagram was called with *)
}.

(** mixin.py:36-50 [set_transport], udp/connection.py:67-72 [_set_protocol]: a
    new protocol has an empty queue. *)
Definition set_transport (n : net) (c : conn) (t : transport) : conn :=
  mkConn t (s_local (n_sock n (tr_sock t))) (s_peer (n_sock n (tr_sock t))) (c_kw c) (c_connected c) (c_enabled c)
         [] (c_latest c) (c_tx c) (c_rx c) (c_seen c).
(** 44-65 [__init__]. *)
Definition new_conn (n : net) (t : transport) (k : kwargs) : conn :=
  let x := n_sock n (tr_sock t) in
  mkConn t (s_local x) (s_peer x) k (match s_peer x with Some _ => true | None => false end) true [] None 0 0 [].

(** 74-82 [set_remote_address]. *)
Definition set_remote (c : conn) (a : option addr) : conn :=
  mkConn (c_tr c) (c_local c) a (c_kw c) (c_connected c) (c_enabled c) (c_queue c) (c_latest c) (c_tx c) (c_rx c) (c_seen c).
Definition no_backoff (k : kwargs) : kwargs := mkKw (k_local k) (k_remote k) (k_sock k) (k_family k) false.
(** 134-170 [create_connection].  [connect] is the argument or the class's
    should_connect.  The attempts of udp_transport_protocol_backoff that are
    refused change nothing, so only the last is modelled (BackoffModel has the
    loop). *)
Definition create (n : net) (connect : bool) (k : kwargs) (d : decision) : net * option conn :=
  let later := if connect then None else k_remote k in
  let k1 :=
    if connect then k
    else
      match k_local k with
      | Some _ => mkKw (k_local k) None (k_sock k) (k_family k) (k_backoff k)
      | None => mkKw (Some ("0.0.0.0"%string, 0)) None (k_sock k) true (k_backoff k)
      end in
  match endpoint n (no_backoff k1) d with
  | (n', MOk t) =>
      let c := new_conn n' t k1 in
      (n', Some (match later with Some a => set_remote c (Some a) | None => c end))
  | (n', _) => (n', None)
  end.

(** What happens to a datagram handed to an open socket: it leaves, it is lost,
    the system reports an error (error_received, udp/protocol.py:38-52), or the
    socket has vanished (AttributeError). *)
Inductive fate := Leaves | Lost | Errors | Vanished.
Inductive sent := SAccepted | SValueError | SAttributeError.

(** asyncio's sendto (see above); the second result tells that the protocol's
    error_received was called.  Empty data is not sent. *)
Definition tr_sendto (n : net) (t : transport) (data : list Z) (a : option addr) (f : fate) : net * sent * bool :=
  match data with
  | [] => (n, SAccepted, false)
  | _ :: _ =>
      if match tr_addr t, a with Some x, Some y => negb (addr_eqb x y) | _, _ => false end then (n, SValueError, false)
      else
        let s := n_sock n (tr_sock t) in
        if s_open s then
          match s_peer s, a with
          | None, None => (set_sock n (tr_sock t) (mkSock (s_local s) (s_peer s) false), SAccepted, false)
          | p, _ =>
              match f with
              | Leaves => (mkNet (n_sock n) (n_next n)
                             (n_sent n ++ [(s_local s, match p, a with Some x, _ => x | None, Some y => y | None, None => s_local s end, data)]),
                           SAccepted, false)
              | Lost => (n, SAccepted, false)
              | Errors => (n, SAccepted, true)
              | Vanished => (n, SAttributeError, false)
              end
          end
        else (n, SAccepted, false)
  end.

(** connection.py:186-201 [disable]. *)
Definition disable (c : conn) : conn :=
  mkConn (c_tr c) (c_local c) (c_remote c) (c_kw c) (c_connected c) false (c_queue c) (c_latest c) (c_tx c) (c_rx c) (c_seen c).
Definition add_tx (c : conn) (v : Z) : conn :=
  mkConn (c_tr c) (c_local c) (c_remote c) (c_kw c) (c_connected c) (c_enabled c) (c_queue c) (c_latest c) (c_tx c + v) (c_rx c) (c_seen c).
(** 90-105 [sendto]; true: ValueError. *)
Definition sendto (n : net) (c : conn) (data : list Z) (a : option addr) (f : fate) : net * conn * bool :=
  match tr_sendto n (c_tr c) data a f with
  | (n', SAccepted, err) => (n', add_tx (if err then disable c else c) (Z.of_nat (List.length data)), false)
  | (n', SValueError, _) => (n', c, true)
  | (n', SAttributeError, _) => (n', disable c, false)
  end.
(** 107-113 [send_text], [send_binary] (text is encoded). *)
Definition send_binary (n : net) (c : conn) (data : list Z) (f : fate) : net * conn * bool := sendto n c data (c_remote c) f.
(** stream/__init__.py:47-54: a message goes to [addr], not to the remote
    address; [frame] is what MessageProcessor.encode gives. *)
Definition send_message (frame : list Z -> list Z) (n : net) (c : conn) (data : list Z) (a : option addr) (f : fate) : net * conn * bool :=
  sendto n c (frame data) a f.

(** 115-130 [restart]; true: an exception. *)
Definition restart (n : net) (c : conn) (d : decision) : net * conn * bool :=
  match endpoint n (c_kw c) d with
  | (n', MOk t) =>
      (* connection.py:243-245: the connection is enabled again *)
      let c' := set_transport n' c t in
      (n', mkConn (c_tr c') (c_local c') (c_remote c') (c_kw c') (c_connected c') true (c_queue c') (c_latest c') (c_tx c') (c_rx c') (c_seen c'), false)
  | (n', MRefused) => (n', c, false)
  | (n', MRaised) => (n', c, true)
  end.
(** 188-190 [close]. *)
Definition close (n : net) (c : conn) : net :=
  let s := n_sock n (tr_sock (c_tr c)) in set_sock n (tr_sock (c_tr c)) (mkSock (s_local s) (s_peer s) false).

(** udp/protocol.py:34-36 [datagram_received]; the system filters what a
    connected socket receives. *)
Definition received (n : net) (c : conn) (data : list Z) (from : addr) : conn :=
  let s := n_sock n (tr_sock (c_tr c)) in
  if s_open s && match s_peer s with Some p => addr_eqb p from | None => true end then
    mkConn (c_tr c) (c_local c) (c_remote c) (c_kw c) (c_connected c) (c_enabled c) (c_queue c ++ [(data, from)]) (c_latest c) (c_tx c) (c_rx c) (c_seen c)
  else c.

Section Handler.
  (** [process_datagram]: what it sends in response (each to the remote
      address or to the address given), and its result. *)
  Inductive reply := Send (data : list Z) | SendTo (data : list Z) (a : addr).
  Context (handler : list Z -> addr -> list reply * bool).

  Fixpoint replies (n : net) (c : conn) (l : list reply) (fs : nat -> fate) : net * conn * bool :=
    match l with
    | [] => (n, c, false)
    | r :: rest =>
        match (match r with Send d => send_binary n c d (fs 0%nat) | SendTo d a => sendto n c d (Some a) (fs 0%nat) end) with
        | (n', c', true) => (n', c', true)
        | (n', c', false) => replies n' c' rest (fun i => fs (S i))
        end
    end.

  (** 192-213 [_process_read], one turn; [fs] are the fates of what is sent.
      true: an exception ends the reading task. *)
  Definition read_one (n : net) (c : conn) (fs : nat -> fate) : net * conn * bool :=
    if c_enabled c then
      match c_queue c with
      | [] => (n, c, false)
      | (data, from) :: rest =>
          let c1 := mkConn (c_tr c) (c_local c) (c_remote c) (c_kw c) (c_connected c) (c_enabled c) rest (Some from) (c_tx c) (c_rx c)
                      (c_seen c ++ [(data, from)]) in
          let '(l, ok) := handler data from in
          match replies n c1 l fs with
          | (n', c2, true) => (n', c2, true)
          | (n', c2, false) =>
              let c3 := mkConn (c_tr c2) (c_local c2) (c_remote c2) (c_kw c2) (c_connected c2) (c_enabled c2) (c_queue c2) (c_latest c2) (c_tx c2)
                          (c_rx c2 + Z.of_nat (List.length data)) (c_seen c2) in
              (n', if ok : bool then c3 else disable c3, false)
          end
      end
    else (n, c, false).

  Inductive op :=
  | OSend (data : list Z) (f : fate) | OSendTo (data : list Z) (a : addr) (f : fate)
  | OSetRemote (a : addr) | OReceive (data : list Z) (from : addr) | ORead (fs : nat -> fate)
  | ODisable | OClose | ORestart (d : decision).
  Definition step (n : net) (c : conn) (o : op) : net * conn * bool :=
    match o with
    | OSend d f => send_binary n c d f
    | OSendTo d a f => sendto n c d (Some a) f
    | OSetRemote a => (n, set_remote c (Some a), false)
    | OReceive d from => (n, received n c d from, false)
    | ORead fs => read_one n c fs
    | ODisable => (n, disable c, false)
    | OClose => (close n c, c, false)
    | ORestart d => if c_enabled c then (n, c, false) else restart n c d  (* connection.py:236-240 *)
    end.
  (** Exceptions are seen by the caller, who goes on. *)
  Fixpoint run (n : net) (c : conn) (ops : list op) : net * conn :=
    match ops with
    | [] => (n, c)
    | o :: r => let '(n', c', _) := step n c o in run n' c' r
    end.
End Handler.
(** 216-234: an echo, and a connection that ignores what it receives. *)
Definition echo_handler (data : list Z) (from : addr) : list reply * bool := ([SendTo data from], true).
Definition null_handler (_ : list Z) (_ : addr) : list reply * bool := ([], true).
