(** What was on the wire. *)
From Verif Require Import Base Utf8Model MetricsModel.
Open Scope list_scope.
Open Scope Z_scope.

(** The payloads handed to the transport, in bytes, since the last reset: text
    travels as UTF-8; nothing is written when the socket is gone or the text
    cannot be encoded. *)
Definition payload (k : ckind) (o : cop) : option (list Z) :=
  match o with
  | SendText s ok => if ok then utf8_encode s else None
  | SendBinary b ok => if ok then Some b else None
  | _ => None
  end.
Definition received (k : ckind) (o : cop) : option (list Z) :=
  match o, k with
  | RecvText s _, Websocket => utf8_encode s
  | RecvBinary b _, _ => Some b
  | _, _ => None
  end.
Definition opt_list {A} (o : option A) : list A := match o with Some x => [x] | None => [] end.
Fixpoint since_reset (f : cop -> option (list Z)) (l : list cop) (acc : list (list Z)) : list (list Z) :=
  match l with
  | [] => acc
  | MReset :: l => since_reset f l []
  | o :: l => since_reset f l (acc ++ opt_list (f o))
  end.
Definition wire_tx k l := since_reset (payload k) l [].
Definition wire_rx k l := since_reset (received k) l [].
Definition total (l : list (list Z)) : Z := fold_right (fun b n => Z.of_nat (List.length b) + n) 0 l.

(** TCP: the transport accepts every write (asyncio drops data quietly when the
    peer is gone).  UDP: processing a datagram returns.  Websocket: the peer is
    there, and texts are ASCII. *)
Definition nominal (k : ckind) (o : cop) : Prop :=
  match k, o with
  | Tcp, SendText _ ok | Tcp, SendBinary _ ok => ok = true
  | Udp, RecvBinary _ ok => ok = true
  | Websocket, SendText s ok => ok = true /\ Forall is_ascii s
  | Websocket, SendBinary _ ok => ok = true
  | Websocket, RecvText s _ => Forall is_ascii s
  | _, _ => True
  end.
