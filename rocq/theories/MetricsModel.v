(** Traffic counters of connections. *)
From Verif Require Import Base PrimModel Utf8Model.
Open Scope list_scope.
Open Scope Z_scope.

(** metrics/channel.py:17-33: the counters; the rates are floats that depend on
    the clock and are left out. *)
Record cmetrics := mkMetrics { m_messages : Z; m_bytes : Z }.
Definition m_new : cmetrics := mkMetrics 0 0.

(** metrics/channel.py:63-75 [increment]. *)
Definition m_increment (m : cmetrics) (count : Z) : cmetrics :=
  mkMetrics (k_store U32 (m_messages m + 1)) (k_store U64 (m_bytes m + count)).
(** metrics/channel.py:77-83 [reset]. *)
Definition m_reset (m : cmetrics) : cmetrics := mkMetrics (k_store U32 0) (k_store U64 0).
(** metrics/channel.py:35-41 [update]. *)
Definition m_update (m other : cmetrics) : cmetrics :=
  mkMetrics (k_store U32 (m_messages other)) (k_store U64 (m_bytes other)).
(** metrics/channel.py:55-61 [poll] changes rates only. *)
Definition m_poll (m : cmetrics) : cmetrics := m.

(** metrics/connection.py:9-16. *)
Record connmetrics := mkConnMetrics { cm_tx : cmetrics; cm_rx : cmetrics }.
Definition cm_new : connmetrics := mkConnMetrics m_new m_new.

Inductive ckind := Tcp | Udp | Websocket.

(** What happens on a connection.  A text is a list of code points.  [ok] tells
    for a send whether the transport took the data (the socket may be gone), for
    a reception whether processing the data returned. *)
Inductive cop :=
| SendText (s : list Z) (ok : bool)
| SendBinary (b : list Z) (ok : bool)
| RecvText (s : list Z) (ok : bool)      (* websocket text frames only *)
| RecvBinary (b : list Z) (ok : bool)
| MReset                                 (* metrics/connection.py:24-27 *)
| MPoll.                                 (* metrics/connection.py:29-32 *)

Definition zlength {A} (l : list A) : Z := Z.of_nat (List.length l).

Definition count_tx (m : connmetrics) (n : Z) : connmetrics := mkConnMetrics (m_increment (cm_tx m) n) (cm_rx m).
Definition count_rx (m : connmetrics) (n : Z) : connmetrics := mkConnMetrics (cm_tx m) (m_increment (cm_rx m) n).

(** tcp/connection.py:106-109 [send_binary]: write never raises;
    udp/connection.py:93-105 [sendto]: a vanished socket is not counted;
    websocket/connection.py:77-85: counted even when the peer is gone. *)
Definition send_data (k : ckind) (m : connmetrics) (n : Z) (ok : bool) : connmetrics :=
  match k with
  | Tcp => count_tx m n
  | Udp => if ok then count_tx m n else m
  | Websocket => count_tx m n
  end.

Definition c_op (k : ckind) (m : connmetrics) (o : cop) : connmetrics :=
  match o with
  | SendText s ok =>
      match k with
      | Websocket => send_data k m (zlength s) ok      (* websocket/connection.py:80: len of the str *)
      | _ =>
          (* tcp/connection.py:102-104, udp/connection.py:107-109: encode first *)
          match utf8_encode s with
          | Some b => send_data k m (zlength b) ok
          | None => m                                  (* UnicodeEncodeError *)
          end
      end
  | SendBinary b ok => send_data k m (zlength b) ok
  | RecvText s ok => match k with Websocket => count_rx m (zlength s) | _ => m end
  | RecvBinary b ok =>
      match k with
      | Udp => if ok then count_rx m (zlength b) else m     (* udp/connection.py:207-208: counted afterwards *)
      | _ => count_rx m (zlength b)                         (* tcp/connection.py:97-100, websocket/connection.py:72-75 *)
      end
  | MReset => mkConnMetrics (m_reset (cm_tx m)) (m_reset (cm_rx m))
  | MPoll => mkConnMetrics (m_poll (cm_tx m)) (m_poll (cm_rx m))
  end.
Definition c_ops (k : ckind) (m : connmetrics) (l : list cop) : connmetrics := fold_left (c_op k) l m.
