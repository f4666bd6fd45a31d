(** What is said of WebSocket connections. *)
From Verif Require Import Base WsModel.
Open Scope list_scope.

(** [l] starts with [p]. *)
Definition prefix {A} (p l : list A) : Prop := exists rest, l = p ++ rest.
(** What the user asked for and what the handler asked for were the same messages. *)
Definition user_sends (h : list ev) : list msg :=
  flat_map (fun e => match e with ESend m => [m] | _ => [] end) h.
(** What the peer sent before the connection was closed. *)
Fixpoint peer_sends (h : list ev) : list msg :=
  match h with
  | [] => []
  | EPeer m :: h => m :: peer_sends h
  | EClose :: _ => []
  | _ :: h => peer_sends h
  end.
Definition closed_in (h : list ev) : Prop := In EClose h.
(** The client was accepted: there is no init, or it returned True. *)
Fixpoint first_answer (h : list hev) : option (option bool) :=
  match h with [] => None | HvInit r :: _ => Some r | _ :: h => first_answer h end.
Definition accepted (c : hconf) (h : list hev) : Prop := h_init c = false \/ first_answer h = Some (Some true).
