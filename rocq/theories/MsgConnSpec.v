(** Specification vocabulary for C87: what a connection that receives
    size-prefixed messages processes, in terms of the bytes that arrive. *)
From Verif Require Import Base MessageSpec MsgConnModel.
Open Scope list_scope.
Open Scope Z_scope.

(** No message is complete at the start of these bytes. *)
Definition incomplete (tail : list Z) : Prop :=
  forall m rest, zlen m < 2 ^ 32 -> tail <> frame m ++ rest.

(** The size prefix of a message. *)
Definition prefix_of (m : list Z) : list Z := firstn 4 (frame m).

Section Behaviour.
  Context {A : Type} (handler : list Z -> A -> outcome).
  Notation stamp a := (map (fun m => (m, a))).

  (** After these events the connection holds these bytes back, reads or does not,
      and has processed these messages, each on behalf of a sender. *)
  Inductive behaves : list (event A) -> list Z -> bool -> list (list Z * A) -> Prop :=
  | B_start : behaves [] [] true []
  (* every complete message is processed, on behalf of whoever sent the last piece;
     the connection goes on when each result was true *)
  | B_data es held log a data ms tail :
      behaves es held true log ->
      held ++ data = wire ms ++ tail -> incomplete tail -> Forall (fun m => zlen m < 2 ^ 32) ms ->
      Forall (fun m => handler m a <> RRaise) ms ->
      behaves (es ++ [Data a data]) tail (forallb (fun m => o_true (handler m a)) ms) (log ++ stamp a ms)
  (* an exception stops there: the rest is held, behind a second copy of the size of
     the message that caused it *)
  | B_raise es held log a data ms m rest :
      behaves es held true log ->
      held ++ data = wire (ms ++ [m]) ++ rest -> Forall (fun m => zlen m < 2 ^ 32) (ms ++ [m]) ->
      Forall (fun m => handler m a <> RRaise) ms -> handler m a = RRaise ->
      behaves (es ++ [Data a data]) (prefix_of m ++ rest) false (log ++ stamp a (ms ++ [m]))
  | B_off es held log a data :
      behaves es held false log -> behaves (es ++ [Data a data]) held false log
  | B_restart es held on log :
      behaves es held on log -> behaves (es ++ [Restart]) held true log.
End Behaviour.

(** The bytes of the data events, in order, whoever sent them. *)
Definition arrived {A} (es : list (event A)) : list Z :=
  List.concat (map (fun e => match e with Data _ d => d | Restart => [] end) es).
Definition bytes_only {A} (es : list (event A)) : Prop := is_bytes (arrived es).

(** Histories in which only whole messages arrive: a sender and its messages, or a
    restart; and the messages with their senders. *)
Definition whole_event {A} (e : option (A * list (list Z))) : event A :=
  match e with Some (a, ms) => Data a (wire ms) | None => Restart end.
Definition whole_log {A} (es : list (option (A * list (list Z)))) : list (list Z * A) :=
  List.concat (map (fun e => match e with Some (a, ms) => map (fun m => (m, a)) ms | None => [] end) es).
