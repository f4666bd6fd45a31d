(** Specification vocabulary for C23 and C24. *)
From Verif Require Import Base PrimModel PrimSpec EventModel.

(** An event as the sender sees it. *)
Record sent := mkSent { s_id : Z; s_name : string; s_kind : kind; s_ts : Z; s_val : Z }.

(** Sender and receiver agree on a sent event: the identifier is registered
    under the name, and the name denotes a field or channel of that kind. *)
Definition agreed (names : Z -> option string) (fields chans : string -> option kind)
    (e : sent) : Prop :=
  names (s_id e) = Some (s_name e) /\
  (fields (s_name e) = Some (s_kind e) \/
   fields (s_name e) = None /\ chans (s_name e) = Some (s_kind e)) /\
  0 <= s_id e < 2 ^ 16 /\ 0 <= s_ts e < 2 ^ 64 /\ k_value (s_kind e) (s_val e).

(** What the receiver should see of it. *)
Definition seen (e : sent) : parsed := mkParsed (s_name e) (s_ts e) (s_val e).

(** Big-endian numbers. *)
Fixpoint big_endian (n : nat) (v : Z) : list Z :=
  match n with
  | O => []
  | S n' => v / 256 ^ Z.of_nat n' mod 256 :: big_endian n' v
  end.

(** An event on the wire: ten header bytes, then the value. *)
Definition event_bytes (e : sent) : list Z :=
  big_endian 2 (s_id e) ++ big_endian 8 (s_ts e) ++ big_endian (wire_size (s_kind e)) (s_val e).
Definition event_stream (es : list sent) : list Z := List.concat (map event_bytes es).

(** A position of the stream strictly after some event's header and before that
    event's end (so the event's header has arrived and its value has not). *)
Fixpoint inside_value (n : Z) (es : list sent) : bool :=
  match es with
  | [] => false
  | e :: es' =>
      let len := 10 + Z.of_nat (wire_size (s_kind e)) in
      if len <=? n then inside_value (n - len) es' else 10 <=? n
  end.

(** The events completely contained in the first [n] bytes. *)
Fixpoint events_in (n : Z) (es : list sent) : list sent :=
  match es with
  | [] => []
  | e :: es' =>
      let len := 10 + Z.of_nat (wire_size (s_kind e)) in
      if len <=? n then e :: events_in (n - len) es' else []
  end.

(** The number of bytes received after the first [k] chunks. *)
Definition received (k : nat) (chunks : list (list Z)) : Z :=
  zlen (List.concat (firstn k chunks)).

(** Non-decreasing timestamps from [t] on. *)
Fixpoint monotone (t : Z) (ops : list (Z * Z)) : Prop :=
  match ops with
  | [] => True
  | (_, ts) :: ops' => t <= ts /\ monotone ts ops'
  end.
