(** Model of runtimepy/message/__init__.py: size-delimited messages.

    [process] is a generator.  What its consumer does with a yielded message
    is a parameter: [accept m = true] when the consumer comes back for the next
    message, false when it leaves the loop (an exception in the loop body, for
    instance [loads] failing at line 57 or [process_single] raising at
    net/stream/base.py:67-69).  A generator left at a [yield] is closed there:
    line 83 does not run. *)
From Verif Require Import Base PrimModel FifoModel.

Section Host.
  Context (native_le : bool).
  (** 24 [message_length_kind] (Uint32) and 29 [byte_order]. *)
  Context (lk : kind) (bo : byte_order).

  (** 26-37.  [message_length_out] is overwritten by every [encode]. *)
  Record mproc := mkMproc { m_buf : list Z; m_header : bool; m_len : Z }.
  Definition m_init : mproc := mkMproc [] true 0.

  (** 39-47 [encode]: the bytes written; None is struct.error (cannot happen,
      the stored value is in bounds). *)
  Definition m_encode (data : list Z) : option (list Z) :=
    match k_encode native_le lk bo (k_store lk (zlen data)) with
    | Some h => Some (h ++ data)
    | None => None
    end.

  (** 65-85, one turn of the loop. *)
  Inductive turn :=
  | TStop                            (** [can_continue = False] *)
  | TCont (p : mproc)
  | TYield (m : list Z) (p : mproc)  (** state at the [yield] *)
  | TRaise (p : mproc).              (** assertion or struct.error *)
  Definition m_turn (p : mproc) : turn :=
    if m_header p then
      match fifo_pop (Z.of_nat (k_size lk)) (m_buf p) with
      | None => TStop
      | Some (size, rest) =>
          match k_decode native_le lk bo size with
          | Some n => TCont (mkMproc rest false (k_store lk n))
          | None => TRaise (mkMproc rest true (m_len p))
          end
      end
    else
      match fifo_pop (m_len p) (m_buf p) with
      | None => TStop
      | Some (m, rest) => TYield m (mkMproc rest false (m_len p))
      end.

  (** How a pass over the generator ended: exhausted, left by the consumer at
      a message, raised, or out of fuel (shown impossible). *)
  Inductive ending := EDone | ELeft | ERaised | EFuel.

  Section Consumer.
    Context (accept : list Z -> bool).

    (** 64-85, with the messages yielded (including the one at which the
        consumer left). *)
    Fixpoint m_loop (fuel : nat) (p : mproc) : list (list Z) * mproc * ending :=
      match fuel with
      | O => ([], p, EFuel)
      | S fuel' =>
          match m_turn p with
          | TStop => ([], p, EDone)
          | TRaise p' => ([], p', ERaised)
          | TCont p' => m_loop fuel' p'
          | TYield m p' =>
              if accept m then
                let '(ms, q, e) := m_loop fuel' (mkMproc (m_buf p') true (m_len p')) in
                (m :: ms, q, e)
              else ([m], p', ELeft)
          end
      end.

    Definition m_fuel (p : mproc) : nat := 2 * List.length (m_buf p) + 2.

    (** 59-85 [process]. *)
    Definition m_process (p : mproc) (data : list Z) : list (list Z) * mproc * ending :=
      let p' := mkMproc (m_buf p ++ data) (m_header p) (m_len p) in
      m_loop (m_fuel p') p'.

    (** Feeding one chunk after another (the connection's read loop); the
        stream goes on after a message was refused. *)
    Fixpoint m_feed (p : mproc) (chunks : list (list Z)) : list (list Z) * mproc :=
      match chunks with
      | [] => ([], p)
      | c :: cs =>
          let '(ms, p', _) := m_process p c in
          let '(ms', q) := m_feed p' cs in
          (ms ++ ms', q)
      end.
  End Consumer.

  (** 53-57 [messages]: [parse] stands for [loads(message.decode())], None
      when it raises. *)
  Definition m_messages {J} (parse : list Z -> option J) (p : mproc) (data : list Z)
    : list J * mproc * ending :=
    let '(ms, q, e) :=
      m_process (fun m => match parse m with Some _ => true | None => false end) p data in
    (flat_map (fun m => match parse m with Some j => [j] | None => [] end) ms, q, e).
End Host.
