(** Model of channel events: runtimepy/channel/event/__init__.py,
    channel/event/header.py and the stream parser of
    channel/environment/telemetry.py. *)
From Verif Require Import Base PrimModel FifoModel.

Section Host.
  Context (native_le : bool).

  (** header.py:16-21: identifier (uint16) then timestamp (uint64), in the
      default byte order of the protocol's array.  The array holds two members
      and a standard byte order, so its bytes are those of the members one
      after the other (ArrayModel). *)
  Definition e_header (ident ts : Z) : option (list Z) :=
    match k_encode native_le U16 default_byte_order (k_store U16 ident),
          k_encode native_le U64 default_byte_order (k_store U64 ts) with
    | Some a, Some b => Some (a ++ b)
    | _, _ => None
    end.
  Definition e_header_size : Z := Z.of_nat (k_size U16 + k_size U64).

  (** The primitive an event watches: kind, stored value, last_updated_ns. *)
  Record watched := mkWatched { w_kind : kind; w_val : Z; w_ts : Z }.

  (** event/__init__.py:21-33. *)
  Record event := mkEvent { ev_id : Z; ev_prev : Z; ev_min : Z; ev_streaming : bool }.
  (** header.py:23-30: None is the AssertionError on an identifier that does
      not fit. *)
  Definition ev_new (ident : Z) : option event :=
    if b_validate (bounds_create 2 false) ident
    then Some (mkEvent ident 0 0 false) else None.
  (** 35-39 [set_min_period], the period already in nanoseconds (vcorelib's
      [to_nanos]). *)
  Definition ev_set_min (e : event) (ns : Z) : event :=
    mkEvent (ev_id e) (ev_prev e) ns (ev_streaming e).

  (** 70-102 [_poll]: the event afterwards and the bytes written; None is
      struct.error. *)
  Definition ev_poll (e : event) (w : watched) (force : bool) : option (event * list Z) :=
    if force || (ev_min e <=? w_ts w - ev_prev e) then
      match e_header (ev_id e) (w_ts w),
            k_encode native_le (w_kind w) default_byte_order (w_val w) with
      | Some h, Some v =>
          Some (mkEvent (ev_id e) (w_ts w) (ev_min e) (ev_streaming e), h ++ v)
      | _, _ => None
      end
    else Some (e, []).

  (** primitives/base.py:156-166 [set_value] of the watched primitive with the
      event's callback registered (the comparison at 145 is on the assigned
      value, not the stored one). *)
  Definition ev_assign (e : event) (w : watched) (v ts : Z) (force : bool)
    : option (event * watched * list Z) :=
    let w' := mkWatched (w_kind w) (k_store (w_kind w) v) ts in
    if ev_streaming e && negb (w_val w =? v) then
      match ev_poll e w' force with
      | Some (e', bs) => Some (e', w', bs)
      | None => None
      end
    else Some (e, w', []).

  (** 41-65 [registered], entering the context: None is the AssertionError
      (already streaming) or struct.error. *)
  Definition ev_enter (e : event) (w : watched) : option (event * list Z) :=
    if ev_streaming e then None else
    match ev_poll (mkEvent (ev_id e) 0 (ev_min e) false) w false with
    | Some (e', bs) => Some (mkEvent (ev_id e') (ev_prev e') (ev_min e') true, bs)
    | None => None
    end.

  (** Assignments, one after the other, on a registered event: what each one
      wrote. *)
  Fixpoint ev_run (e : event) (w : watched) (force : bool) (ops : list (Z * Z))
    : option (event * watched * list (list Z)) :=
    match ops with
    | [] => Some (e, w, [])
    | (v, ts) :: ops' =>
        match ev_assign e w v ts force with
        | None => None
        | Some (e', w', bs) =>
            match ev_run e' w' force ops' with
            | Some (e'', w'', bss) => Some (e'', w'', bs :: bss)
            | None => None
            end
        end
    end.

  (** ** The parser: telemetry.py:88-175.  [names] is [channels.names.name],
      [fields] gives the kind of the register behind a bit field
      ([self.fields]), [chans] the kind of a channel ([channels.items]). *)
  Context (names : Z -> option string).
  Context (fields chans : string -> option kind).

  (** registry.py:79-85: what persists between calls (event_fifo,
      header_ready, the header's two members). *)
  Record parser := mkParser { x_fifo : list Z; x_ready : bool; x_id : Z; x_ts : Z }.
  Definition x_init : parser := mkParser [] false 0 0.

  (** channel/registry.py:44-49 [ParsedEvent]. *)
  Record parsed := mkParsed { g_name : string; g_ts : Z; g_val : Z }.

  (** 163-168: which branch handles a name. *)
  Definition x_kind (name : string) : option kind :=
    match fields name with Some k => Some k | None => chans name end.

  (** 141-175.  [name] is the local variable.  The consumer always comes back
      for the next event.  The boolean is true when the assertion at 154
      failed. *)
  Fixpoint x_loop (fuel : nat) (p : parser) (name : string)
    : list parsed * parser * bool :=
    match fuel with
    | O => ([], p, false)
    | S fuel' =>
        if negb (x_ready p) then
          match fifo_pop e_header_size (x_fifo p) with
          | None => ([], p, false)
          | Some (data, rest) =>
              match k_decode native_le U16 default_byte_order (firstn (k_size U16) data),
                    k_decode native_le U64 default_byte_order (skipn (k_size U16) data) with
              | Some i, Some t =>
                  match names i with
                  | None => ([], mkParser rest false i t, true)
                  | Some nm => x_loop fuel' (mkParser rest true i t) nm
                  end
              | _, _ => ([], mkParser rest false (x_id p) (x_ts p), true)
              end
          end
        else
          match x_kind name with
          | None => ([], p, false)
          | Some k =>
              match fifo_pop (Z.of_nat (k_size k)) (x_fifo p) with
              | None => ([], p, false)
              | Some (data, rest) =>
                  match k_decode native_le k default_byte_order data with
                  | Some v =>
                      let '(es, q, r) :=
                        x_loop fuel' (mkParser rest false (x_id p) (x_ts p)) name in
                      (mkParsed name (x_ts p) v :: es, q, r)
                  | None => ([], mkParser rest true (x_id p) (x_ts p), true)
                  end
              end
          end
    end.

  (** 129-139 [parse_event_stream]: ingest, then loop with fresh locals.  Each
      turn but the last consumes at least one byte, so the fuel suffices. *)
  Definition x_parse (p : parser) (data : list Z) : list parsed * parser * bool :=
    let p' := mkParser (x_fifo p ++ data) (x_ready p) (x_id p) (x_ts p) in
    x_loop (List.length (x_fifo p') + 2) p' "".

  (** One call per received chunk. *)
  Fixpoint x_feed (p : parser) (chunks : list (list Z)) : list parsed * parser :=
    match chunks with
    | [] => ([], p)
    | c :: cs =>
        let '(es, p', _) := x_parse p c in
        let '(es', q) := x_feed p' cs in
        (es ++ es', q)
    end.
End Host.
