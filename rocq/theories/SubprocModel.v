(** Model of the path of a subprocess's output to the handlers of its peer:
    runtimepy/subprocess/protocol.py, subprocess/__init__.py, subprocess/peer.py
    (the polling task) and the data handlers of subprocess/interface.py; and of
    the input loop of the program on the other side (subprocess/program.py).

    The event loop calls the protocol's methods and resumes the polling task in
    any order, so a run is a list of operations.  The polling task is cut at
    every [await] it may reach (and between the messages of a chunk, where a
    handler may or may not suspend), which allows every real interleaving.
    Counters are not wrapped here (MetricsModel). *)
From Verif Require Import Base PrimModel FifoModel MessageModel EventModel.

Definition chunk := list Z.

(** What the polling task is doing: asleep at peer.py:67 (or not yet started);
    in the loop at 255-256, with the messages its generator still has to hand
    out; ended by an exception; ended by cancellation (69-70) or because there
    is no queue to service (243-258). *)
Inductive poll := PAsleep | PBusy (pending : list (list Z)) | PFailed | PEnded.

(** metrics/channel.py: [messages] and [bytes]. *)
Record counts := mkCounts { k_messages : Z; k_bytes : Z }.
(** metrics/channel.py:63-70 [increment]. *)
Definition count_up (n : Z) (c : counts) : counts := mkCounts (k_messages c + 1) (k_bytes c + n).

(** protocol.py:34-37 (queues, exited), whether [spawn_exec] has assigned the
    queues, the number of AssertionErrors that left [pipe_data_received];
    interface.py:56, 66 (message processor, [peer is not None] and the event
    parser of the peer's environment), 198-207 (metrics); what was given to
    [handle_stdout], to [handle_stderr] (with whether the peer's environment
    was known), to [process_json] and to [ingest]; what [close_protocol]
    logged. *)
Record sub := mkSub {
  s_spawned : bool;
  s_out : option (list chunk); s_err : option (list chunk);
  s_exited : bool; s_raised : nat;
  s_poll : poll;
  s_proc : mproc; s_known : bool; s_parser : parser;
  s_mout : counts; s_merr : counts;
  s_gout : list chunk; s_gerr : list (bool * chunk);
  s_msgs : list (list Z); s_events : list parsed;
  s_lout : list chunk; s_lerr : list chunk
}.

(** protocol.py:56-64 [connection_made]; interface.py:49-81. *)
Definition sub_init : sub :=
  mkSub false None None false 0 PAsleep m_init false x_init
        (mkCounts 0 0) (mkCounts 0 0) [] [] [] [] [] [].

(** [Queue.put_nowait] on an optional queue (85, 97-98, 102-103). *)
Definition q_put (data : chunk) (q : option (list chunk)) : option (list chunk) :=
  match q with Some l => Some (l ++ [data]) | None => None end.

Definition with_queues (o e : option (list chunk)) (s : sub) : sub :=
  mkSub (s_spawned s) o e (s_exited s) (s_raised s) (s_poll s) (s_proc s) (s_known s)
        (s_parser s) (s_mout s) (s_merr s) (s_gout s) (s_gerr s) (s_msgs s) (s_events s)
        (s_lout s) (s_lerr s).
Definition with_poll (p : poll) (s : sub) : sub :=
  mkSub (s_spawned s) (s_out s) (s_err s) (s_exited s) (s_raised s) p (s_proc s) (s_known s)
        (s_parser s) (s_mout s) (s_merr s) (s_gout s) (s_gerr s) (s_msgs s) (s_events s)
        (s_lout s) (s_lerr s).
Definition with_raise (s : sub) : sub :=
  mkSub (s_spawned s) (s_out s) (s_err s) (s_exited s) (S (s_raised s)) (s_poll s) (s_proc s)
        (s_known s) (s_parser s) (s_mout s) (s_merr s) (s_gout s) (s_gerr s) (s_msgs s)
        (s_events s) (s_lout s) (s_lerr s).

(** protocol.py:78-85 [pipe_data_received]. *)
Definition sub_data (fd : Z) (data : chunk) (s : sub) : sub :=
  match (fd =? 1), s_out s, s_err s with
  | true, Some _, _ => with_queues (q_put data (s_out s)) (s_err s) s
  | _, _, Some _ =>
      if fd =? 2 then with_queues (s_out s) (q_put data (s_err s)) s else with_raise s
  | _, _, None => s
  end.

(** protocol.py:87-103 [pipe_connection_lost]. *)
Definition sub_lost (fd : Z) (s : sub) : sub :=
  if fd =? 1 then with_queues (q_put [] (s_out s)) (s_err s) s
  else if fd =? 2 then with_queues (s_out s) (q_put [] (s_err s)) s
  else s.

(** protocol.py:105-113 [process_exited] (the elapsed time is left out). *)
Definition sub_exit (s : sub) : sub :=
  let s := with_queues (q_put [] (s_out s)) (q_put [] (s_err s)) s in
  mkSub (s_spawned s) (s_out s) (s_err s) true (s_raised s) (s_poll s) (s_proc s) (s_known s)
        (s_parser s) (s_mout s) (s_merr s) (s_gout s) (s_gerr s) (s_msgs s) (s_events s)
        (s_lout s) (s_lerr s).

(** subprocess/__init__.py:110-111 (and 137-138): assigning the queues, once,
    when [subprocess_exec] has returned; [o] and [e] tell which queues the
    caller passed (new, empty ones, as peer.py:101-103 and 124-126 do). *)
Definition sub_attach (o e : bool) (s : sub) : sub :=
  if s_spawned s then s else
  mkSub true (if o then Some [] else None) (if e then Some [] else None) (s_exited s)
        (s_raised s) (s_poll s) (s_proc s) (s_known s) (s_parser s) (s_mout s) (s_merr s)
        (s_gout s) (s_gerr s) (s_msgs s) (s_events s) (s_lout s) (s_lerr s).

(** subprocess/__init__.py:66-88, the end of [close_protocol], which runs when
    the process has exited and, for a peer, after its polling task has ended
    (peer.py:86-88): what is left in the queues is logged.  Empty chunks are
    not. *)
Definition sub_close (s : sub) : sub :=
  match s_exited s, s_poll s with
  | true, PFailed | true, PEnded =>
      let left (q : option (list chunk)) :=
        filter (fun c => match c with [] => false | _ => true end)
               (match q with Some l => l | None => [] end) in
      let clear (q : option (list chunk)) :=
        match q with Some _ => Some [] | None => None end in
      mkSub (s_spawned s) (clear (s_out s)) (clear (s_err s)) (s_exited s) (s_raised s)
            (s_poll s) (s_proc s) (s_known s) (s_parser s) (s_mout s) (s_merr s) (s_gout s)
            (s_gerr s) (s_msgs s) (s_events s) (s_lout s ++ left (s_out s))
            (s_lerr s ++ left (s_err s))
  | _, _ => s
  end.

(** interface.py:103-130 [_set_peer_env], the part seen here: the first time,
    the environment becomes known, with a fresh parser. *)
Definition sub_peer (s : sub) : sub :=
  if s_known s then s else
  mkSub (s_spawned s) (s_out s) (s_err s) (s_exited s) (s_raised s) (s_poll s) (s_proc s) true
        x_init (s_mout s) (s_merr s) (s_gout s) (s_gerr s) (s_msgs s) (s_events s)
        (s_lout s) (s_lerr s).

Section Host.
  Context (native_le : bool).
  (** The names of the peer's environment (EventModel). *)
  Context (names : Z -> option string) (fields chans : string -> option kind).
  (** Whether [ingest] (telemetry.py:77-86) returns for an event, and whether
      [loads(message.decode())] (message/__init__.py:57) does for a message. *)
  Context (ingests : parsed -> bool) (parses : list Z -> bool).

  (** interface.py:234-235: the events ingested, and whether none raised. *)
  Fixpoint ingest_all (es : list parsed) : list parsed * bool :=
    match es with
    | [] => ([], true)
    | e :: es' =>
        if ingests e then let '(d, ok) := ingest_all es' in (e :: d, ok) else ([], false)
    end.

  (** interface.py:224-242 [handle_stderr]; false when it raised. *)
  Definition handle_err (data : chunk) (s : sub) : sub * bool :=
    let gerr := s_gerr s ++ [(s_known s, data)] in
    match data with
    | [] =>
        (mkSub (s_spawned s) (s_out s) (s_err s) (s_exited s) (s_raised s) (s_poll s)
               (s_proc s) (s_known s) (s_parser s) (s_mout s) (s_merr s) (s_gout s) gerr
               (s_msgs s) (s_events s) (s_lout s) (s_lerr s), true)
    | _ =>
        let merr := count_up (zlen data) (s_merr s) in
        if s_known s then
          let '(es, p, bad) := x_parse native_le names fields chans (s_parser s) data in
          let '(done, ok) := ingest_all es in
          (mkSub (s_spawned s) (s_out s) (s_err s) (s_exited s) (s_raised s) (s_poll s)
                 (s_proc s) (s_known s) p (s_mout s) merr (s_gout s) gerr (s_msgs s)
                 (s_events s ++ done) (s_lout s) (s_lerr s), ok && negb bad)
        else
          (mkSub (s_spawned s) (s_out s) (s_err s) (s_exited s) (s_raised s) (s_poll s)
                 (s_proc s) (s_known s) (s_parser s) (s_mout s) merr (s_gout s) gerr
                 (s_msgs s) (s_events s) (s_lout s) (s_lerr s), true)
    end.

  (** peer.py:245-249; [l] is the queue. *)
  Fixpoint drain_err (l : list chunk) (s : sub) : sub * bool :=
    match l with
    | [] => (s, true)
    | c :: l' =>
        let '(s', ok) := handle_err c (with_queues (s_out s) (Some l') s) in
        if ok then drain_err l' s' else (s', false)
    end.

  (** peer.py:57-64 and 239-254: the polling task wakes up, forwards stderr
      and enters the loop over stdout, or goes back to sleep, or ends. *)
  Definition sub_wake (s : sub) : sub :=
    match s_poll s with
    | PAsleep =>
        let '(s', ok) :=
          match s_err s with Some l => drain_err l s | None => (s, true) end in
        if ok then
          match s_out s', s_err s' with
          | Some _, _ => with_poll (PBusy []) s'
          | None, Some _ => s'
          | None, None => with_poll PEnded s'
          end
        else with_poll PFailed s'
    | _ => s
    end.

  (** peer.py:255-256 and interface.py:244-250: the next chunk of stdout; its
      messages are handed out one by one.  (The generator computes them one by
      one too; nothing else touches the processor, and after an exception it
      is not used again.) *)
  Definition sub_take (s : sub) : sub :=
    match s_poll s, s_out s with
    | PBusy [], Some [] => with_poll PAsleep s
    | PBusy [], Some (data :: rest) =>
        let gout := s_gout s ++ [data] in
        match data with
        | [] =>
            mkSub (s_spawned s) (Some rest) (s_err s) (s_exited s) (s_raised s) (s_poll s)
                  (s_proc s) (s_known s) (s_parser s) (s_mout s) (s_merr s) gout (s_gerr s)
                  (s_msgs s) (s_events s) (s_lout s) (s_lerr s)
        | _ =>
            let '(ms, p, _) := m_process native_le U32 Network (fun _ => true) (s_proc s) data in
            mkSub (s_spawned s) (Some rest) (s_err s) (s_exited s) (s_raised s) (PBusy ms)
                  p (s_known s) (s_parser s) (count_up (zlen data) (s_mout s)) (s_merr s) gout
                  (s_gerr s) (s_msgs s) (s_events s) (s_lout s) (s_lerr s)
        end
    | _, _ => s
    end.

  (** interface.py:250-251: the next message is parsed and processed; [ok] is
      false when [process_json] raised. *)
  Definition sub_msg (ok : bool) (s : sub) : sub :=
    match s_poll s with
    | PBusy (m :: ms) =>
        if parses m then
          mkSub (s_spawned s) (s_out s) (s_err s) (s_exited s) (s_raised s)
                (if ok then PBusy ms else PFailed) (s_proc s) (s_known s) (s_parser s)
                (s_mout s) (s_merr s) (s_gout s) (s_gerr s) (s_msgs s ++ [m]) (s_events s)
                (s_lout s) (s_lerr s)
        else with_poll PFailed s
    | _ => s
    end.

  (** peer.py:69-70, 86-88: the polling task is cancelled. *)
  Definition sub_cancel (s : sub) : sub :=
    match s_poll s with PFailed => s | _ => with_poll PEnded s end.

  (** What can happen to the host side of a subprocess. *)
  Inductive sop :=
  | OData (fd : Z) (data : chunk) | OLost (fd : Z) | OExit
  | OAttach (stdout stderr : bool) | OPeer
  | OWake | OTake | OMsg (ok : bool) | OCancel | OClose.

  Definition sub_step (s : sub) (o : sop) : sub :=
    match o with
    | OData fd data => sub_data fd data s
    | OLost fd => sub_lost fd s
    | OExit => sub_exit s
    | OAttach so se => sub_attach so se s
    | OPeer => sub_peer s
    | OWake => sub_wake s
    | OTake => sub_take s
    | OMsg ok => sub_msg ok s
    | OCancel => sub_cancel s
    | OClose => sub_close s
    end.
  Definition sub_run (s : sub) (ops : list sop) : sub := fold_left sub_step ops s.

  (** ** The program's side: program.py:90-122 [io_task]. *)

  (** Processor, accumulator, stdin metrics, messages given to [process_json],
      [got_eof], whether the task has ended. *)
  Record prog := mkProg {
    g_proc : mproc; g_acc : Z; g_stdin : counts; g_msgs : list (list Z);
    g_eof : bool; g_over : bool
  }.
  Definition prog_init : prog := mkProg m_init 0 (mkCounts 0 0) [] false false.

  (** Whether a message is processed without an exception ([loads] and
      [process_json]). *)
  Context (works : list Z -> bool).

  (** 113-115: the messages processed, and whether none raised. *)
  Fixpoint io_messages (ms : list (list Z)) : list (list Z) * bool :=
    match ms with
    | [] => ([], true)
    | m :: ms' =>
        if works m then let '(d, ok) := io_messages ms' in (m :: d, ok) else ([], false)
    end.

  (** What [buffer.read(1)] gives: a byte, None (nothing there yet), or the
      end of the input; or the task is cancelled. *)
  Inductive iop := IByte (b : Z) | INone | IEnd | ICancel.

  (** 100-122, one turn. *)
  Definition io_step (g : prog) (o : iop) : prog :=
    if g_over g then g else
    match o with
    | INone => g
    | IEnd | ICancel => mkProg (g_proc g) (g_acc g) (g_stdin g) (g_msgs g) true true
    | IByte b =>
        let acc := g_acc g + 1 in
        let '(ms, p, _) := m_process native_le U32 Network (fun _ => true) (g_proc g) [b] in
        let '(done, ok) := io_messages ms in
        if ok then
          match done with
          | [] => mkProg p acc (g_stdin g) (g_msgs g) (g_eof g) false
          | _ => mkProg p 0 (count_up acc (g_stdin g)) (g_msgs g ++ done) (g_eof g) false
          end
        else mkProg p acc (g_stdin g) (g_msgs g ++ done) (g_eof g) true
    end.
  Definition io_run (g : prog) (ops : list iop) : prog := fold_left io_step ops g.
End Host.
