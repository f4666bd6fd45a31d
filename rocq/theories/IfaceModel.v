(** Model of the JSON messaging interface: runtimepy/message/interface.py,
    runtimepy/message/handlers.py and the identifiers of runtimepy/util.py.

    Simplifications.  Message bytes are modelled in MessageModel; here a message
    is the decoded JSON object and encoding followed by decoding is the identity.
    Handlers are atomic state transformers (none of the standard ones awaits
    anything that suspends).  Handlers do not send messages themselves. *)
From Coq Require Import QArith.
From Verif Require Import Base.
Open Scope string_scope.
Open Scope list_scope.
Open Scope Z_scope.

(** ** util.py:34-46 [Identifier] *)
Record ident := mkIdent { id_cur : Z; id_scale : Z }.
(** util.py:37-40. *)
Definition id_new : ident := mkIdent 1 2.
(** subprocess/peer.py:48-49: a host offsets its identifiers. *)
Definition id_offset (i : ident) : ident := mkIdent (id_cur i + 1) (id_scale i).
(** util.py:42-46 [__call__]. *)
Definition id_next (i : ident) : ident * Z := (mkIdent (id_cur i + id_scale i) (id_scale i), id_cur i).

(** ** JSON *)
Inductive json :=
| JNull | JBool (b : bool) | JInt (z : Z) | JFlo (q : Q) | JStr (s : string)
| JArr (l : list json) | JObj (o : list (string * json)).
(** message/__init__.py:18 [JsonMessage]. *)
Definition msg := list (string * json).

(** How a JSON value behaves as the key of a dictionary with integer keys:
    [None] unhashable (TypeError), [Some None] equal to no integer. *)
Definition ident_of (j : json) : option (option Z) :=
  match j with
  | JInt z => Some (Some z)
  | JBool b => Some (Some (if b then 1 else 0))
  | JFlo q => Some (if Qeq_bool q (inject_Z (Qnum q / QDen q)) then Some (Qnum q / QDen q) else None)
  | JNull | JStr _ => Some None
  | JArr _ | JObj _ => None
  end.

(** message/types.py:20. *)
Definition k_ignored := "keys_ignored".
Definition k_id := "__id__".
Definition k_log := "__log_messages__".
Definition reserved (k : string) : bool :=
  if eq_dec k k_ignored then true else if eq_dec k k_id then true
  else if eq_dec k k_log then true else false.

(** Python [sorted] on strings. *)
Fixpoint insert_str (s : string) (l : list string) : list string :=
  match l with
  | [] => [s]
  | x :: r => if String.leb s x then s :: l else x :: insert_str s r
  end.
Definition sort_str (l : list string) : list string := fold_right insert_str [] l.

(** interface.py:203-211 [handle_log_message]: whether a log entry is handled
    without raising.  Simplified: an entry that is not an object, a message
    that is not a string, a level that is not an integer and arguments that are
    not an array count as raising. *)
Definition log_ok (j : json) : bool :=
  match j with
  | JObj o =>
      match dget "msg" o with None | Some (JStr _) => true | _ => false end &&
      match dget "level" o with None | Some (JInt _) => true | _ => false end &&
      match dget "args" o with None | Some (JArr _) => true | _ => false end
  | _ => false
  end.
(** interface.py:236-238: the entries of a message, None when iterating or
    handling raises.  Simplified: only arrays are iterated. *)
Definition logs_of (j : json) : option (list json) :=
  match j with
  | JArr l => if forallb log_ok l then Some l else None
  | _ => None
  end.

Section Iface.
  (** The state handlers act on. *)
  Context {S : Type}.

  (** A registered handler (interface.py:130-142): the key its answer is stored
      under, building its input from the message value (348-360: substitution
      data updated with the value, then schema validation; None when that
      raises) and running it (None when it raises). *)
  Record target := mkTarget {
    t_key : string; t_prep : json -> option msg; t_run : S -> msg -> S * option msg
  }.

  (** interface.py:342 [targets.evaluate]. *)
  Context (evaluate : string -> option target).

  (** The life of one [wait_json] call: waiting for its event, event set,
      returned a message, timed out, failed to send. *)
  Inductive rstatus := Waiting | Ready | Done (m : msg) | TimedOut | Failed.
  Record request := mkReq { rq_id : Z; rq_st : rstatus }.

  Record iface := mkIface {
    i_ident : ident;                    (* curr_id *)
    i_waiting : list (Z * nat);         (* ids_waiting: the event of call number n *)
    i_resp : list (Z * msg);            (* id_responses *)
    i_logs : list json;                 (* _log_messages *)
    i_seen : list json;                 (* remote log entries logged locally *)
    i_reqs : list request               (* every wait_json call, oldest first *)
  }.

  (** interface.py:56-86. *)
  Definition i_new (i : ident) : iface := mkIface i [] [] [] [] [].

  Fixpoint set_nth {A} (l : list A) (n : nat) (x : A) : list A :=
    match l, n with
    | [], _ => []
    | _ :: r, O => x :: r
    | y :: r, Datatypes.S n' => y :: set_nth r n' x
    end.
  Definition set_status (st : iface) (r : nat) (s : rstatus) : iface :=
    match nth_error (i_reqs st) r with
    | Some q => mkIface (i_ident st) (i_waiting st) (i_resp st) (i_logs st) (i_seen st)
                  (set_nth (i_reqs st) r (mkReq (rq_id q) s))
    | None => st
    end.
  (** [event.set()]: only a call that still waits notices. *)
  Definition set_event (st : iface) (r : nat) : iface :=
    match nth_error (i_reqs st) r with
    | Some (mkReq _ Waiting) => set_status st r Ready
    | _ => st
    end.

  Definition with_logs (st : iface) (l : list json) : iface :=
    mkIface (i_ident st) (i_waiting st) (i_resp st) l (i_seen st) (i_reqs st).

  (** interface.py:178-201 [send_json] up to the write: the message that goes
      out, None when the assertion of line 195 fails. *)
  Definition send_json (st : iface) (d : msg) : iface * option msg :=
    match i_logs st with
    | [] => (st, Some d)
    | l => if dmem k_log d then (st, None) else (with_logs st [], Some (dset k_log (JArr l) d))
    end.

  (** interface.py:243-267 [wait_json] up to the await.  [fail] when writing
      raises (for example the transport is closed). *)
  Definition wait_json (st : iface) (d : msg) (fail : bool) : iface * list msg * bool :=
    if dmem k_id d then (st, [], false)
    else
      let '(i, id) := id_next (i_ident st) in
      let st := mkIface i (i_waiting st) (i_resp st) (i_logs st) (i_seen st) (i_reqs st) in
      if dmem id (i_waiting st) then (st, [], false)
      else
        let r := List.length (i_reqs st) in
        let st := mkIface (i_ident st) (dset id r (i_waiting st)) (i_resp st) (i_logs st) (i_seen st)
                    (i_reqs st ++ [mkReq id Waiting]) in
        match send_json st (dset k_id (JInt id) d) with
        | (st, None) => (set_status st r Failed, [], false)
        | (st, Some out) => if fail then (set_status st r Failed, [], false) else (st, [out], true)
        end.

  (** interface.py:269-277: a woken call takes its response. *)
  Definition wake (st : iface) (r : nat) : iface :=
    match nth_error (i_reqs st) r with
    | Some (mkReq id Ready) =>
        match dget id (i_resp st) with
        | Some m =>
            set_status (mkIface (i_ident st) (i_waiting st) (ddel id (i_resp st)) (i_logs st) (i_seen st)
                          (i_reqs st)) r (Done m)
        | None => set_status st r Failed
        end
    | _ => st
    end.
  (** interface.py:269-271, handlers.py:68-78: the wait times out.  This may
      happen although the event has just been set: the task resumes with the
      cancellation. *)
  Definition time_out (st : iface) (r : nat) : iface :=
    match nth_error (i_reqs st) r with
    | Some (mkReq _ Waiting) | Some (mkReq _ Ready) => set_status st r TimedOut
    | _ => st
    end.

  (** interface.py:339-366: the handlers to run, the keys of the answer, and
      the ignored keys. *)
  Fixpoint collect (d : msg) : option (list (string * option (target * msg)) * list string) :=
    match d with
    | [] => Some ([], [])
    | (k, j) :: r =>
        match evaluate k with
        | Some t =>
            match t_prep t j, collect r with
            | Some ib, Some (ts, ig) => Some ((t_key t, Some (t, ib)) :: ts, ig)
            | _, _ => None
            end
        | None =>
            match collect r with
            | Some (ts, ig) => if reserved k then Some ((k, None) :: ts, ig) else Some (ts, k :: ig)
            | None => None
            end
        end
    end.

  (** interface.py:368-370: every handler runs; the call raises if one did. *)
  Fixpoint gather (s : S) (ts : list (string * option (target * msg)))
    : S * option (list (string * msg)) :=
    match ts with
    | [] => (s, Some [])
    | (k, None) :: r =>
        let '(s', o) := gather s r in
        (s', match o with Some l => Some ((k, []) :: l) | None => None end)
    | (k, Some (t, ib)) :: r =>
        let '(s1, out) := t_run t s ib in
        let '(s', o) := gather s1 r in
        (s', match out, o with Some b, Some l => Some ((k, b) :: l) | _, _ => None end)
    end.

  (** interface.py:366, 372-379: the answer before the reserved keys. *)
  Definition answer (subs : list (string * msg)) (ignored : list string) : msg :=
    let subs := fold_left (fun d kb => dset (fst kb) (snd kb) d) subs [] in
    let r := fold_left (fun d (kb : string * msg) =>
                          match snd kb with [] => d | _ => dset (fst kb) (JObj (snd kb)) d end) subs [] in
    match ignored with
    | [] => r
    | _ => dset k_ignored (JArr (map JStr (sort_str ignored))) r
    end.

  (** interface.py:213-241 [_handle_reserved]: the new state, the answer and
      whether to send it; None when it raises. *)
  Definition handle_reserved (st : iface) (d resp : msg) : iface * option (msg * bool) :=
    let '(st, d, resp, should, bad) :=
      match dget k_id d with
      | None => (st, d, resp, true, false)
      | Some j =>
          match ident_of j with
          | None => (st, d, resp, true, true)
          | Some i =>
              match match i with Some z => match dget z (i_waiting st) with Some r => Some (z, r) | None => None end
                           | None => None end with
              | Some (z, r) =>
                  (* 223-231 *)
                  let d := ddel k_id d in
                  let st := mkIface (i_ident st) (ddel z (i_waiting st)) (dset z d (i_resp st)) (i_logs st)
                              (i_seen st) (i_reqs st) in
                  (set_event st r, d, dset k_id j resp, false, false)
              | None => (st, d, dset k_id j resp, true, false)
              end
          end
      end in
    if (bad : bool) then (st, None)
    else
      match dget k_log d with
      | None => (st, Some (resp, should))
      | Some j =>
          match logs_of j with
          | None => (st, None)
          | Some l =>
              (* 239: the stored response is the same object *)
              let d' := ddel k_log d in
              let rs := if (should : bool) then i_resp st
                        else match dget k_id resp with
                             | Some jj => match ident_of jj with Some (Some z) => dset z d' (i_resp st) | _ => i_resp st end
                             | None => i_resp st
                             end in
              (mkIface (i_ident st) (i_waiting st) rs (i_logs st) (i_seen st ++ l) (i_reqs st),
               Some (resp, should))
          end
      end.

  (** interface.py:326-387 [process_json]. *)
  Definition process_json (s : S) (st : iface) (d : msg) : S * iface * list msg * bool :=
    match collect d with
    | None => (s, st, [], false)
    | Some (ts, ignored) =>
        match gather s ts with
        | (s', None) => (s', st, [], false)
        | (s', Some subs) =>
            match handle_reserved st d (answer subs ignored) with
            | (st', None) => (s', st', [], false)
            | (st', Some (resp, should)) =>
                match should, resp with
                | true, _ :: _ =>
                    match send_json st' resp with
                    | (st'', Some out) => (s', st'', [out], true)
                    | (st'', None) => (s', st'', [], false)
                    end
                | _, _ => (s', st', [], true)
                end
            end
        end
    end.

  (** Everything that can happen to an interface; each step yields the messages
      it sends and whether it returned normally. *)
  Inductive op :=
  | OLog (x : json)                 (* interface.py:165-173 *)
  | OSend (d : msg) (fail : bool)   (* interface.py:178-201 *)
  | OWait (d : msg) (fail : bool)
  | ORecv (d : msg)
  | OWake (r : nat)
  | OTimeout (r : nat).

  Definition step (x : S * iface) (o : op) : (S * iface) * list msg * bool :=
    let '(s, st) := x in
    match o with
    | OLog l => ((s, with_logs st (i_logs st ++ [l])), [], true)
    | OSend d fail =>
        match send_json st d with
        | (st', Some out) => if fail then ((s, st'), [], false) else ((s, st'), [out], true)
        | (st', None) => ((s, st'), [], false)
        end
    | OWait d fail => let '(st', out, ok) := wait_json st d fail in ((s, st'), out, ok)
    | ORecv d => let '(s', st', out, ok) := process_json s st d in ((s', st'), out, ok)
    | OWake r => ((s, wake st r), [], true)
    | OTimeout r => ((s, time_out st r), [], true)
    end.

  Definition step_st (x : S * iface) (o : op) : S * iface := fst (fst (step x o)).
  Definition run (x : S * iface) (ops : list op) : S * iface := fold_left step_st ops x.
End Iface.
Arguments target : clear implicits.
Arguments mkTarget {S}.

(** ** Standard handlers *)

(** handlers.py:62-65 [loopback_handler] (interface.py:79). *)
Definition h_loopback {S} : target S :=
  mkTarget "loopback" (fun j => match j with JObj o => Some o | _ => None end) (fun s ib => (s, Some ib)).

(** interface.py:118-128 [_poll_handler] with a poll_handler that has no
    effect on messages.  A loopback value that is not a number raises. *)
Definition h_poll {S} : target S :=
  mkTarget "poll" (fun j => match j with JObj o => Some o | _ => None end)
    (fun s ib =>
       (s, match dget "loopback" ib with
           | None => Some []
           | Some (JInt v) => if v >? 0 then Some [("loopback", JInt (v - 1))] else Some []
           | Some (JBool true) => Some [("loopback", JInt 0)]
           | Some (JBool false) => Some []
           | Some (JFlo q) => if Qle_bool q 0 then Some [] else Some [("loopback", JFlo (q - 1))]
           | Some _ => None
           end)).

(** interface.py:144-163 [_meta_handler]; the state is [remote_meta].  Logging
    the peer's metadata raises when one of the keys is missing. *)
Definition h_meta (meta : msg) : target (option msg) :=
  mkTarget "meta" (fun j => match j with JObj o => Some o | _ => None end)
    (fun s ib =>
       match s with
       | Some _ => (s, Some [])
       | None =>
           (Some ib,
            if dmem "package" ib && dmem "version" ib && dmem "kind" ib && dmem "handlers" ib
            then Some meta else None)
       end).

(** interface.py:78-80, 100. *)
Definition std_eval (meta : msg) (k : string) : option (target (option msg)) :=
  if eq_dec k "loopback" then Some h_loopback
  else if eq_dec k "meta" then Some (h_meta meta)
  else if eq_dec k "poll" then Some h_poll
  else None.
