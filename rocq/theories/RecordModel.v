(** Model of recording channel changes to files and reading them back:
    runtimepy/channel/environment/command/__init__.py 43-253 (GlobalEnvironment),
    channel/registry.py 140-167 and channel/event/__init__.py 41-65, on top of the
    event model.

    Simplifications.  Primitives, channels and open files are numbered; numbers
    not in use are never touched.  Environment names are plain directory names,
    so every environment has its own directory, and an environment directory is
    what was last exported to it plus the event stream in it (that exporting and
    loading keep names, identifiers and types is C78 and C79).  Environments do
    not change while they are recorded: exporting finalizes them.  Only one
    recording is active at a time; the text log is left out. *)
From Verif Require Import Base PrimModel FifoModel EventModel.
Open Scope list_scope.
Open Scope Z_scope.

Definition upd {A} (f : nat -> A) (n : nat) (a : A) : nat -> A := fun m => if Nat.eqb m n then a else f m.

(** A primitive and its callbacks, in the order they were registered: each
    belongs to a channel's event and writes to a file. *)
Record rprim := mkRprim { p_w : watched; p_cbs : list (nat * nat) }.
(** A channel: its primitive and its event. *)
Record rchan := mkRchan { ch_prim : nat; ch_ev : event }.
(** An open file: the directory, what was written, whether it is open. *)
Record handle := mkHandle { h_name : string; h_data : list Z; h_open : bool }.
(** What of an environment matters here: identifiers of names, the types of the
    registers behind bit fields, the channels. *)
Record renv := mkRenv { re_names : list (string * Z); re_fields : list (string * kind); re_chans : list (string * nat) }.

Record gst := mkGst {
  g_prim : nat -> rprim;
  g_chan : nat -> rchan;
  g_envs : list (string * renv);              (* 225-240: name to environment *)
  g_handle : nat -> handle;
  g_next : nat;                               (* the next file *)
  g_exports : list (string * renv);           (* what is in each directory *)
  g_streams : list (string * nat);            (* the file that is the event stream of a directory *)
  g_meta : option (list (string * list string)); (* meta.json: event_telemetry *)
  g_entered : list (nat * nat)                (* events registered by the recording *)
}.
Definition s_prim st f := mkGst f (g_chan st) (g_envs st) (g_handle st) (g_next st) (g_exports st) (g_streams st) (g_meta st) (g_entered st).
Definition s_chan st f := mkGst (g_prim st) f (g_envs st) (g_handle st) (g_next st) (g_exports st) (g_streams st) (g_meta st) (g_entered st).
Definition s_handle st f := mkGst (g_prim st) (g_chan st) (g_envs st) f (g_next st) (g_exports st) (g_streams st) (g_meta st) (g_entered st).
Definition s_entered st l := mkGst (g_prim st) (g_chan st) (g_envs st) (g_handle st) (g_next st) (g_exports st) (g_streams st) (g_meta st) l.
Definition s_meta st m := mkGst (g_prim st) (g_chan st) (g_envs st) (g_handle st) (g_next st) (g_exports st) (g_streams st) m (g_entered st).

Section Record.
  Context (native_le : bool).

  Definition set_ev (st : gst) (c : nat) (e : event) : gst :=
    s_chan st (upd (g_chan st) c (mkRchan (ch_prim (g_chan st c)) e)).
  Definition set_streaming (e : event) (b : bool) : event := mkEvent (ev_id e) (ev_prev e) (ev_min e) b.

  (** event/__init__.py:70-102 [_poll] with a file; true when writing raises
      (ValueError when the file is closed). *)
  Definition poll_to (st : gst) (c h : nat) (w : watched) : gst * bool :=
    match ev_poll native_le (ch_ev (g_chan st c)) w false with
    | None => (st, true)
    | Some (e', bs) =>
        let st' := set_ev st c e' in
        match bs with
        | [] => (st', false)
        | _ =>
            let f := g_handle st' h in
            if h_open f
            then (s_handle st' (upd (g_handle st') h (mkHandle (h_name f) (h_data f ++ bs) true)), false)
            else (st', true)
        end
    end.

  (** primitives/base.py:140-154 [_check_callbacks]: the callbacks in order; an
      exception ends the loop. *)
  Fixpoint fire (st : gst) (w : watched) (cbs : list (nat * nat)) : gst * bool :=
    match cbs with
    | [] => (st, false)
    | (c, h) :: r =>
        match poll_to st c h w with
        | (st', true) => (st', true)
        | (st', false) => fire st' w r
        end
    end.

  (** primitives/base.py:156-166 [set_value]. *)
  Definition assign (st : gst) (p : nat) (v ts : Z) : gst * bool :=
    let x := g_prim st p in
    let w := mkWatched (w_kind (p_w x)) (k_store (w_kind (p_w x)) v) ts in
    let st' := s_prim st (upd (g_prim st) p (mkRprim w (p_cbs x))) in
    if w_val (p_w x) =? v then (st', false) else fire st' w (p_cbs x).

  (** event/__init__.py:41-65 [registered], entering; true when it raises. *)
  Definition enter_event (st : gst) (c h : nat) : gst * bool :=
    let e := ch_ev (g_chan st c) in
    if ev_streaming e then (st, true)
    else
      let st1 := set_ev st c (mkEvent (ev_id e) 0 (ev_min e) false) in
      let p := ch_prim (g_chan st c) in
      match poll_to st1 c h (p_w (g_prim st p)) with
      | (st2, true) => (st2, true)
      | (st2, false) =>
          let x := g_prim st2 p in
          let st3 := s_prim st2 (upd (g_prim st2) p (mkRprim (p_w x) (p_cbs x ++ [(c, h)]))) in
          (s_entered (set_ev st3 c (set_streaming (ch_ev (g_chan st3 c)) true)) (g_entered st3 ++ [(c, h)]), false)
      end.
  (** 63-65: leaving normally. *)
  Definition same_cb (a b : nat * nat) : bool := Nat.eqb (fst a) (fst b) && Nat.eqb (snd a) (snd b).
  Definition exit_event (st : gst) (ch : nat * nat) : gst :=
    let c := fst ch in
    let p := ch_prim (g_chan st c) in
    let x := g_prim st p in
    let st1 := s_prim st (upd (g_prim st) p (mkRprim (p_w x) (filter (fun y => negb (same_cb y ch)) (p_cbs x)))) in
    set_ev st1 c (set_streaming (ch_ev (g_chan st1 c)) false).

  (** channel/registry.py:140-167 [registered], entering. *)
  Fixpoint enter_chans (st : gst) (h : nat) (sel : string -> bool) (l : list (string * nat)) : gst * option (list string) :=
    match l with
    | [] => (st, Some [])
    | (n, c) :: r =>
        if sel n
        then
          match enter_event st c h with
          | (st', true) => (st', None)
          | (st', false) =>
              match enter_chans st' h sel r with
              | (st'', Some ns) => (st'', Some (n :: ns))
              | (st'', None) => (st'', None)
              end
          end
        else enter_chans st h sel r
    end.

  Section Start.
    (** Whether exporting an environment returns. *)
    Context (export_ok : string -> bool).
    (** command/__init__.py:96-111 [file_event_stream], entering. *)
    Definition open_stream (st : gst) (name : string) (e : renv) : gst :=
      mkGst (g_prim st) (g_chan st) (g_envs st) (upd (g_handle st) (g_next st) (mkHandle name [] true)) (S (g_next st))
        (dset name e (g_exports st)) (dset name (g_next st) (g_streams st)) (g_meta st) (g_entered st).
    (** 168-219 [event_telemetry_output], entering: the environments and
        channels, None when it raises. *)
    Fixpoint start_envs (st : gst) (sele selc : string -> bool) (l : list (string * renv))
      : gst * option (list (string * list string)) :=
      match l with
      | [] => (st, Some [])
      | (name, e) :: r =>
          if sele name
          then
            if export_ok name
            then
              match enter_chans (open_stream st name e) (g_next st) selc (re_chans e) with
              | (st', None) => (st', None)
              | (st', Some ns) =>
                  match start_envs st' sele selc r with
                  | (st'', Some l') => (st'', Some ((name, ns) :: l'))
                  | (st'', None) => (st'', None)
                  end
              end
            else (st, None)
          else start_envs st sele selc r
      end.

    (** Files opened since [base] are closed. *)
    Definition close_from (base : nat) (st : gst) : gst :=
      s_handle st (fun n => if Nat.ltb n base then g_handle st n
                            else mkHandle (h_name (g_handle st n)) (h_data (g_handle st n)) false).

    Definition start (st : gst) (sele selc : string -> bool) : gst * option (list (string * list string)) :=
      match start_envs (s_entered st []) sele selc (g_envs st) with
      | (st', Some l) => (st', Some l)
      | (st', None) => (close_from (g_next st) st', None)   (* the events stay registered *)
      end.
  End Start.

  (** 213-219, leaving: [found] is what entering returned, [base] the first file
      of the recording.  When the body raised, the generators of
      event/__init__.py:41-65 are ended by the exception at their yield: nothing
      is removed, and no metadata is written. *)
  Definition stop (st : gst) (base : nat) (found : list (string * list string)) (raised : bool) : gst :=
    if raised then close_from base st
    else s_meta (close_from base (fold_left exit_event (rev (g_entered st)) st)) (Some found).

  Definition op := (nat * Z * Z)%type.   (* primitive, value, time *)
  (** Assignments, each of which may raise. *)
  Fixpoint assigns (st : gst) (ops : list op) : gst * list bool :=
    match ops with
    | [] => (st, [])
    | (p, v, ts) :: r =>
        let '(st1, b) := assign st p v ts in
        let '(st2, bs) := assigns st1 r in (st2, b :: bs)
    end.

  (** 60-88 [from_root]: the environments listed in the metadata, None when
      there is no metadata or a directory is missing. *)
  Fixpoint load_all (ex : list (string * renv)) (l : list (string * list string)) : option (list (string * renv)) :=
    match l with
    | [] => Some []
    | (name, _) :: r =>
        match dget name ex, load_all ex r with
        | Some e, Some l' => Some ((name, e) :: l')
        | _, _ => None
        end
    end.
  Definition from_root (st : gst) : option (list (string * renv)) :=
    match g_meta st with
    | None => None
    | Some l => load_all (g_exports st) l
    end.

  (** registry/name.py: the name of an identifier. *)
  Definition name_of (e : renv) (i : Z) : option string :=
    match find (fun nv => snd nv =? i) (re_names e) with Some (n, _) => Some n | None => None end.
  Definition kind_of (st : gst) (e : renv) (n : string) : option kind :=
    match dget n (re_chans e) with Some c => Some (w_kind (p_w (g_prim st (ch_prim (g_chan st c))))) | None => None end.
  Definition field_of (e : renv) (n : string) : option kind := dget n (re_fields e).
  (** 113-119 [read_event_stream] by a fresh environment. *)
  Definition read_bytes (st : gst) (e : renv) (bs : list Z) : list parsed :=
    fst (x_feed native_le (name_of e) (field_of e) (kind_of st e) x_init [bs]).
  Definition file_of (st : gst) (name : string) : option (list Z) :=
    match dget name (g_streams st) with Some h => Some (h_data (g_handle st h)) | None => None end.
  Definition read_stream (st : gst) (name : string) (e : renv) : option (list parsed) :=
    match file_of st name with Some bs => Some (read_bytes st e bs) | None => None end.
End Record.
