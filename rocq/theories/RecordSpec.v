(** Specification vocabulary for C84: what a recording should contain. *)
From Verif Require Import Base PrimModel PrimSpec EventModel EventSpec RecordModel.
Open Scope list_scope.
Open Scope Z_scope.

(** A recorded channel: environment, name, number. *)
Definition who := (string * string * nat)%type.
Definition recorded (sele selc : string -> bool) (envs : list (string * renv)) : list who :=
  flat_map (fun ne => if sele (fst ne)
                      then map (fun nc => (fst ne, fst nc, snd nc)) (filter (fun nc => selc (fst nc)) (re_chans (snd ne)))
                      else []) envs.

Section Told.
  (** The primitive behind a channel, the least time between its events, and the
      type of a primitive. *)
  Context (prim_of : nat -> nat) (least : nat -> Z) (type_of : nat -> kind).

  (** Initially: every recorded channel tells its value. *)
  Definition told_first (l : list who) (V T : nat -> Z) : list (string * parsed) :=
    map (fun w => let '(e, n, c) := w in (e, mkParsed n (T (prim_of c)) (V (prim_of c))))
      (filter (fun w => least (snd w) <=? T (prim_of (snd w))) l).
  Definition last_first (T : nat -> Z) (c : nat) : Z := if least c <=? T (prim_of c) then T (prim_of c) else 0.

  (** Then: an assignment that changes the value is told by each recorded
      channel of the primitive unless too little time has passed since the
      channel's last event. *)
  Definition due (l : list who) (L : nat -> Z) (p : nat) (ts : Z) : list who :=
    filter (fun w => Nat.eqb (prim_of (snd w)) p && (least (snd w) <=? ts - L (snd w))) l.
  Fixpoint told (l : list who) (V L : nat -> Z) (ops : list op) : list (string * parsed) :=
    match ops with
    | [] => []
    | (p, v, ts) :: r =>
        let v' := k_store (type_of p) v in
        if V p =? v then told l (upd V p v') L r
        else
          map (fun w => let '(e, n, _) := w in (e, mkParsed n ts v')) (due l L p ts) ++
          told l (upd V p v') (fun c => if existsb (fun w => Nat.eqb (snd w) c) (due l L p ts) then ts else L c) r
    end.
End Told.

(** The events of one environment. *)
Definition of_env (e : string) (l : list (string * parsed)) : list parsed :=
  map snd (filter (fun x => String.eqb (fst x) e) l).

(** Nothing is being recorded. *)
Definition idle (st : gst) : Prop :=
  (forall p, p_cbs (g_prim st p) = []) /\ (forall c, ev_streaming (ch_ev (g_chan st c)) = false).

(** The registries are in order: environment names are distinct, channel names
    are distinct and not those of bit fields, identifiers are
    distinct and fit, files are numbered in order, values and times are in range. *)
Definition in_order (st : gst) : Prop :=
  NoDup (dkeys (g_envs st)) /\
  (forall name h, dget name (g_streams st) = Some h -> (h < g_next st)%nat) /\
  (forall p, let w := p_w (g_prim st p) in k_value (w_kind w) (w_val w) /\ 0 <= w_ts w < 2 ^ 64) /\
  (forall name e, In (name, e) (g_envs st) ->
     NoDup (dkeys (re_chans e)) /\ NoDup (map snd (re_names e)) /\
     forall n c, In (n, c) (re_chans e) ->
       dget n (re_fields e) = None /\ In (n, ev_id (ch_ev (g_chan st c))) (re_names e) /\
       0 <= ev_id (ch_ev (g_chan st c)) < 2 ^ 16).
Definition times_ok (ops : list op) : Prop := forall p v ts, In (p, v, ts) ops -> 0 <= ts < 2 ^ 64.

(** Everything a recording of [st] should tell during [ops]. *)
Definition told_all (st : gst) (sele selc : string -> bool) (ops : list op) : list (string * parsed) :=
  let prim_of := fun c => ch_prim (g_chan st c) in
  let least := fun c => ev_min (ch_ev (g_chan st c)) in
  let type_of := fun p => w_kind (p_w (g_prim st p)) in
  let V := fun p => w_val (p_w (g_prim st p)) in
  let T := fun p => w_ts (p_w (g_prim st p)) in
  let l := recorded sele selc (g_envs st) in
  told_first prim_of least l V T ++ told prim_of least type_of l V (last_first prim_of least T) ops.

(** The events completely contained in the first [n] bytes, ten of header and
    the size of the channel's type each. *)
Fixpoint whole (size : string -> Z) (n : Z) (l : list parsed) : list parsed :=
  match l with
  | [] => []
  | x :: r => let len := 10 + size (g_name x) in if len <=? n then x :: whole size (n - len) r else []
  end.
Definition size_of (st : gst) (e : renv) (n : string) : Z :=
  match dget n (re_chans e) with
  | Some c => Z.of_nat (wire_size (w_kind (p_w (g_prim st (ch_prim (g_chan st c))))))
  | None => 0
  end.
