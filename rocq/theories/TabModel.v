(** Model of how the web interface's tabs observe channels: runtimepy/net/server/
    app/env/tab/message.py, net/server/websocket/state.py and the connection that
    owns the tab states, net/server/websocket/__init__.py.

    Simplifications: channel values are integers or booleans (no NaN) and what the
    interface is shown of a name is some function [view] of the value of the
    primitive behind it (scaling, enumeration, extraction of a bit field), which
    does not raise.  Names and primitives are fixed (the environments are
    finalized).  A connection handles nothing after it was closed. *)
From Verif Require Import Base PrimModel.

(** A primitive as in primitives/base.py:60-67; each registered callback is known
    by the connection, the tab and the name it reports to. *)
Record tprim := mkTprim {
  tp_kind : kind;
  tp_raw : Z;
  tp_next : Z;                               (** [curr_callback] *)
  tp_cbs : list (Z * (nat * nat * Z));       (** [callbacks] *)
  tp_ts : Z                                  (** [last_updated_ns] *)
}.

(** state.py:22-35 [TabState]; [ts_logger] says whether the tab's only logger is in
    [_loggers].  The lines in [tab_logger] are not modelled. *)
Record tabst := mkTabst {
  ts_shown : bool;
  ts_points : list (Z * list (Z * Z));
  ts_prims : list (Z * nat);
  ts_cbs : list (Z * Z);
  ts_latest : list (Z * Z);
  ts_logger : bool
}.

(** state.py:87-93 [create]. *)
Definition ts_create : tabst := mkTabst false [] [] [] [] false.

(** What is sent to the interface. *)
Inductive tmsg :=
| MValues (d : list (Z * Z))                 (** message.py:66 [send(to_send)] *)
| MPoints (d : list (Z * list (Z * Z))).     (** state.py:51 ["points"] *)

(** [w_tabs c t] is [tabs[t]] of connection [c] (websocket/__init__.py:132, a
    default dictionary); [w_handlers t] the connections whose handler is attached to
    the logger of tab [t]. *)
Record world := mkWorld {
  w_prims : nat -> tprim;
  w_tabs : nat -> nat -> tabst;
  w_open : nat -> bool;
  w_handlers : nat -> list nat
}.

Definition set_prim (p : nat) (x : tprim) (w : world) : world :=
  mkWorld (fun q => if Nat.eqb q p then x else w_prims w q) (w_tabs w) (w_open w) (w_handlers w).
Definition set_tab (c t : nat) (x : tabst) (w : world) : world :=
  mkWorld (w_prims w) (fun c' t' => if Nat.eqb c' c && Nat.eqb t' t then x else w_tabs w c' t')
    (w_open w) (w_handlers w).

(** base.py:102-110 [register_callback]. *)
Definition register (p : nat) (o : nat * nat * Z) (w : world) : world * Z :=
  let x := w_prims w p in
  (set_prim p (mkTprim (tp_kind x) (tp_raw x) (tp_next x + 1) (dset (tp_next x) o (tp_cbs x)) (tp_ts x)) w,
   tp_next x).

(** base.py:112-118 [remove_callback]. *)
Definition unregister (p : nat) (i : Z) (w : world) : world :=
  let x := w_prims w p in
  if dmem i (tp_cbs x)
  then set_prim p (mkTprim (tp_kind x) (tp_raw x) (tp_next x) (ddel i (tp_cbs x)) (tp_ts x)) w
  else w.

(** [d[k].append(v)] of a defaultdict(list). *)
Definition dappend (k : Z) (v : Z * Z) (d : list (Z * list (Z * Z))) : list (Z * list (Z * Z)) :=
  dset k (match dget k d with Some l => l ++ [v] | None => [v] end) d.

Section Tabs.
(** The tabs ([ChannelEnvironmentTab.all_tabs]); for each, the names of its
    environment and the primitive behind each name (fields of one bit-field set
    share one). *)
Context (ntabs : nat) (names : nat -> list (Z * nat)) (view : nat -> Z -> Z -> Z).

(** message.py:21-38 [_setup_callback]. *)
Definition setup (c t : nat) (np : Z * nat) (w : world) : world :=
  let '(n, p) := np in
  let s := w_tabs w c t in
  let w1 := set_tab c t (mkTabst (ts_shown s) (ts_points s) (dset n p (ts_prims s)) (ts_cbs s) (ts_latest s) (ts_logger s)) w in
  let '(w2, i) := register p (c, t, n) w1 in
  let s2 := w_tabs w2 c t in
  set_tab c t (mkTabst (ts_shown s2) (ts_points s2) (ts_prims s2) (dset n i (ts_cbs s2)) (ts_latest s2) (ts_logger s2)) w2.

(** channel/environment/base.py:174-187 [values]. *)
Definition values (t : nat) (w : world) : list (Z * Z) :=
  map (fun np => (fst np, view t (fst np) (tp_raw (w_prims w (snd np))))) (names t).

(** state.py:56-66 [clear_telemetry]. *)
Definition clear_telemetry (c t : nat) (w : world) : world :=
  let s := w_tabs w c t in
  let w1 := fold_left (fun w nv =>
    match dget (fst nv) (ts_prims s) with
    | Some p => unregister p (snd nv) w
    | None => w
    end) (ts_cbs s) w in
  set_tab c t (mkTabst (ts_shown s) [] [] [] (ts_latest s) (ts_logger s)) w1.

(** message.py:57-66: the names that are new or have a new value. *)
Definition to_send (latest known : list (Z * Z)) : list (Z * Z) :=
  filter (fun nv => match dget (fst nv) known with Some v => negb (v =? snd nv) | None => true end) latest.

(** message.py:74-75 [latest_ui_values.update(latest)]. *)
Definition dupdate (d u : list (Z * Z)) : list (Z * Z) :=
  fold_left (fun d nv => dset (fst nv) (snd nv) d) u d.

(** message.py:40-77 [handle_shown_state].  Line 57 compares the dictionaries; they
    differ exactly when some value is to be sent (names are never taken away). *)
Definition handle_shown (shown : bool) (c t : nat) (w : world) : world * list (nat * nat * tmsg) :=
  let s := w_tabs w c t in
  let w1 := set_tab c t (mkTabst shown (ts_points s) (ts_prims s) (ts_cbs s) (ts_latest s) (ts_logger s)) w in
  let latest := values t w1 in
  let '(w2, out) :=
    if shown then
      (fold_left (fun w np => setup c t np w) (names t) w1,
       match to_send latest (ts_latest s) with [] => [] | d => [(c, t, MValues d)] end)
    else (clear_telemetry c t w1, []) in
  let s2 := w_tabs w2 c t in
  (set_tab c t (mkTabst (ts_shown s2) (ts_points s2) (ts_prims s2) (ts_cbs s2) (dupdate (ts_latest s2) latest) (ts_logger s2)) w2,
   out).

(** message.py:79-86 [handle_init], state.py:80-85 [add_logger]. *)
Definition handle_init (c t : nat) (w : world) : world :=
  let s := w_tabs w c t in
  if ts_logger s then w
  else
    let w1 := set_tab c t (mkTabst (ts_shown s) (ts_points s) (ts_prims s) (ts_cbs s) (ts_latest s) true) w in
    mkWorld (w_prims w1) (w_tabs w1) (w_open w1)
      (fun t' => if Nat.eqb t' t then w_handlers w1 t ++ [c] else w_handlers w1 t').

(** state.py:37-54 [frame], log messages left out. *)
Definition frame1 (c t : nat) (w : world) : world * list (nat * nat * tmsg) :=
  let s := w_tabs w c t in
  match ts_points s with
  | [] => (w, [])
  | d => (set_tab c t (mkTabst (ts_shown s) [] (ts_prims s) (ts_cbs s) (ts_latest s) (ts_logger s)) w,
          [(c, t, MPoints d)])
  end.

(** websocket/__init__.py:103-107: every tab. *)
Definition frames (c : nat) (w : world) : world * list (nat * nat * tmsg) :=
  fold_left (fun wo t => let '(w', o) := frame1 c t (fst wo) in (w', snd wo ++ o)) (seq 0 ntabs) (w, []).

(** state.py:68-78 [clear_loggers]. *)
Definition clear_loggers (c t : nat) (w : world) : world :=
  let s := w_tabs w c t in
  let w1 := mkWorld (w_prims w) (w_tabs w) (w_open w)
    (fun t' => if Nat.eqb t' t && ts_logger s then filter (fun x => negb (Nat.eqb x c)) (w_handlers w t) else w_handlers w t') in
  clear_telemetry c t
    (set_tab c t (mkTabst (ts_shown s) (ts_points s) (ts_prims s) (ts_cbs s) (ts_latest s) false) w1).

(** websocket/__init__.py:151-156 [disable_extra]; net/connection.py:190-204 calls
    it once. *)
Definition close (c : nat) (w : world) : world :=
  let w1 := fold_left (fun w t => clear_loggers c t w) (seq 0 ntabs) w in
  mkWorld (w_prims w1) (w_tabs w1) (fun c' => if Nat.eqb c' c then false else w_open w1 c') (w_handlers w1).

(** message.py:28-35, the callback: a point with the current value. *)
Definition report (raw ts : Z) (w : world) (o : nat * nat * Z) : world :=
  let '(c, t, n) := o in
  let s := w_tabs w c t in
  set_tab c t (mkTabst (ts_shown s) (dappend n (view t n raw, ts) (ts_points s)) (ts_prims s) (ts_cbs s) (ts_latest s) (ts_logger s)) w.

(** base.py:142-166 [set_value] and [_check_callbacks]: the value before is compared
    with the value given (not with what was stored). *)
Definition assign (p : nat) (v ts : Z) (w : world) : world :=
  let x := w_prims w p in
  let raw := k_store (tp_kind x) v in
  let w1 := set_prim p (mkTprim (tp_kind x) raw (tp_next x) (tp_cbs x) ts) w in
  if tp_raw x =? v then w1
  else fold_left (report raw ts) (map snd (tp_cbs x)) w1.

(** message.py:88-131 [handle_message] and websocket/__init__.py:93-123. *)
Inductive tev :=
| EInit (c t : nat)
| EShown (c t : nat)
| EHidden (c t : nat)
| EFrame (c : nat)
| EClose (c : nat)
| ESet (p : nat) (v ts : Z).

Definition t_step (w : world) (e : tev) : world * list (nat * nat * tmsg) :=
  match e with
  | EInit c t => if w_open w c && Nat.ltb t ntabs then (handle_init c t w, []) else (w, [])
  | EShown c t => if w_open w c && Nat.ltb t ntabs then handle_shown true c t w else (w, [])
  | EHidden c t => if w_open w c && Nat.ltb t ntabs then handle_shown false c t w else (w, [])
  | EFrame c => if w_open w c then frames c w else (w, [])
  | EClose c => if w_open w c then (close c w, []) else (w, [])
  | ESet p v ts => (assign p v ts w, [])
  end.

Fixpoint t_run (w : world) (h : list tev) : world * list (nat * nat * tmsg) :=
  match h with
  | [] => (w, [])
  | e :: h => let '(w1, o1) := t_step w e in let '(w2, o2) := t_run w1 h in (w2, o1 ++ o2)
  end.
End Tabs.

(** At the start: no callbacks, no tab state, every connection yet to come. *)
Definition w_init (prims : nat -> kind * Z) : world :=
  mkWorld (fun p => mkTprim (fst (prims p)) (k_store (fst (prims p)) (snd (prims p))) 0 [] 0)
    (fun _ _ => ts_create) (fun _ => true) (fun _ => []).
