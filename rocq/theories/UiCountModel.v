(** Model of how the connections of the web interface count themselves and agree on
    who updates the interface's metrics: runtimepy/net/server/websocket/__init__.py:
    47-86, 125-162 and the channel "num_connections" (net/server/struct/__init__.py:42,
    a uint8).  There is one interface structure.  Connections are numbered. *)
From Verif Require Import Base PrimModel.

Record ustate := mkU {
  u_ready : bool;                  (** the structure exists and [ui.env.finalized] *)
  u_raw : Z;                       (** "num_connections" *)
  u_cbs : list nat;                (** the connections whose callback is registered *)
  u_reg : nat -> bool;             (** [_ui is not None] *)
  u_open : nat -> bool;            (** not yet disabled *)
  u_poll : nat -> bool             (** [poll_connection_metrics] *)
}.

(** channel/environment/base.py:262-267 [add_int] with primitives/base.py:142-166: the
    callbacks are given the value before it is stored in the byte; each is lines 55-62,
    [check_metrics_poll]. *)
Definition add_int (amount : Z) (s : ustate) : ustate :=
  let new := u_raw s + amount in
  mkU (u_ready s) (k_store U8 new) (u_cbs s) (u_reg s) (u_open s)
    (fun c => if negb (u_raw s =? new) && existsb (Nat.eqb c) (u_cbs s) then u_poll s c || (new =? 1) else u_poll s c).

(** lines 47-71 [_get_ui]. *)
Definition get_ui (c : nat) (s : ustate) : ustate :=
  if u_reg s c then s
  else if u_ready s then
    let s1 := add_int 1 (mkU (u_ready s) (u_raw s) (u_cbs s ++ [c]) (u_reg s) (u_open s) (u_poll s)) in
    mkU (u_ready s1) (u_raw s1) (u_cbs s1) (fun x => if Nat.eqb x c then true else u_reg s1 x) (u_open s1) (u_poll s1)
  else s.

(** lines 151-162 [disable_extra], the part about the count. *)
Definition u_close (c : nat) (s : ustate) : ustate :=
  let s1 := get_ui c s in
  let s2 :=
    if u_reg s1 c then
      add_int (-1) (mkU (u_ready s1) (u_raw s1) (u_cbs s1) (u_reg s1) (u_open s1)
        (fun x => if Nat.eqb x c then false else u_poll s1 x))
    else s1 in
  mkU (u_ready s2) (u_raw s2) (u_cbs s2) (u_reg s2) (fun x => if Nat.eqb x c then false else u_open s2 x) (u_poll s2).

(** [UReady]: the structure's environment is finalized.  [UFrame c]: connection [c]
    starts (line 147) or handles a frame (line 99).  [UClose c]: it is disabled. *)
Inductive uev := UReady | UFrame (c : nat) | UClose (c : nat).

Definition u_step (s : ustate) (e : uev) : ustate :=
  match e with
  | UReady => mkU true (u_raw s) (u_cbs s) (u_reg s) (u_open s) (u_poll s)
  | UFrame c => if u_open s c then get_ui c s else s
  | UClose c => if u_open s c then u_close c s else s
  end.

Definition u_init : ustate := mkU false 0 [] (fun _ => false) (fun _ => true) (fun _ => false).
Definition u_run (h : list uev) : ustate := fold_left u_step h u_init.
