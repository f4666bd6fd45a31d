(** Model of runtimepy/net/util.py (hosts) and runtimepy/net/mtu.py (the size of
    packets a host can be reached with).

    Simplifications: values are None, texts and integers; only the first argument of
    normalize_host can be a host.  What the system and the network do (options that
    can be read and set or not, names, sizes) are parameters of each call.  A call of
    a function with [functools.cache] is keyed by its arguments; that the arguments of
    host_discover_mtu are equal is decided by a number for each [probe_create]
    function; that calls with the same arguments given by position and by name have
    separate entries is left out. *)
From Verif Require Import Base.
Open Scope list_scope.

Inductive pv := PNone | PStr (s : string) | PInt (z : Z).
(** net/util.py:17-21, 64-70: a named tuple each. *)
Inductive host := H4 (name port : pv) | H6 (name port flow scope : pv).
Inductive arg := AV (v : pv) | AH (h : host).
Inductive family := F4 | F6.
(** net/util.py:23-26, 91-94. *)
Definition family_of (h : host) : family := match h with H4 _ _ => F4 | H6 _ _ _ _ => F6 end.
(** The values of the fields without arguments. *)
Definition host_default (f : family) : host :=
  match f with F4 => H4 (PStr "") (PInt 0) | F6 => H6 (PStr "") (PInt 0) (PInt 0) (PInt 0) end.
(** The tuple a host is. *)
Definition fields (h : host) : list pv := match h with H4 n p => [n; p] | H6 n p f s => [n; p; f; s] end.

(** net/util.py:120-134 [normalize_host]; None: TypeError, because a host has no such field. *)
Definition normalize (args : list arg) (default : family) : option host :=
  match args with
  | [] => Some (host_default default)
  | AV PNone :: _ => Some (host_default default)
  | AH h :: _ => Some h
  | AV n :: rest =>
      let vals := map (fun a => match a with AV v => v | AH _ => PNone end) rest in
      match vals with
      | [] => Some (H4 n (PInt 0))
      | [p] => Some (H4 n p)
      | [p; f] => Some (H6 n p f (PInt 0))
      | [p; f; s] => Some (H6 n p f s)
      | _ => None
      end
  end.
(** net/util.py:28-31, 82-89 [zero_port]. *)
Definition is_zero (v : pv) : bool := match v with PInt z => z =? 0 | _ => false end.
Definition zero_port (h : host) : host :=
  match h with
  | H4 n p => if is_zero p then h else H4 n (PInt 0)
  | H6 n p f s => if is_zero p then h else H6 n (PInt 0) f s
  end.

(** ** net/mtu.py *)
Definition IP_PMTUDISC_DO : Z := 2.
Definition ETHERNET_MTU : Z := 1500.
Definition IP_HEADER_SIZE : Z := 60.
Definition UDP_HEADER_SIZE : Z := IP_HEADER_SIZE + 8.
Definition UDP_DEFAULT_MTU : Z := ETHERNET_MTU - UDP_HEADER_SIZE.

(** Sending the probe: it leaves, the system refuses it (OSError), or something else
    is raised, for example by [probe_create]. *)
Inductive probe := Sent | Refused | Raises.
Record sysenv := mkSys {
  y_get : bool;          (* reading IP_MTU_DISCOVER works *)
  y_set : bool;          (* setting it to IP_PMTUDISC_DO works *)
  y_restore : bool;      (* setting it back works *)
  y_probe : probe;
  y_mtu : option Z       (* IP_MTU, if reading it works *)
}.
(** net/mtu.py:39-91 [socket_discover_mtu], for a socket whose option is [o]: the option
    afterwards, the option while the probe was sent, the result (None: raised). *)
Definition socket_discover (y : sysenv) (o fallback : Z) : Z * Z * option Z :=
  let orig := if y_get y then Some o else None in
  let o1 := if y_set y then IP_PMTUDISC_DO else o in
  match y_probe y with
  | Raises => (o1, o1, None)
  | Sent | Refused =>
      let o2 := match orig with Some v => if y_restore y then v else o1 | None => o1 end in
      let result := match y_mtu y with Some m => m | None => 0 end in
      (o2, o1, Some (if negb (result =? 0) then result else fallback))
  end.

(** net/mtu.py:94-111 [host_discover_mtu] with its cache. *)
Record key := mkKey { q_local : host; q_dest : host; q_size : Z; q_fallback : Z; q_kind : Z; q_create : nat }.
Definition pv_eqb (a b : pv) : bool :=
  match a, b with
  | PNone, PNone => true | PStr s, PStr t => String.eqb s t | PInt x, PInt y => x =? y | _, _ => false
  end.
Fixpoint pvs_eqb (a b : list pv) : bool :=
  match a, b with [], [] => true | x :: a, y :: b => pv_eqb x y && pvs_eqb a b | _, _ => false end.
Definition host_eqb (a b : host) : bool := pvs_eqb (fields a) (fields b).
Definition key_eqb (a b : key) : bool :=
  host_eqb (q_local a) (q_local b) && host_eqb (q_dest a) (q_dest b) && (q_size a =? q_size b) &&
  (q_fallback a =? q_fallback b) && (q_kind a =? q_kind b) && Nat.eqb (q_create a) (q_create b).

(** What happens to the socket of a call: making or binding it fails (util.py:187-190;
    a socket that could not be bound is not closed by the code; that the interpreter may
    close it when it collects it is not modelled), connecting it fails, or it is
    probed. *)
Inductive fate := NoSocket | NotBound | NotConnected | Probed (y : sysenv) (o : Z).
Record world := mkWorld { cache : list (key * Z); open_socks : nat; bound : list host }.
Definition w0 : world := mkWorld [] 0 [].
Fixpoint lookup (k : key) (l : list (key * Z)) : option Z :=
  match l with [] => None | (k', v) :: l => if key_eqb k' k then Some v else lookup k l end.
Definition host_discover (k : key) (f : fate) (w : world) : world * option Z :=
  match lookup k (cache w) with
  | Some v => (w, Some v)
  | None =>
      let b := bound w ++ [zero_port (q_local k)] in
      match f with
      | NoSocket => (w, None)
      | NotBound => (mkWorld (cache w) (S (open_socks w)) (bound w), None)
      | NotConnected => (mkWorld (cache w) (S (open_socks w)) b, None)
      | Probed y o =>
          match snd (socket_discover y o (q_fallback k)) with
          | None => (mkWorld (cache w) (S (open_socks w)) b, None)
          | Some v => (mkWorld (cache w ++ [(k, v)]) (open_socks w) b, Some v)
          end
      end
  end.
(** A history of calls and what each returned. *)
Fixpoint calls (h : list (key * fate)) (w : world) : world * list (option Z) :=
  match h with
  | [] => (w, [])
  | (k, f) :: h => let '(w1, r) := host_discover k f w in let '(w2, rs) := calls h w1 in (w2, r :: rs)
  end.
(** net/mtu.py:114-141: the arguments [discover_mtu] calls it with. *)
Definition discover_key (dest : list arg) (local : option host) (size fallback kind : Z) (create : nat) : option key :=
  match normalize dest F4 with
  | None => None
  | Some d =>
      match normalize [match local with Some h => AH h | None => AV PNone end] (family_of d) with
      | None => None
      | Some l => Some (mkKey l d size fallback kind create)
      end
  end.
