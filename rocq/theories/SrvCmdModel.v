(** Model of runtimepy/commands/server.py (what the 'server' command configures),
    runtimepy/net/ssl.py, the ports of runtimepy/net/arbiter/config/codec.py and the
    resolution of port names in runtimepy/net/arbiter/config (__init__.py, util.py).

    Simplifications: texts are lists of code points; [str.lower] is ASCII; the values of
    arguments are texts, integers and lists of them; the [markdown] argument of clients
    is left out; that [fix_kwargs] turns lists into tuples is left out (the same
    elements); what follows from merging with other files is an arbitrary list of
    further ports. *)
From Verif Require Import Base PyStrModel.
Open Scope list_scope.

Inductive atom := AS (s : str) | AI (z : Z).
Inductive kv := KA (a : atom) | KL (l : list atom).
Definition kwargs := list (str * kv).

(** commands/server.py:130-172: the arguments.  [a_opt] is the value of one of the
    options that are passed through, None if it is not given. *)
Record args := mkArgs {
  a_factory : str; a_udp : bool; a_host : str; a_port : Z; a_loopback : bool;
  a_configs : list str; a_opt : str -> option str
}.
(** 17-18. *)
Definition SSL_PASSTHROUGH : list str := [lit "cafile"; lit "capath"; lit "cadata"; lit "certfile"].
Definition PASSTHROUGH : list str := SSL_PASSTHROUGH ++ [lit "keyfile"].
(** 21-23. *)
Definition port_name (a : args) (port : str) : str :=
  a_factory a ++ 95 :: (if a_udp a then lit "udp" else lit "tcp") ++ 95 :: port.
(** A reference to the port: a dollar sign and its name. *)
Definition port_ref (a : args) : str := 36 :: port_name a (lit "port").
(** 35-37 [is_websocket]: [x in s]. *)
Fixpoint prefix_of (p s : str) : bool :=
  match p, s with [], _ => true | x :: p, y :: s => (x =? y) && prefix_of p s | _, [] => false end.
Fixpoint contains (p s : str) : bool :=
  prefix_of p s || match s with [] => false | _ :: s => contains p s end.
Definition is_websocket (a : args) : bool := contains (lit "websocket") (lower (a_factory a)).
(** 40-42 [is_ssl]. *)
Definition is_ssl (k : kwargs) : bool := existsb (fun x => dmem x k) SSL_PASSTHROUGH.
(** 45-57 [get_kwargs]. *)
Definition get_kwargs (a : args) (k : kwargs) : kwargs :=
  fold_left (fun acc o => match a_opt a o with Some v => dset o (KA (AS v)) acc | None => acc end) PASSTHROUGH k.

Record client := mkClient { c_name : str; c_defer : bool; c_factory : str; c_args : list atom; c_kwargs : kwargs }.
Record server := mkServer { s_factory : str; s_kwargs : kwargs }.
Record port_item := mkPort { pi_name : str; pi_host : str; pi_port : Z; pi_tcp : bool }.
Record config := mkConfig { g_includes : list str; g_clients : list client; g_servers : list server; g_ports : list port_item }.

(** 26-32 [server_data]. *)
Definition server_data (a : args) : server :=
  mkServer (a_factory a) (get_kwargs a [(lit "port", KA (AS (port_ref a))); (lit "host", KA (AS (a_host a)))]).
(** 60-88 [client_data]. *)
Definition client_data (a : args) : client :=
  let arg_list :=
    if is_websocket a
    then [AS (lit "ws" ++ (if is_ssl (get_kwargs a []) then lit "s" else []) ++ lit "://localhost:" ++ port_ref a)]
    else [] in
  let kw :=
    if is_websocket a then []
    else if negb (a_udp a) then [(lit "host", KA (AS (lit "localhost"))); (lit "port", KA (AS (port_ref a)))]
    else [(lit "remote_addr", KL [AS (lit "localhost"); AS (port_ref a)])] in
  mkClient (port_name a (lit "client")) true (a_factory a) arg_list kw.
(** 91-124 [config_data]; common.py:23 is the first include.  The default of [host]
    of a port is in data/schemas/ConnectionArbiterConfig.yaml, that of [defer] in
    ClientConnectionConfig.yaml. *)
Definition FACTORIES : str := lit "package://runtimepy/factories.yaml".
Definition config_data (a : args) : config :=
  let servers := if negb (a_udp a) then [server_data a] else [] in
  let clients :=
    if negb (a_udp a) then []
    else [mkClient (port_name a (lit "server")) false (a_factory a) []
            (get_kwargs a [(lit "local_addr", KL [AS (lit "0.0.0.0"); AS (port_ref a)])])] in
  mkConfig (FACTORIES :: a_configs a)
    (clients ++ if a_loopback a then [client_data a] else []) servers
    [mkPort (port_name a (lit "port")) [] (a_port a) (negb (a_udp a))].

(** net/arbiter/config/codec.py:42-60: ports are assigned in order.  [os i host port tcp]
    is the port of the socket that the system gives for the [i]-th item; None: OSError. *)
Section Ports.
  Context (os : nat -> str -> Z -> bool -> option Z) (overrides : list (str * Z)).
  Definition wanted (it : port_item) : Z :=
    match dget (pi_name it) overrides with Some p => p | None => pi_port it end.
  Fixpoint assign (i : nat) (items : list port_item) (ports : list (str * Z)) : option (list port_item * list (str * Z)) :=
    match items with
    | [] => Some ([], ports)
    | it :: rest =>
        match os i (pi_host it) (wanted it) (pi_tcp it) with
        | None => None
        | Some p =>
            match assign (S i) rest (dset (pi_name it) p ports) with
            | None => None
            | Some (items', ports') => Some (mkPort (pi_name it) (pi_host it) p (pi_tcp it) :: items', ports')
            end
        end
    end.
End Ports.

(** vcorelib's [list_resolve_env_vars] and [dict_resolve_env_vars] (not in /repo,
    assumed): a text that is a dollar sign and the name of a port stands for the port;
    other values stay. *)
Definition resolve (ports : list (str * Z)) (a : atom) : atom :=
  match a with
  | AS (c :: n) => if c =? 36 then match dget n ports with Some p => AI p | None => a end else a
  | _ => a
  end.
Definition resolve_kv (ports : list (str * Z)) (v : kv) : kv :=
  match v with KA a => KA (resolve ports a) | KL l => KL (map (resolve ports) l) end.
Definition resolve_kwargs (ports : list (str * Z)) (k : kwargs) : kwargs := map (fun x => (fst x, resolve_kv ports (snd x))) k.
(** [str(x)]. *)
Definition text (a : atom) : str := match a with AS s => s | AI z => dec z end.
(** util.py:39-54 [fix_args]. *)
Definition fix_args (ports : list (str * Z)) (l : list atom) : list atom :=
  map (fun a => match a with
                | AS s => AS (join 58 (map (fun x => text (resolve ports (AS x))) (split_on 58 s)))
                | AI _ => a
                end) l.
(** config/__init__.py:155-191: what the factories are called with. *)
Definition call_client (ports : list (str * Z)) (c : client) : client :=
  mkClient (c_name c) (c_defer c) (c_factory c) (fix_args ports (map (resolve ports) (c_args c))) (resolve_kwargs ports (c_kwargs c)).
Definition call_server (ports : list (str * Z)) (s : server) : server :=
  mkServer (s_factory s) (resolve_kwargs ports (s_kwargs s)).

(** net/ssl.py:10-34 [handle_possible_ssl]: the context that is made, with its purpose,
    authorities and certificate, and the other arguments. *)
Section Ssl.
  Context {V : Type} (truthy : V -> bool).
  Record context := mkCtx { x_client : bool; x_ca : list (option V); x_chain : option (V * option V) }.
  Definition ssl_args : list str := [lit "cafile"; lit "capath"; lit "cadata"].
  Definition handle_ssl (client : bool) (k : list (str * V)) : option context * list (str * V) :=
    let use := match dget (lit "use_ssl") k with Some v => truthy v | None => false end in
    let k := ddel (lit "use_ssl") k in
    if use || existsb (fun x => dmem x k) ssl_args || dmem (lit "certfile") k then
      let ca := map (fun x => dget x k) ssl_args in
      let k1 := fold_left (fun acc x => ddel x acc) ssl_args k in
      match dget (lit "certfile") k1 with
      | Some c => (Some (mkCtx client ca (Some (c, dget (lit "keyfile") k1))), ddel (lit "ssl") (ddel (lit "keyfile") (ddel (lit "certfile") k1)))
      | None => (Some (mkCtx client ca None), ddel (lit "ssl") k1)
      end
    else (None, k).
End Ssl.
Arguments context : clear implicits.
