(** Model of how the objects of an application are registered with the
    connection arbiter, by hand or from a configuration: net/arbiter/base.py,
    net/arbiter/factory/, net/arbiter/imports/__init__.py,
    net/arbiter/config/, task/basic/manager.py:26-33, and of the registration of
    their environments when the application starts.

    An operation runs without interruption (process_config awaits only the
    creation of connections, and nothing else registers objects then).  Logging
    is left out.  What is handed to a created object besides its name and
    arguments (period, average depth, markdown, configuration data) is an
    opaque [info]. *)
From Verif Require Import Base.

(** How a call ended: its result, or an exception. *)
Inductive res := RBool (b : bool) | RRaise.

(** The four kinds of factories. *)
Inductive fkind := KConn | KTask | KStruct | KPeer.
(** A factory: the name of its class and its namespaces. *)
Record fac := mkFac { f_class : string; f_spaces : list string }.

Section Arbiter.
  Context {conn info : Type}.
  (** vcorelib's Namespace: the full name for the names pushed
      (base.py:170-171); and its [to_snake]. *)
  Context (full : list string -> string) (snake : string -> string).
  (** Awaiting what [factory.client] of a class gives for a name and arguments;
      None when it raises. *)
  Context (make : string -> string -> info -> option conn).
  (** Whether [factory.server_task] of a class returns for these arguments. *)
  Context (serve : string -> info -> bool).

  (** A connection, or an awaitable that gives one (or raises). *)
  Inductive object := Now (c : conn) | Later (r : option conn).

  Record arb := mkArb {
    a_conns : list (string * conn);                 (* base.py:130 *)
    a_defer : list (string * option conn);          (* 131-133 *)
    a_awaited : bool;                               (* whether these were awaited *)
    a_queue : list conn;                            (* connections given to the manager *)
    a_made : list conn;                             (* connections that were created *)
    a_cfacs : list (string * fac);                  (* factory/connection.py:50-51 *)
    a_tfacs : list (string * fac);                  (* factory/task.py:25-26 *)
    a_sfacs : list (string * fac);                  (* imports/__init__.py:41-42 *)
    a_pfacs : list (string * fac);                  (* 44-45 *)
    a_servers : list (string * info);               (* base.py:142 *)
    a_tasks : list (string * (string * info));      (* manager.py:24 *)
    a_structs : list (string * (string * info));    (* base.py:136 *)
    a_peers : list (string * (string * info))       (* 139 *)
  }.

  (** base.py:86-148; [t] is the housekeeping task registered at 107-111. *)
  Definition arb_init (t : string * (string * info)) : arb :=
    mkArb [] [] false [] [] [] [] [] [] [] [t] [] [].

  (** base.py:153-158 [_register_connection]. *)
  Definition put_conn (name : string) (c : conn) (a : arb) : arb :=
    mkArb (dset name c (a_conns a)) (a_defer a) (a_awaited a) (a_queue a ++ [c]) (a_made a)
          (a_cfacs a) (a_tfacs a) (a_sfacs a) (a_pfacs a) (a_servers a) (a_tasks a)
          (a_structs a) (a_peers a).

  (** base.py:160-185 [register_connection]. *)
  Definition register_connection (names : list string) (o : object) (a : arb) : arb * bool :=
    let name := full names in
    if negb (dmem name (a_conns a)) && negb (dmem name (a_defer a)) then
      (match o with
       | Later r =>
           mkArb (a_conns a) (dset name r (a_defer a)) (a_awaited a) (a_queue a) (a_made a)
                 (a_cfacs a) (a_tfacs a) (a_sfacs a) (a_pfacs a) (a_servers a) (a_tasks a)
                 (a_structs a) (a_peers a)
       | Now c => put_conn name c a
       end, true)
    else (a, false).

  (** The four dictionaries. *)
  Definition facs (k : fkind) (a : arb) : list (string * fac) :=
    match k with KConn => a_cfacs a | KTask => a_tfacs a | KStruct => a_sfacs a | KPeer => a_pfacs a end.
  Definition with_facs (k : fkind) (d : list (string * fac)) (a : arb) : arb :=
    mkArb (a_conns a) (a_defer a) (a_awaited a) (a_queue a) (a_made a)
          (match k with KConn => d | _ => a_cfacs a end)
          (match k with KTask => d | _ => a_tfacs a end)
          (match k with KStruct => d | _ => a_sfacs a end)
          (match k with KPeer => d | _ => a_pfacs a end)
          (a_servers a) (a_tasks a) (a_structs a) (a_peers a).

  (** factory/connection.py:53-78, factory/task.py:45-70,
      imports/__init__.py:47-72 and 74-97: the same text four times. *)
  Definition register_factory (k : fkind) (cls : string) (spaces : list string) (a : arb)
    : arb * bool :=
    let d := facs k a in
    if negb (dmem cls d) && negb (dmem (snake cls) d) then
      let f := mkFac cls spaces in
      (with_facs k (dset (snake cls) f (dset cls f d)) a, true)
    else (a, false).

  (** factory/connection.py:80-100 [factory_client]. *)
  Definition factory_client (factory name : string) (args : info) (defer : bool) (a : arb)
    : arb * res :=
    match dget factory (a_cfacs a) with
    | None => (a, RBool false)
    | Some f =>
        let r := make (f_class f) name args in
        if defer then
          let '(a', b) := register_connection (f_spaces f ++ [name]) (Later r) a in (a', RBool b)
        else
          match r with
          | None => (a, RRaise)
          | Some c =>
              let a1 := mkArb (a_conns a) (a_defer a) (a_awaited a) (a_queue a) (a_made a ++ [c])
                          (a_cfacs a) (a_tfacs a) (a_sfacs a) (a_pfacs a) (a_servers a)
                          (a_tasks a) (a_structs a) (a_peers a) in
              let '(a', b) := register_connection (f_spaces f ++ [name]) (Now c) a1 in (a', RBool b)
          end
    end.

  (** factory/connection.py:102-122 [factory_server]. *)
  Definition factory_server (factory : string) (args : info) (a : arb) : arb * res :=
    match dget factory (a_cfacs a) with
    | None => (a, RBool false)
    | Some f =>
        if serve (f_class f) args then
          (mkArb (a_conns a) (a_defer a) (a_awaited a) (a_queue a) (a_made a)
                 (a_cfacs a) (a_tfacs a) (a_sfacs a) (a_pfacs a)
                 (a_servers a ++ [(f_class f, args)]) (a_tasks a) (a_structs a) (a_peers a),
           RBool true)
        else (a, RRaise)
    end.

  (** factory/task.py:28-43 [factory_task] with task/basic/manager.py:26-33. *)
  Definition factory_task (factory name : string) (i : info) (a : arb) : arb * bool :=
    match dget factory (a_tfacs a) with
    | Some f =>
        if dmem name (a_tasks a) then (a, false) else
        (mkArb (a_conns a) (a_defer a) (a_awaited a) (a_queue a) (a_made a)
               (a_cfacs a) (a_tfacs a) (a_sfacs a) (a_pfacs a) (a_servers a)
               (dset name (f_class f, i) (a_tasks a)) (a_structs a) (a_peers a), true)
    | None => (a, false)
    end.

  (** imports/__init__.py:99-110 [factory_struct]. *)
  Definition factory_struct (factory name : string) (i : info) (a : arb) : arb * bool :=
    match dget factory (a_sfacs a) with
    | Some f =>
        if dmem name (a_structs a) then (a, false) else
        (mkArb (a_conns a) (a_defer a) (a_awaited a) (a_queue a) (a_made a)
               (a_cfacs a) (a_tfacs a) (a_sfacs a) (a_pfacs a) (a_servers a) (a_tasks a)
               (dset name (f_class f, i) (a_structs a)) (a_peers a), true)
    | None => (a, false)
    end.

  (** imports/__init__.py:112-129 [factory_process] (the configuration has a
      "program": its schema requires it). *)
  Definition factory_process (factory name : string) (i : info) (a : arb) : arb * bool :=
    match dget factory (a_pfacs a) with
    | Some f =>
        if dmem name (a_peers a) then (a, false) else
        (mkArb (a_conns a) (a_defer a) (a_awaited a) (a_queue a) (a_made a)
               (a_cfacs a) (a_tfacs a) (a_sfacs a) (a_pfacs a) (a_servers a) (a_tasks a)
               (a_structs a) (dset name (f_class f, i) (a_peers a)), true)
    | None => (a, false)
    end.

  (** base.py:206-214, the deferred connections; None when it raises.  An
      awaitable cannot be awaited twice. *)
  Fixpoint put_deferred (d : list (string * option conn)) (a : arb) : arb :=
    match d with
    | (name, Some c) :: d' => put_deferred d' (put_conn name c a)
    | (_, None) :: d' => put_deferred d' a
    | [] => a
    end.
  Definition all_made (d : list (string * option conn)) : bool :=
    forallb (fun kv => match snd kv with Some _ => true | None => false end) d.
  Fixpoint made_of (d : list (string * option conn)) : list conn :=
    match d with
    | (_, Some c) :: d' => c :: made_of d'
    | (_, None) :: d' => made_of d'
    | [] => []
    end.
  Definition init_connections (a : arb) : arb * bool :=
    match a_defer a with
    | [] => (a, true)
    | d =>
        if a_awaited a then (a, false) else
        let a1 := mkArb (a_conns a) d true (a_queue a) (a_made a ++ made_of d)
                    (a_cfacs a) (a_tfacs a) (a_sfacs a) (a_pfacs a) (a_servers a) (a_tasks a)
                    (a_structs a) (a_peers a) in
        if all_made d then (put_deferred d a1, true) else (a1, false)
    end.

  (** ** config/__init__.py *)

  (** What a module path gives: a class of one of the kinds (for KConn and
      KTask, one whose instance is such a factory), or something else, or
      nothing. *)
  Context (imports : string -> option (fkind * string)).

  Record config := mkConfig {
    g_facs : list (string * list string);                       (* name, namespaces *)
    g_clients : list (string * string * info * bool);           (* factory, name, args, defer *)
    g_servers : list (string * info);
    g_tasks : list (string * string * info);                    (* factory, name, info *)
    g_structs : list (string * string * info);
    g_procs : list (string * string * info)
  }.

  (** imports/__init__.py:131-160 [register_module_factory].  When the name of
      a struct or peer class is taken, line 151 calls the class with the
      configured keyword arguments; that raises or gives an object that is no
      factory, so the outcome is a failure either way. *)
  Definition register_module_factory (path : string) (spaces : list string) (a : arb) : arb * bool :=
    match imports path with
    | Some (k, cls) => register_factory k cls spaces a
    | None => (a, false)
    end.

  (** 145-159. *)
  Fixpoint do_factories (names : list string) (l : list (string * list string)) (a : arb) : arb * bool :=
    match l with
    | [] => (a, true)
    | (name, spaces) :: l' =>
        if existsb (String.eqb name) names then do_factories names l' a else
        let '(a', ok) := register_module_factory name spaces a in
        if ok then do_factories (name :: names) l' a' else (a', false)
    end.
  (** 162-182. *)
  Fixpoint do_clients (l : list (string * string * info * bool)) (a : arb) : arb * bool :=
    match l with
    | [] => (a, true)
    | (factory, name, args, defer) :: l' =>
        match factory_client factory name args defer a with
        | (a', RBool true) => do_clients l' a'
        | (a', _) => (a', false)
        end
    end.
  (** 185-196. *)
  Fixpoint do_servers (l : list (string * info)) (a : arb) : arb * bool :=
    match l with
    | [] => (a, true)
    | (factory, args) :: l' =>
        match factory_server factory args a with
        | (a', RBool true) => do_servers l' a'
        | (a', _) => (a', false)
        end
    end.
  (** 199-209, 212-217, 220-227. *)
  Fixpoint do_each (reg : string -> string -> info -> arb -> arb * bool)
           (l : list (string * string * info)) (a : arb) : arb * bool :=
    match l with
    | [] => (a, true)
    | (factory, name, i) :: l' =>
        let '(a', ok) := reg factory name i a in
        if ok then do_each reg l' a' else (a', false)
    end.

  Definition andthen (r : arb * bool) (k : arb -> arb * bool) : arb * bool :=
    let '(a, ok) := r in if ok then k a else (a, false).

  (** 135-227 [process_config] (ports are resolved before; the application
      methods are in ArbiterModel); false when it raised. *)
  Definition process_config (g : config) (a : arb) : arb * bool :=
    andthen (do_factories [] (g_facs g) a) (fun a =>
    andthen (do_clients (g_clients g) a) (fun a =>
    andthen (do_servers (g_servers g) a) (fun a =>
    andthen (do_each factory_task (g_tasks g) a) (fun a =>
    andthen (do_each factory_struct (g_structs g) a) (fun a =>
    do_each factory_process (g_procs g) a))))).

  (** ** Starting the application: base.py:260-276 *)

  (** Whose environment it is: the object's table and its name there. *)
  Inductive owner := EHost (p : string) | EPeer (p : string) | EConn (n : string)
                   | EStruct (n : string) | ETask (n : string).

  (** channel/environment/command/__init__.py:230-239 [register]; every owner
      has its own environment, so a name that is taken is taken by another. *)
  Fixpoint register_envs (l : list (string * owner)) (d : list (string * owner))
    : list (string * owner) * bool :=
    match l with
    | [] => (d, true)
    | (name, o) :: l' =>
        if dmem name d then (d, false) else register_envs l' (dset name o d)
    end.

  (** subprocess/interface.py:124-125 (from peer.py:83; [greets] tells for which
      processes the handshake 80-83 gets there; an AssertionError is suppressed
      there). *)
  Context (greets : string -> bool).
  Fixpoint register_peers (l : list string) (d : list (string * owner)) : list (string * owner) :=
    match l with
    | [] => d
    | p :: l' =>
        register_peers l'
          (if greets p then
             fst (register_envs [((p ++ ".host")%string, EHost p); ((p ++ ".peer")%string, EPeer p)] d)
           else d)
    end.

  (** base.py:260-276; None when it raises. *)
  Definition start (a : arb) : arb * option (list (string * owner)) :=
    let d := register_peers (map fst (a_peers a)) [] in
    let '(a', ok) := init_connections a in
    if ok then
      let l := map (fun kv => (fst kv, EConn (fst kv))) (a_conns a')
               ++ map (fun kv => (fst kv, EStruct (fst kv))) (a_structs a')
               ++ map (fun kv => (fst kv, ETask (fst kv))) (a_tasks a') in
      let '(d', ok') := register_envs l d in
      (a', if ok' then Some d' else None)
    else (a', None).

  (** ** Histories of the registration interface *)
  Inductive aop :=
  | ARegister (names : list string) (o : object)
  | AClient (factory name : string) (args : info) (defer : bool)
  | AFactory (k : fkind) (cls : string) (spaces : list string)
  | AServer (factory : string) (args : info)
  | ATask (factory name : string) (i : info)
  | AStruct (factory name : string) (i : info)
  | AProcess (factory name : string) (i : info)
  | AInit.

  Definition bool_res (r : arb * bool) : arb * res := (fst r, RBool (snd r)).
  Definition a_step (a : arb) (o : aop) : arb * res :=
    match o with
    | ARegister names x => bool_res (register_connection names x a)
    | AClient factory name args defer => factory_client factory name args defer a
    | AFactory k cls spaces => bool_res (register_factory k cls spaces a)
    | AServer factory args => factory_server factory args a
    | ATask factory name i => bool_res (factory_task factory name i a)
    | AStruct factory name i => bool_res (factory_struct factory name i a)
    | AProcess factory name i => bool_res (factory_process factory name i a)
    | AInit =>
        let '(a', ok) := init_connections a in
        (a', if ok then RBool true else RRaise)
    end.
  Fixpoint a_run (a : arb) (ops : list aop) : arb * list res :=
    match ops with
    | [] => (a, [])
    | o :: ops' =>
        let '(a1, r) := a_step a o in
        let '(a2, rs) := a_run a1 ops' in
        (a2, r :: rs)
    end.
End Arbiter.

(** ** config/util.py:15-21 [list_adder]. *)
Definition list_adder {A} (dest : list A) (data : A) (front : bool) : list A :=
  if front then dest ++ [data] else data :: dest.

(** config/__init__.py:55-61 [add_search_package]; [clean] is
    [name.replace("-", "_")]. *)
Definition add_search_package (clean : string -> string) (pkgs : list string) (name : string)
  (front : bool) : list string :=
  let name := clean name in
  if existsb (String.eqb name) pkgs then pkgs else list_adder pkgs name front.

(** config/__init__.py:63-102, which files are loaded, in order; [direct] is
    [find_file] of the path itself and [packaged] that in a package; a file is
    its absolute path.  None when a path is not found. *)
Section Load.
  Context (direct : string -> option string) (packaged : string -> string -> option string).
  Fixpoint search_pkgs (path : string) (pkgs : list string) : option string :=
    match pkgs with
    | [] => None
    | p :: pkgs' => match packaged p path with Some f => Some f | None => search_pkgs path pkgs' end
    end.
  Definition locate (pkgs : list string) (path : string) : option string :=
    match direct path with Some f => Some f | None => search_pkgs path pkgs end.
  Fixpoint load_files (pkgs : list string) (loaded : list string) (paths : list string)
    : option (list string) :=
    match paths with
    | [] => Some loaded
    | path :: paths' =>
        match locate pkgs path with
        | None => None
        | Some f =>
            load_files pkgs (if existsb (String.eqb f) loaded then loaded else loaded ++ [f]) paths'
        end
    end.
End Load.

(** ** net/arbiter/info.py:199-256, [search] and [single].

    [found] are the names [self.names.search] gives, [managed] the connections
    of the manager; [dflt] tells that the pattern is the default one. *)
Section Search.
  Context {conn : Type} {CD : EqDec conn} (kind : conn -> bool).
  Fixpoint by_names (table : list (string * conn)) (found : list string) : option (list conn) :=
    match found with
    | [] => Some []
    | n :: found' =>
        match dget n table, by_names table found' with
        | Some c, Some l => Some (if kind c then c :: l else l)
        | _, _ => None
        end
    end.
  Definition memb (c : conn) (l : list conn) : bool := if in_dec eq_dec c l then true else false.
  Fixpoint by_manager (seen managed : list conn) : list conn :=
    match managed with
    | [] => []
    | c :: managed' =>
        if kind c && negb (memb c seen) then c :: by_manager (c :: seen) managed'
        else by_manager seen managed'
    end.
  (** None: KeyError. *)
  Definition search (table : list (string * conn)) (found : list string) (dflt : bool)
             (managed : list conn) : option (list conn) :=
    match by_names table found with
    | None => None
    | Some l => Some (l ++ (if dflt then by_manager l managed else []))
    end.
  Definition single (table : list (string * conn)) (found : list string) (dflt : bool)
             (managed : list conn) : option conn :=
    match search table found dflt managed with Some [c] => Some c | _ => None end.
End Search.

(** ** Configuration data: config/__init__.py:127-128 and 237-242, and
    net/arbiter/info.py:291-319.

    A configuration value is opaque, except the dictionary under "config".  The
    two places that hold the same dictionary object hold the same value here;
    the entry "root" that closes the loop is left out of it. *)
Section Data.
  Context {value : Type}.
  Inductive cval := CLeaf (v : value) | CDict (d : list (string * value)).
  (** What [info.config] is: the application configuration (without "root"),
      and, if there is one, what stands under "root". *)
  Record appcfg := mkAppCfg { ac_items : list (string * value); ac_root : option (list (string * cval)) }.

  (** 127-128 and 237-242: loading [data] into an arbiter whose configuration
      was [items].  (A "config" entry that is no dictionary is refused by the
      schema.) *)
  Definition load_data (items : list (string * value)) (data : list (string * cval)) : appcfg :=
    match dget "config" data with
    | Some (CDict d) => mkAppCfg d (Some data)
    | _ => mkAppCfg items (Some data)
    end.

  (** info.py:291-306 [original_config]: the loops copy entry by entry. *)
  Definition original_config (c : appcfg) : list (string * cval) :=
    fold_left (fun r kv => if String.eqb (fst kv) "config" then r else dset (fst kv) (snd kv) r)
              (match ac_root c with Some d => d | None => [] end)
              [("config"%string, CDict (fold_left (fun r kv => dset (fst kv) (snd kv) r) (ac_items c) []))].

  (** info.py:308-319 [config_param] with strict false; None when it raises
      KeyError. *)
  Definition config_param (c : appcfg) (key : string) (default : value) : option value :=
    match ac_root c with
    | None => None
    | Some data =>
        match dget "config" data with
        | Some (CDict d) => match dget key d with Some v => Some v | None => Some default end
        | Some (CLeaf _) => None
        | None => Some default
        end
    end.
End Data.
