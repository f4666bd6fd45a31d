(** Model of the exchange of environments and configurations between a program
    and its peer: runtimepy/subprocess/interface.py 102-130, 152-195 and
    runtimepy/subprocess/peer.py 70-90, on top of the messaging interface of
    [IfaceModel].

    Simplifications.  An exported environment and a configuration are the JSON
    objects that travel; what exporting and loading do to an environment is
    [ExportModel].  [load_ok] says whether loading an object as an environment
    succeeds.  Both handlers store something at most once, so the environment
    and the configuration a side answers with are parameters: what exporting
    yields, and what the configuration is, at that one moment.  Every other
    registered handler ([more]) may do anything with its own state. *)
From Coq Require Import QArith.
From Verif Require Import Base IfaceModel.
Open Scope string_scope.
Open Scope list_scope.
Open Scope Z_scope.

(** subprocess/interface.py:66-69: what a side knows about its peer. *)
Record pst := mkPst {
  v_env : option msg;     (* peer: the environment that was loaded *)
  v_ready : bool;         (* _peer_env_event is set *)
  v_conf : option json;   (* peer_config *)
  v_cready : bool         (* peer_config_event is set *)
}.
(** subprocess/interface.py:66-69. *)
Definition p_new : pst := mkPst None false None false.

Section Exchange.
  (** channel/environment: [ChannelEnvironment.load_json] returns. *)
  Context (load_ok : msg -> bool).
  (** Whether the names of both environments can be registered
      (channel/environment/command/__init__.py:222-231). *)
  Context (reg_ok : bool).

  (** subprocess/interface.py:102-130 [_set_peer_env]: the new state and its
      result, None when loading or registering raises. *)
  Definition set_peer_env (s : pst) (data : msg) : pst * option bool :=
    match v_env s with
    | Some _ => (s, Some false)
    | None =>
        if load_ok data
        then
          if reg_ok
          then (mkPst (Some data) true (v_conf s) (v_cready s), Some true)
          else (mkPst (Some data) (v_ready s) (v_conf s) (v_cready s), None)
        else (s, None)
    end.

  (** message/interface.py:348-353 with a value that is an object; the target
      is a literal, so nothing is substituted. *)
  Definition as_object (j : json) : option msg := match j with JObj o => Some o | _ => None end.

  (** subprocess/interface.py:157-164 [env_handler]; [own] is
      [self.struct.env.export_json()]. *)
  Definition h_env (own : msg) : target pst :=
    mkTarget "env" as_object
      (fun s ib =>
         match set_peer_env s ib with
         | (s', Some true) => (s', Some own)
         | (s', Some false) => (s', Some [])
         | (s', None) => (s', None)
         end).

  (** [None] is what JSON null becomes: storing it leaves [peer_config] None. *)
  Definition stored (c : json) : option json := match c with JNull => None | _ => Some c end.

  (** subprocess/interface.py:166-180 [config_handler]; [own] is
      [self.struct.config]. *)
  Definition h_config (own : json) : target pst :=
    mkTarget "config" as_object
      (fun s ib =>
         match v_conf s with
         | Some _ => (s, Some [])
         | None =>
             match dget "config" ib with
             | Some c => (mkPst (v_env s) (v_ready s) (stored c) true, Some [("config", own)])
             | None => (s, None)
             end
         end).

  Section Targets.
    (** The other handlers of the interface and their state. *)
    Context {X : Type} (more : string -> option (target X)).
    Definition on_fst (t : target pst) : target (pst * X) :=
      mkTarget (t_key t) (t_prep t) (fun s ib => let '(p, o) := t_run t (fst s) ib in ((p, snd s), o)).
    Definition on_snd (t : target X) : target (pst * X) :=
      mkTarget (t_key t) (t_prep t) (fun s ib => let '(x, o) := t_run t (snd s) ib in ((fst s, x), o)).

    (** subprocess/interface.py:152-183 [_register_handlers]. *)
    Definition peer_eval (own_env : msg) (own_conf : json) (k : string) : option (target (pst * X)) :=
      if eq_dec k "env" then Some (on_fst (h_env own_env))
      else if eq_dec k "config" then Some (on_fst (h_config own_conf))
      else match more k with Some t => Some (on_snd t) | None => None end.
  End Targets.

  (** subprocess/interface.py:190-194 [share_environment] up to the await, and
      185-188 [share_config]: the message that is sent. *)
  Definition share_env_msg (export : msg) : msg := [("env", JObj export)].
  Definition share_conf_msg (data : msg) : msg := [("config", JObj data)].

  (** subprocess/interface.py:194: what happens when the answer has arrived;
      None when KeyError (or loading) is raised. *)
  Definition share_env_finish (s : pst) (result : msg) : pst * option unit :=
    match dget "env" result with
    | None => (s, None)
    | Some j =>
        match as_object j with
        | None => (s, None)
        | Some e =>
            match set_peer_env s e with
            | (s', Some _) => (s', Some tt)
            | (s', None) => (s', None)
            end
        end
    end.
End Exchange.
