(** C76 to C78: what is registered with the arbiter, by hand or from a
    configuration, and what is there once the application starts. *)
From Coq Require Import Permutation.
From Verif Require Import Base BaseLemmas ConfigModel ConfigSpec ConfigProofs.

(** Concrete parameters for the examples. *)
Definition x_full (l : list string) : string := String.concat "." l.
Definition x_snake (s : string) : string :=
  if String.eqb s "EchoFactory" then "echo_factory"%string
  else if String.eqb s "Blink" then "blink"%string else s.
Definition x_make (cls name : string) (i : nat) : option nat :=
  if Nat.eqb i 13 then None else Some (i + String.length name)%nat.
Definition x_serve (cls : string) (i : nat) : bool := negb (Nat.eqb i 13).
Definition x_task : string * (string * nat) := ("housekeeping"%string, ("ConnectionMetricsPoller"%string, 0%nat)).

(** ** C76: the first registration of a name wins *)
Section C76.
  Context {conn info : Type}.
  Context (full : list string -> string) (snake : string -> string).
  Context (make : string -> string -> info -> option conn) (serve : string -> info -> bool).
  Context (t : string * (string * info)).
  Notation run := (a_run full snake make serve (arb_init t)).
  Notation claims := (claims full snake make serve (arb_init t)).

  (** Whatever was called before, a name stands for what the first call that
      asked for it brought: the connection itself, or, if it was deferred, what
      the awaitable gave.  A name nobody asked for stands for nothing. *)
  Theorem C76_first_wins : forall ops n,
    let a := fst (run ops) in
    match dget n (claims ops) with
    | None => dget n (a_conns a) = None /\ dget n (a_defer a) = None
    | Some (Now c) => dget n (a_conns a) = Some c /\ dget n (a_defer a) = None
    | Some (Later r) =>
        dget n (a_defer a) = Some r /\
        (dget n (a_conns a) = None \/ (r <> None /\ dget n (a_conns a) = r))
    end.
  Proof.
    intros ops n. cbv zeta.
    destruct (run_inv full snake make serve ops (arb_init t) [] (ainv_init t)) as [H _].
    exact (H n).
  Qed.

  (** A call that gets as far as asking for a name returns True exactly if
      nobody asked for it before. *)
  Theorem C76_results : forall before op after n o,
    claim full make (fst (run before)) op = Some (n, o) ->
    nth_error (snd (run (before ++ op :: after))) (List.length before)
    = Some (RBool (negb (dmem n (claims before)))).
  Proof.
    intros before op after n o C.
    pose proof (run_inv full snake make serve before (arb_init t) [] (ainv_init t)) as I. cbn [app] in I.
    destruct (run_app full snake make serve before (op :: after) (arb_init t)) as (_ & -> & _).
    rewrite nth_error_app2; rewrite run_length; [|apply le_n]. rewrite Nat.sub_diag. cbn [a_run].
    pose proof (claim_result full snake make serve _ _ op n o I C) as R.
    destruct (a_step full snake make serve (fst (run before)) op) as [a1 r]. cbn [snd] in R. subst r.
    destruct (a_run full snake make serve a1 after). reflexivity.
  Qed.

  (** After the deferred connections were awaited successfully, every deferred
      connection asked for before is there, for good. *)
  Theorem C76_deferred : forall before after n r,
    snd (a_step full snake make serve (fst (run before)) AInit) = RBool true ->
    dget n (claims before) = Some (Later r) ->
    r <> None /\ dget n (a_conns (fst (run (before ++ AInit :: after)))) = r.
  Proof.
    intros before after n r T D.
    pose proof (run_inv full snake make serve before (arb_init t) [] (ainv_init t)) as I. cbn [app] in I.
    assert (H : dget n (a_defer (fst (run before))) = Some r).
    { destruct I as [I _]. specialize (I n). rewrite D in I. apply I. }
    destruct (init_all full snake make serve _ _ n r I T H) as [R C]. split; [exact R|].
    destruct r as [c|]; [|contradiction].
    destruct (run_app full snake make serve before (AInit :: after) (arb_init t)) as (-> & _).
    pose proof (step_inv full snake make serve _ _ AInit I) as I1. cbn [a_run].
    destruct (a_step full snake make serve (fst (run before)) AInit) as [a1 x]. cbn [fst] in *.
    pose proof (conns_mono_run full snake make serve after a1 _ n c I1 C) as M.
    destruct (a_run full snake make serve a1 after). exact M.
  Qed.

  (** The connections handed to the connection manager are those in the table,
      in order, and no name is in the table twice. *)
  Theorem C76_managed : forall ops,
    let a := fst (run ops) in
    a_queue a = dvals (a_conns a) /\ NoDup (dkeys (a_conns a)) /\ NoDup (dkeys (a_defer a)).
  Proof.
    intros ops. cbv zeta.
    destruct (run_inv full snake make serve ops (arb_init t) [] (ainv_init t)) as (_ & A & B & C & _). auto.
  Qed.

  (** Once deferred connections were awaited, awaiting them again raises, always
      (a coroutine cannot be awaited twice): an arbiter with deferred
      connections runs its application once. *)
  Theorem C76_again_refuted : forall before between n r,
    dget n (claims before) = Some (Later r) ->
    snd (a_step full snake make serve (fst (run (before ++ AInit :: between))) AInit) = RRaise.
  Proof.
    intros before between n r D.
    pose proof (run_inv full snake make serve before (arb_init t) [] (ainv_init t)) as I. cbn [app] in I.
    assert (H : dget n (a_defer (fst (run before))) = Some r).
    { destruct I as [I _]. specialize (I n). rewrite D in I. apply I. }
    apply spent_raises.
    destruct (run_app full snake make serve before (AInit :: between) (arb_init t)) as (-> & _). cbn [a_run].
    assert (Ne : a_defer (fst (run before)) <> []) by (intros E; rewrite E in H; discriminate).
    pose proof (spent_init full snake make serve _ Ne) as S.
    destruct (a_step full snake make serve (fst (run before)) AInit) as [a1 x]. cbn [fst] in S.
    pose proof (spent_run full snake make serve between a1 S) as S2.
    destruct (a_run full snake make serve a1 between). exact S2.
  Qed.
End C76.
Print Assumptions C76_first_wins.
Print Assumptions C76_results.
Print Assumptions C76_deferred.
Print Assumptions C76_managed.
Print Assumptions C76_again_refuted.

Local Definition x_run := a_run x_full x_snake x_make x_serve (arb_init x_task).
Local Definition x_ops : list (@aop nat nat) :=
  [ ARegister ["a"%string] (Now 1%nat); AFactory KConn "EchoFactory" ["ns"%string];
    AClient "echo_factory" "b" 5%nat true; ARegister ["a"%string] (Now 2%nat);
    ARegister ["ns"%string; "b"%string] (Now 3%nat); AClient "nobody" "c" 1%nat false; AInit ].
Example C76_example :
  claims x_full x_snake x_make x_serve (arb_init x_task) x_ops
    = [("a"%string, Now 1%nat); ("ns.b"%string, Later (Some 6%nat)); ("a"%string, Now 2%nat);
       ("ns.b"%string, Now 3%nat)] /\
  a_conns (fst (x_run x_ops)) = [("a"%string, 1%nat); ("ns.b"%string, 6%nat)] /\
  snd (x_run x_ops) = [RBool true; RBool true; RBool true; RBool false; RBool false; RBool false; RBool true].
Proof. vm_compute. auto. Qed.

(** Not every connection that is created is managed: [factory_client] creates the
    connection before it looks at the name; if the name is taken it returns
    False, and the open connection is in no table and was given to nobody. *)
Theorem C76_unmanaged_refuted : exists ops : list (@aop nat nat),
  let a := fst (x_run ops) in
  exists c, In c (a_made a) /\ ~ In c (a_queue a) /\ ~ In c (dvals (a_conns a)) /\ a_defer a = [].
Proof.
  exists [ AFactory KConn "EchoFactory" []; AClient "echo_factory" "b" 5%nat false;
           AClient "echo_factory" "b" 7%nat false ].
  vm_compute. exists 8%nat. intuition congruence.
Qed.
Print Assumptions C76_unmanaged_refuted.

(** ** C77: a configuration is registered entirely, or refused *)
Section C77.
  Context {conn info : Type}.
  Context (full : list string -> string) (snake : string -> string).
  Context (make : string -> string -> info -> option conn) (serve : string -> info -> bool).
  Context (imports : string -> option (fkind * string)).
  Context (t : string * (string * info)).
  Notation process g := (process_config full snake make serve imports g (arb_init t)).
  Notation valid := (valid full snake make serve imports (fst t)).

  (** A configuration is processed without an exception exactly if it is valid:
      every factory can be imported, no two factories of a kind share a name,
      every entry names a factory of its kind, what is not deferred can be
      created, and no two clients (full names), tasks, structs or processes share
      a name. *)
  Theorem C77_accepts : forall g, snd (process g) = true <-> exists es, valid g es.
  Proof.
    intros g. pose proof (process_ok full snake make serve imports t g) as H.
    destruct (process g) as [a ok]. apply H.
  Qed.

  (** Then everything in it, and nothing else, is registered, in order: clients
      under the namespaces of their factory, all else under its own name. *)
  Theorem C77_content : forall g es, valid g es ->
    let a := fst (process g) in
    a_conns a = flat_map (clients_now full snake make es) (g_clients g) /\
    a_defer a = flat_map (clients_later full snake make es) (g_clients g) /\
    a_servers a = map (fun s => (class_of snake KConn es (fst s), snd s)) (g_servers g) /\
    a_tasks a = t :: map (object_of snake KTask es) (g_tasks g) /\
    a_structs a = map (object_of snake KStruct es) (g_structs g) /\
    a_peers a = map (object_of snake KPeer es) (g_procs g).
  Proof.
    intros g es V. cbv zeta. pose proof (process_ok full snake make serve imports t g) as H.
    destruct (process g) as [a ok]. destruct H as [H1 H2].
    assert (T : ok = true) by (apply H1; exists es; exact V).
    destruct (H2 es T V) as (A & B & _ & C & D & E & F). cbn [fst]. repeat split; assumption.
  Qed.
End C77.
Print Assumptions C77_accepts.
Print Assumptions C77_content.

Local Definition x_imports (p : string) : option (fkind * string) :=
  if String.eqb p "pkg.EchoFactory" then Some (KConn, "EchoFactory"%string)
  else if String.eqb p "pkg.Blink" then Some (KTask, "Blink"%string)
  else if String.eqb p "pkg.Box" then Some (KStruct, "Box"%string)
  else if String.eqb p "pkg.Prog" then Some (KPeer, "Prog"%string)
  else if String.eqb p "other.Blink" then Some (KTask, "Blink"%string) else None.
Local Definition x_config : @config nat :=
  mkConfig [("pkg.EchoFactory"%string, ["net"%string]); ("pkg.Blink"%string, []);
            ("pkg.EchoFactory"%string, []); ("pkg.Box"%string, []); ("pkg.Prog"%string, [])]
    [("echo_factory"%string, "a"%string, 1%nat, false); ("EchoFactory"%string, "b"%string, 2%nat, true)]
    [("echo_factory"%string, 4%nat)]
    [("blink"%string, "led"%string, 7%nat)] [("Box"%string, "box"%string, 8%nat)]
    [("Prog"%string, "proc"%string, 9%nat)].
Local Definition x_process g := process_config x_full x_snake x_make x_serve x_imports g (arb_init x_task).
Example C77_example :
  snd (x_process x_config) = true /\
  let a := fst (x_process x_config) in
  a_conns a = [("net.a"%string, 2%nat)] /\ a_defer a = [("net.b"%string, Some 3%nat)] /\
  a_servers a = [("EchoFactory"%string, 4%nat)] /\
  a_tasks a = [x_task; ("led"%string, ("Blink"%string, 7%nat))] /\
  a_structs a = [("box"%string, ("Box"%string, 8%nat))] /\
  a_peers a = [("proc"%string, ("Prog"%string, 9%nat))] /\
  snd (x_process (mkConfig [("pkg.Blink"%string, []); ("other.Blink"%string, [])] [] [] [] [] [])) = false.
Proof. vm_compute. repeat split. Qed.

(** Every file is loaded once, in the order of first mention; loading fails
    exactly if one is not found. *)
Theorem C77_files : forall direct packaged pkgs paths,
  (forall fs, Forall2 (fun p f => locate direct packaged pkgs p = Some f) paths fs ->
     load_files direct packaged pkgs [] paths = Some (rev (nodup string_dec (rev fs)))) /\
  (load_files direct packaged pkgs [] paths = None <->
     exists p, In p paths /\ locate direct packaged pkgs p = None).
Proof.
  intros direct packaged pkgs paths. rewrite load_files_ok. split.
  - intros fs F.
    assert (H : forallb (fun p => match locate direct packaged pkgs p with Some _ => true | None => false end) paths = true
                /\ flat_map (fun p => match locate direct packaged pkgs p with Some f => [f] | None => [] end) paths = fs).
    { induction F as [|p f paths fs E F IH]; cbn; [auto|]. rewrite E. destruct IH as [-> ->]. auto. }
    destruct H as [-> ->]. f_equal. exact (fold_once fs []).
  - destruct (forallb _ paths) eqn:E.
    + split; [discriminate|]. intros (p & I & L). rewrite forallb_forall in E. specialize (E p I).
      rewrite L in E. discriminate.
    + split; [|reflexivity]. intros _. induction paths as [|p paths IH]; [discriminate|]. cbn in E.
      destruct (locate direct packaged pkgs p) eqn:L; [|exists p; split; [left; reflexivity|exact L]].
      destruct (IH E) as (q & Q & LQ). exists q. split; [right; exact Q|exact LQ].
Qed.
Print Assumptions C77_files.

(** A path itself is tried first, then the packages in order: the first that has
    the file. *)
Theorem C77_search_order : forall direct packaged pkgs path f,
  locate direct packaged pkgs path = Some f <->
  direct path = Some f \/
  (direct path = None /\ exists before p after, pkgs = before ++ p :: after /\
     packaged p path = Some f /\ forall q, In q before -> packaged q path = None).
Proof.
  intros direct packaged pkgs path f. unfold locate. destruct (direct path) as [g|].
  { split; [intros E; left; exact E|intros [E|[E _]]; [exact E|discriminate]]. }
  induction pkgs as [|p pkgs IH]; cbn [search_pkgs].
  { split; [discriminate|]. intros [E|(_ & before & p & after & E & _)]; [discriminate|].
    destruct before; discriminate. }
  destruct (packaged p path) as [g|] eqn:P.
  - split.
    + intros [= ->]. right. split; [reflexivity|]. exists [], p, pkgs. split; [reflexivity|].
      split; [exact P|]. intros q [].
    + intros [E|(_ & before & q & after & E & Q & N)]; [discriminate|]. destruct before as [|x before].
      * injection E as -> ->. congruence.
      * injection E as -> ->. specialize (N x (or_introl eq_refl)). congruence.
  - rewrite IH. split.
    + intros [E|(_ & before & q & after & E & Q & N)]; [discriminate|]. right. split; [reflexivity|].
      exists (p :: before), q, after. subst pkgs. split; [reflexivity|]. split; [exact Q|].
      intros x [<-|X]; [exact P|apply N; exact X].
    + intros [E|(_ & before & q & after & E & Q & N)]; [discriminate|]. right. split; [reflexivity|].
      destruct before as [|x before]; injection E as -> E; [congruence|].
      exists before, q, after. split; [exact E|]. split; [exact Q|]. intros y Y. apply N. right. exact Y.
Qed.
Print Assumptions C77_search_order.

Example C77_files_example :
  load_files (fun p => if String.eqb p "x" then Some "/x"%string else None)
             (fun k p => if String.eqb k "two" then Some ("/two/" ++ p)%string else None)
             ["one"%string; "two"%string] [] ["y"%string; "x"%string; "y"%string]
  = Some ["/two/y"%string; "/x"%string].
Proof. vm_compute. reflexivity. Qed.

(** A package added in front ([front=True], the default) comes last in the
    search, and one added with [front=False] first: for every new package and
    every non-empty search path. *)
Theorem C77_front_refuted : forall clean pkgs name, ~ In (clean name) pkgs -> pkgs <> [] ->
  add_search_package clean pkgs name true = pkgs ++ [clean name] /\
  add_search_package clean pkgs name true <> clean name :: pkgs /\
  add_search_package clean pkgs name false = clean name :: pkgs.
Proof.
  intros clean pkgs name N E. unfold add_search_package, list_adder.
  destruct (existsb (String.eqb (clean name)) pkgs) eqn:X; [apply existsb_In in X; contradiction|].
  split; [reflexivity|]. split; [|reflexivity]. destruct pkgs as [|p pkgs]; [contradiction|].
  intros [= -> _]. apply N. left. reflexivity.
Qed.
Print Assumptions C77_front_refuted.
Example C77_front_example :
  add_search_package (fun s => s) ["runtimepy"%string] "mine" true = ["runtimepy"%string; "mine"%string].
Proof. reflexivity. Qed.

(** ** C78: a started application has what its configuration says *)
Section C78.
  Context {conn info : Type}.
  Context (full : list string -> string) (snake : string -> string).
  Context (make : string -> string -> info -> option conn) (serve : string -> info -> bool).
  Context (imports : string -> option (fkind * string)) (greets : string -> bool).
  Context (t : string * (string * info)).
  Notation process g := (process_config full snake make serve imports g (arb_init t)).
  Notation valid := (valid full snake make serve imports (fst t)).

  Lemma client_names es (l : list (string * string * info * bool)) :
    Forall (client_ok snake make es) l ->
    Permutation (map (client_name full snake es) l)
      (map fst (flat_map (clients_now full snake make es) l)
       ++ map fst (flat_map (clients_later full snake make es) l)).
  Proof.
    induction 1 as [|c l H F IH]; [constructor|]. cbn [map flat_map]. rewrite !map_app.
    destruct c as [[[factory name] args] defer]. destruct H as (f & E & M).
    unfold clients_now at 1, clients_later at 1. rewrite E. destruct defer.
    - cbn [map fst app]. apply Permutation_cons_app. exact IH.
    - destruct (make (f_class f) name args) as [k|]; [|exfalso; apply M; reflexivity].
      cbn [map fst app]. constructor. exact IH.
  Qed.

  (** The application starts exactly if the deferred connections can be made and
      no two environments have the same name; then every connection, struct, task
      and answering process has its environment, registered under its name, and
      there are no others. *)
  Theorem C78_start : forall g es, valid g es -> forall d,
    snd (start greets (fst (process g))) = Some d <->
    (forall n r, In (n, r) (flat_map (clients_later full snake make es) (g_clients g)) -> r <> None) /\
    NoDup (map fst (config_envs full snake make greets (fst t) g es)) /\
    d = config_envs full snake make greets (fst t) g es.
  Proof.
    intros g es V d. pose proof (process_ok full snake make serve imports t g) as H.
    destruct (process g) as [a ok]. destruct H as [H1 H2].
    assert (T : ok = true) by (apply H1; exists es; exact V).
    destruct (H2 es T V) as (A & B & W & _ & C & D & E). cbn [fst].
    destruct V as (_ & _ & V3 & V4 & _ & _ & _ & _ & _ & _ & V11).
    assert (Ob : forall k l, map fst (map (object_of snake k es) l) = map (@entry_name info) l).
    { intros k l. rewrite map_map. apply map_ext. intros [[x y] z]. reflexivity. }
    assert (S : envs_of greets a = config_envs full snake make greets (fst t) g es).
    { unfold envs_of, config_envs, dkeys. rewrite A, B, C, D, E, !Ob. cbn [map]. rewrite Ob. reflexivity. }
    rewrite <- S.
    assert (M : all_made (a_defer a) = true <->
       forall n r, In (n, r) (flat_map (clients_later full snake make es) (g_clients g)) -> r <> None).
    { rewrite <- B. unfold all_made. rewrite forallb_forall. split.
      - intros X n r I. specialize (X (n, r) I). cbn in X. destruct r; congruence.
      - intros X [n r] I. specialize (X n r I). cbn. destruct r; congruence. }
    rewrite <- M. apply start_ok; [rewrite E, Ob; exact V11|exact W|].
    unfold dkeys. rewrite A, B. eapply Permutation_NoDup; [|exact V4]. apply client_names. exact V3.
  Qed.
End C78.
Print Assumptions C78_start.

Example C78_example : exists es,
  valid x_full x_snake x_make x_serve x_imports "housekeeping" x_config es /\
  snd (start (fun _ => true) (fst (x_process x_config)))
  = Some [("proc.host"%string, EHost "proc"); ("proc.peer"%string, EPeer "proc");
          ("net.a"%string, EConn "net.a"); ("net.b"%string, EConn "net.b");
          ("box"%string, EStruct "box"); ("housekeeping"%string, ETask "housekeeping");
          ("led"%string, ETask "led")].
Proof.
  destruct (proj1 (C77_accepts x_full x_snake x_make x_serve x_imports x_task x_config)
              ltac:(vm_compute; reflexivity)) as [es V].
  exists es. split; [exact V|]. vm_compute. reflexivity.
Qed.

(** So a valid configuration need not start: names are only checked within a
    kind, and a connection and a task of the same name (or any two of different
    kinds) stop the application with an AssertionError. *)
Theorem C78_shared_name_refuted : exists (g : @config nat) es,
  valid x_full x_snake x_make x_serve x_imports "housekeeping" g es /\
  g_clients g = [("EchoFactory"%string, "x"%string, 1%nat, false)] /\
  g_tasks g = [("Blink"%string, "x"%string, 1%nat)] /\
  snd (start (fun _ => true) (fst (x_process g))) = None.
Proof.
  set (g := mkConfig [("pkg.EchoFactory"%string, []); ("pkg.Blink"%string, [])]
    [("EchoFactory"%string, "x"%string, 1%nat, false)] [] [("Blink"%string, "x"%string, 1%nat)] [] []).
  destruct (proj1 (C77_accepts x_full x_snake x_make x_serve x_imports x_task g)
              ltac:(vm_compute; reflexivity)) as [es V].
  exists g, es. split; [exact V|]. split; [reflexivity|]. split; [reflexivity|]. vm_compute. reflexivity.
Qed.
Print Assumptions C78_shared_name_refuted.

(** Searching gives exactly the connections of the kind that have a name that
    was found, and, for the default pattern, those of the manager; those of the
    manager that had no such name once each. *)
Theorem C78_search : forall (conn : Type) (CD : EqDec conn) (kind : conn -> bool) table found dflt managed,
  (forall n, In n found -> dget n table <> None) ->
  exists l, search kind table found dflt managed = Some l /\
    (forall c, In c l <-> kind c = true /\
       ((exists n, In n found /\ dget n table = Some c) \/ (dflt = true /\ In c managed))) /\
    (NoDup (flat_map (fun n => match dget n table with Some c => [c] | None => [] end) found) -> NoDup l).
Proof.
  intros conn CD kind table found dflt managed H.
  destruct (by_names_ok kind table found H) as (l & E & L). unfold search. rewrite E.
  eexists. split; [reflexivity|].
  assert (I : forall c, In c l <-> kind c = true /\ exists n, In n found /\ dget n table = Some c).
  { intros c. rewrite L, filter_In, in_flat_map. split.
    - intros [(n & N & X) K]. split; [exact K|]. exists n. split; [exact N|].
      destruct (dget n table); [|destruct X]. destruct X as [->|[]]. reflexivity.
    - intros [K (n & N & X)]. split; [|exact K]. exists n. split; [exact N|]. rewrite X. left. reflexivity. }
  destruct (by_manager_ok kind managed l) as [N M]. split.
  - intros c. rewrite in_app_iff, I. destruct dflt; cbn [In].
    + rewrite M, I. destruct (in_dec eq_dec c l) as [X|X].
      * apply I in X. tauto.
      * assert (~ (kind c = true /\ exists n, In n found /\ dget n table = Some c)) by (rewrite <- I; exact X).
        tauto.
    + split; [tauto|]. intros [K [X|[X _]]]; [tauto|discriminate].
  - intros ND. assert (NL : NoDup l) by (rewrite L; apply NoDup_filter; exact ND).
    destruct dflt; [|rewrite app_nil_r; exact NL].
    assert (Dj : forall c, In c l -> ~ In c (by_manager kind l managed)).
    { intros c X Y. apply M in Y. tauto. }
    clear - NL N Dj. revert N Dj. generalize (by_manager kind l managed) as m. intros m N Dj.
    induction NL as [|x l X NL IH]; [exact N|]. cbn. constructor.
    + rewrite in_app_iff. intros [Y|Y]; [contradiction|]. apply (Dj x); [left; reflexivity|exact Y].
    + apply IH. intros c Y. apply Dj. right. exact Y.
Qed.
Print Assumptions C78_search.

(** [single] gives a connection exactly if the search gives that one alone. *)
Theorem C78_single : forall (conn : Type) (CD : EqDec conn) (kind : conn -> bool) table found dflt managed c,
  single kind table found dflt managed = Some c <-> search kind table found dflt managed = Some [c].
Proof.
  intros conn CD kind table found dflt managed c. unfold single.
  destruct (search kind table found dflt managed) as [[|x [|y l]]|]; split; congruence.
Qed.
Print Assumptions C78_single.
Example C78_search_example :
  search (fun c => Nat.even c) [("a"%string, 2%nat); ("b"%string, 3%nat)] ["a"%string; "b"%string] true
    [2%nat; 4%nat; 5%nat; 4%nat] = Some [2%nat; 4%nat] /\
  single (fun c => Nat.even c) [("a"%string, 2%nat); ("b"%string, 3%nat)] ["a"%string; "b"%string] false [4%nat]
  = Some 2%nat.
Proof. vm_compute. auto. Qed.

(** A connection registered under two names is the only one of its kind, and yet
    is given twice, so [single] fails. *)
Theorem C78_two_names_refuted : exists (table : list (string * nat)) found,
  (forall n, In n found -> dget n table = Some 2%nat) /\
  search (fun _ => true) table found true [2%nat] = Some [2%nat; 2%nat] /\
  single (fun _ => true) table found true [2%nat] = None.
Proof.
  exists [("a"%string, 2%nat); ("b"%string, 2%nat)], ["a"%string; "b"%string]. vm_compute.
  split; [|auto]. intros n [<-|[<-|[]]]; reflexivity.
Qed.
Print Assumptions C78_two_names_refuted.

(** The configuration an application gets back is the one that was loaded. *)
Theorem C78_original : forall (value : Type) (items : list (string * value)) data d,
  NoDup (dkeys data) -> dget "config" data = Some (CDict d) -> NoDup (dkeys d) ->
  forall key, dget key (original_config (load_data items data)) = dget key data.
Proof.
  intros value items data d N D Nd key. unfold original_config, load_data. rewrite D.
  cbn [ac_root ac_items]. rewrite fold_skip_get by exact N. cbn [dget].
  rewrite (fold_dset_id d []) by exact Nd. cbn [app].
  destruct (String.eqb_spec key "config") as [->|Ne].
  - rewrite D. destruct (eq_dec "config"%string "config"%string); [reflexivity|contradiction].
  - destruct (eq_dec key "config"%string); [contradiction|]. destruct (dget key data); reflexivity.
Qed.
Print Assumptions C78_original.

(** A parameter is looked up in the "config" part of what was loaded. *)
Theorem C78_param : forall (value : Type) (items : list (string * value)) data d key default,
  dget "config" data = Some (CDict d) ->
  config_param (load_data items data) key default
  = Some (match dget key d with Some v => v | None => default end).
Proof.
  intros value items data d key default D. unfold config_param, load_data. rewrite D. cbn [ac_root].
  rewrite D. destruct (dget key d); reflexivity.
Qed.
Print Assumptions C78_param.
Local Definition x_data : list (string * @cval nat) :=
  [("tasks"%string, CLeaf 1%nat); ("config"%string, CDict [("depth"%string, 4%nat)])].
Example C78_data_example :
  dget "tasks" (original_config (load_data [] x_data)) = Some (CLeaf 1%nat) /\
  config_param (load_data [] x_data) "depth" 9%nat = Some 4%nat /\
  config_param (load_data [] x_data) "width" 9%nat = Some 9%nat.
Proof. vm_compute. auto. Qed.

(** But not every configuration an application can have supports this: one
    handed to the arbiter directly has no "root", and every lookup raises
    KeyError, even of a key that is there; and if the loaded data has no "config"
    part, the configuration handed over is in force but its parameters are not
    found. *)
Theorem C78_param_refuted :
  (forall (value : Type) (items : list (string * value)) key default,
     config_param (mkAppCfg items None) key default = None) /\
  (forall (value : Type) (items : list (string * value)) data key default,
     dget "config" data = None ->
     ac_items (load_data items data) = items /\
     config_param (load_data items data) key default = Some default).
Proof.
  split; [reflexivity|]. intros value items data key default D.
  unfold config_param, load_data. rewrite D. cbn [ac_root ac_items]. rewrite D. auto.
Qed.
Print Assumptions C78_param_refuted.
