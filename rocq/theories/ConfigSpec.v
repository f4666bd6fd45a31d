(** Specification vocabulary for C76 to C78. *)
From Verif Require Import Base ConfigModel.

Section Spec.
  Context {conn info : Type}.
  Context (full : list string -> string) (snake : string -> string).
  Context (make : string -> string -> info -> option conn) (serve : string -> info -> bool).
  Context (imports : string -> option (fkind * string)).

  (** The name an operation asks for and the object it brings, if it gets that
      far. *)
  Definition claim (a : @arb conn info) (o : aop) : option (string * @object conn) :=
    match o with
    | ARegister names x => Some (full names, x)
    | AClient factory name args defer =>
        match dget factory (a_cfacs a) with
        | None => None
        | Some f =>
            let n := full (f_spaces f ++ [name]) in
            if defer then Some (n, Later (make (f_class f) name args)) else
            match make (f_class f) name args with Some c => Some (n, Now c) | None => None end
        end
    | _ => None
    end.
  (** All claims of a history, in order. *)
  Fixpoint claims (a : arb) (ops : list aop) : list (string * object) :=
    match ops with
    | [] => []
    | o :: ops' =>
        (match claim a o with Some c => [c] | None => [] end)
        ++ claims (fst (a_step full snake make serve a o)) ops'
    end.

  (** Two classes whose factories cannot both be registered. *)
  Definition clash (c1 c2 : string) : Prop :=
    c1 = c2 \/ c1 = snake c2 \/ snake c1 = c2 \/ snake c1 = snake c2.

  (** The factories of a configuration: the first entry of each module path. *)
  Fixpoint once (seen : list string) (l : list (string * list string)) : list (string * list string) :=
    match l with
    | [] => []
    | (p, s) :: l' => if in_dec string_dec p seen then once seen l' else (p, s) :: once (p :: seen) l'
    end.
  Definition import_entry (e : string * list string) : option (fkind * fac) :=
    match imports (fst e) with Some (k, cls) => Some (k, mkFac cls (snd e)) | None => None end.
  Fixpoint entries (l : list (string * list string)) : option (list (fkind * fac)) :=
    match l with
    | [] => Some []
    | e :: l' =>
        match import_entry e, entries l' with Some x, Some xs => Some (x :: xs) | _, _ => None end
    end.
  Definition kind_eqb (a b : fkind) : bool :=
    match a, b with
    | KConn, KConn | KTask, KTask | KStruct, KStruct | KPeer, KPeer => true
    | _, _ => false
    end.
  (** The factory of a kind that is called [n], by its class or in snake case. *)
  Fixpoint named (k : fkind) (n : string) (es : list (fkind * fac)) : option fac :=
    match es with
    | [] => None
    | (k', f) :: es' =>
        if kind_eqb k k' && (String.eqb n (f_class f) || String.eqb n (snake (f_class f)))
        then Some f else named k n es'
    end.

  (** The full name of a client. *)
  Definition client_name (es : list (fkind * fac)) (c : string * string * info * bool) : string :=
    let '(factory, name, _, _) := c in
    match named KConn factory es with Some f => full (f_spaces f ++ [name]) | None => name end.
  Definition entry_name (e : string * string * info) : string := snd (fst e).
  Definition known (k : fkind) (es : list (fkind * fac)) (e : string * string * info) : Prop :=
    named k (fst (fst e)) es <> None.

  (** A configuration that can be processed; [t] is a task name that is taken. *)
  Definition valid (t : string) (g : config) (es : list (fkind * fac)) : Prop :=
    entries (once [] (g_facs g)) = Some es /\
    ForallOrdPairs (fun x y => fst x = fst y -> ~ clash (f_class (snd x)) (f_class (snd y))) es /\
    Forall (fun c => let '(factory, name, args, defer) := c in
              exists f, named KConn factory es = Some f /\
                        (defer = false -> make (f_class f) name args <> None)) (g_clients g) /\
    NoDup (map (client_name es) (g_clients g)) /\
    Forall (fun s => exists f, named KConn (fst s) es = Some f /\ serve (f_class f) (snd s) = true)
           (g_servers g) /\
    Forall (known KTask es) (g_tasks g) /\ NoDup (t :: map entry_name (g_tasks g)) /\
    Forall (known KStruct es) (g_structs g) /\ NoDup (map entry_name (g_structs g)) /\
    Forall (known KPeer es) (g_procs g) /\ NoDup (map entry_name (g_procs g)).

  (** What the entries stand for. *)
  Definition clients_now (es : list (fkind * fac)) (c : string * string * info * bool)
    : list (string * conn) :=
    let '(factory, name, args, defer) := c in
    match named KConn factory es with
    | Some f =>
        if defer then [] else
        match make (f_class f) name args with Some k => [(client_name es c, k)] | None => [] end
    | None => []
    end.
  Definition clients_later (es : list (fkind * fac)) (c : string * string * info * bool)
    : list (string * option conn) :=
    let '(factory, name, args, defer) := c in
    match named KConn factory es with
    | Some f => if defer then [(client_name es c, make (f_class f) name args)] else []
    | None => []
    end.
  Definition class_of (k : fkind) (es : list (fkind * fac)) (factory : string) : string :=
    match named k factory es with Some f => f_class f | None => factory end.
  Definition object_of (k : fkind) (es : list (fkind * fac)) (e : string * string * info)
    : string * (string * info) :=
    let '(factory, name, i) := e in (name, (class_of k es factory, i)).
End Spec.

(** The environments of the processes that answered. *)
Definition peer_envs (greets : string -> bool) (ps : list string) : list (string * owner) :=
  flat_map (fun p => if greets p
                     then [((p ++ ".host")%string, EHost p); ((p ++ ".peer")%string, EPeer p)]
                     else []) ps.

(** The environments of a started configuration: of the processes that
    answered, of the connections (deferred ones last), of the structs and of the
    tasks ([t] first), each under its own name. *)
Definition config_envs {conn info : Type} (full : list string -> string) (snake : string -> string)
  (make : string -> string -> info -> option conn) (greets : string -> bool)
  (t : string) (g : @config info) (es : list (fkind * fac)) : list (string * owner) :=
  peer_envs greets (map entry_name (g_procs g))
  ++ map (fun n => (n, EConn n))
         (map fst (flat_map (clients_now full snake make es) (g_clients g))
          ++ map fst (flat_map (clients_later full snake make es) (g_clients g)))
  ++ map (fun n => (n, EStruct n)) (map entry_name (g_structs g))
  ++ map (fun n => (n, ETask n)) (t :: map entry_name (g_tasks g)).
