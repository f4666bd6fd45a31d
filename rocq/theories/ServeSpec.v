(** Vocabulary for the HTTP server. *)
From Verif Require Import Base PyStrModel ServeModel.
Open Scope list_scope.
Open Scope Z_scope.

(** A name of a file or directory. *)
Definition is_name (x : str) : Prop := x <> [] /\ x <> lit "." /\ x <> lit ".." /\ ~ In 47 x.
(** Search directories are resolved when they are added. *)
Definition resolved (p : path) : Prop := p_root p = 1%nat /\ Forall is_name (p_parts p).
(** The location lies in (or is) the directory. *)
Definition beneath (dir : path) (loc : list str) : Prop := exists rest, loc = p_parts dir ++ rest.
(** ".." never leads out of where one started, [n] directories down. *)
Fixpoint stays (n : nat) (l : list str) : Prop :=
  match l with
  | [] => True
  | c :: l => if str_eqb c (lit "..") then match n with O => False | S n => stays n l end else stays (S n) l
  end.
(** The components of a request: empty ones and "." mean nothing. *)
Definition components (s : str) : list str := filter (fun x => negb (str_eqb x []) && negb (str_eqb x (lit "."))) (split_on 47 s).
(** A request for something that does not try to leave: it does not begin with two
    slashes, ".." does not lead out, and it names something. *)
Definition harmless (p : str) : Prop := exists rest, p = lit "/" ++ rest /\ (forall r, rest <> lit "/" ++ r) /\ stays 0 (components rest) /\ components rest <> [].
(** The file is there, with all directories on the way. *)
Definition is_file (fs : fsys) (loc : list str) (c : list Z) : Prop :=
  fs loc = Some (File c) /\ forall pre x post, loc = pre ++ x :: post -> fs pre = Some Dir.
(** The request for a list of names. *)
Definition request (names : list str) : str := lit "/" ++ join 47 names.
(** The markdown file with the same name, up to the suffix. *)
Definition markdown_of (loc : list str) : list str := removelast loc ++ [stem (last loc []) ++ lit ".md"].

(** ** Data *)
(** The keys lead to the data; what can be called is called on the way. *)
Inductive leads (d : jdata) : list str -> jdata -> Prop :=
| leads_here : leads d [] d
| leads_key keys x l k y : leads d keys x -> jcall x = JDict l -> In (k, y) l -> leads d (keys ++ [k]) y.
Definition is_dict (d : jdata) : Prop := exists l, jcall d = JDict l.
(** Dictionaries have every key once. *)
Definition sane (d : jdata) : Prop := forall keys x l, leads d keys x -> jcall x = JDict l -> NoDup (map fst l).
