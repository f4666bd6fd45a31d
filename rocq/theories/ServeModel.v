(** The HTTP server: which file, redirect, data or application a GET request is
    answered with. *)
From Verif Require Import Base PyStrModel.
Open Scope list_scope.
Open Scope Z_scope.

Definition slash : Z := 47.
(** ** pathlib (POSIX): [Path(s)] *)
Definition meaningful (p : str) : bool := negb (str_eqb p []) && negb (str_eqb p (lit ".")).
Definition parts_of (s : str) : list str := filter meaningful (split_on slash s).
(** Root: "" (0), "/" (1) or "//" (2). *)
Definition root_of (s : str) : nat :=
  match s with
  | a :: b :: c :: _ => if a =? slash then if (b =? slash) && negb (c =? slash) then 2%nat else 1%nat else 0%nat
  | [a; b] => if a =? slash then if b =? slash then 2%nat else 1%nat else 0%nat
  | [a] => if a =? slash then 1%nat else 0%nat
  | [] => 0%nat
  end.
Record path := mkPath { p_root : nat; p_parts : list str }.
Definition path_of (s : str) : path := mkPath (root_of s) (parts_of s).
(** [p.joinpath(s)]: an absolute [s] replaces [p]. *)
Definition joinpath (p : path) (s : str) : path :=
  match root_of s with
  | O => mkPath (p_root p) (p_parts p ++ parts_of s)
  | r => mkPath r (parts_of s)
  end.
(** [p.suffix] and [p.with_suffix], for the last part of a path. *)
Fixpoint last_dot (s : str) : option nat :=
  match s with
  | [] => None
  | c :: s => match last_dot s with Some n => Some (S n) | None => if c =? 46 then Some 0%nat else None end
  end.
Definition stem (name : str) : str :=
  match last_dot name with
  | Some n => if Nat.ltb 0 n && Nat.ltb n (List.length name - 1) then firstn n name else name
  | None => name
  end.
Definition with_suffix (p : path) (suffix : str) : path :=
  mkPath (p_root p) (removelast (p_parts p) ++ [stem (last (p_parts p) []) ++ suffix]).

(** ** The file system: directories and files, no symbolic links.  A location is
    the list of names from the root directory. *)
Inductive node := File (content : list Z) | Dir.
Definition fsys := list str -> option node.
(** How the operating system resolves a path: ".." is the parent directory, and
    everything that is passed must be a directory. *)
Fixpoint walk (fs : fsys) (cur : list str) (l : list str) : option (list str) :=
  match l with
  | [] => Some cur
  | c :: l =>
      match fs cur with
      | Some Dir => if str_eqb c (lit "..") then walk fs (removelast cur) l else walk fs (cur ++ [c]) l
      | _ => None
      end
  end.
Definition file_at (fs : fsys) (p : path) : option (list str * list Z) :=
  match walk fs [] (p_parts p) with
  | Some loc => match fs loc with Some (File c) => Some (loc, c) | _ => None end
  | None => None
  end.

(** ** Responses *)
Inductive answer :=
| Favicon
| Served (loc : list str) (content : list Z)
| Rendered (loc : list str) (content : list Z)      (* markdown as HTML *)
| Redirected (dest : str)
| Json (keys : list str)
| AppPage (name : str)
| Raises.

(** net/server/__init__.py:164-200 [try_file]; [encoded] is what
    mimetypes.guess_type says about a compressed file. *)
Fixpoint try_file (fs : fsys) (encoded : str -> bool) (paths : list path) (p : str) : option answer :=
  match paths with
  | [] => None
  | search :: paths =>
      let candidate := joinpath search (tl p) in
      let md := if (match p_parts candidate with [] => true | _ => false end) then None else file_at fs (with_suffix candidate (lit ".md")) in
      match md with
      | Some (loc, c) => Some (Rendered loc c)
      | None =>
          match file_at fs candidate with
          | Some (loc, c) => Some (if encoded (last (p_parts candidate) []) then Raises else Served loc c)
          | None => try_file fs encoded paths p
          end
      end
  end.

Definition path_eqb (a b : path) : bool :=
  Nat.eqb (p_root a) (p_root b) && (fix eqb (l m : list str) := match l, m with [], [] => true | x :: l, y :: m => str_eqb x y && eqb l m | _, _ => false end) (p_parts a) (p_parts b).
Fixpoint lookup (p : path) (l : list (path * str)) : option str :=
  match l with [] => None | (q, d) :: l => if path_eqb p q then Some d else lookup p l end.
(** net/server/__init__.py:123-137 [try_redirect]. *)
Definition try_redirect (redirects : list (path * str)) (p : str) : option answer :=
  option_map Redirected (lookup (path_of p) redirects).

(** util.py:49-53 and 56-69. *)
Definition path_has_part (p : str) (key : str) : bool := existsb (str_eqb key) (tl (split_on slash p)).
Fixpoint after_key (key : str) (l : list str) : list str :=
  match l with [] => [] | x :: l => if str_eqb x key then l else after_key key l end.
Definition parse_path_parts (p : str) (key : str) : list str := after_key key (tl (split_on slash p)).

Fixpoint prefix (a s : str) : bool :=
  match a, s with [], _ => true | x :: a, y :: s => (x =? y) && prefix a s | _, _ => false end.
(** net/server/__init__.py:249-304 [get_handler] for a request in origin form;
    net/server/html.py:43 for the applications.  An application is assumed to
    render something. *)
Record server := mkServer {
  sv_paths : list path; sv_redirects : list (path * str); sv_apps : list str; sv_default : bool
}.
Definition get_handler (fs : fsys) (encoded : str -> bool) (sv : server) (p : str) : answer :=
  if prefix (lit "/favicon") p then Favicon
  else match try_file fs encoded (sv_paths sv) p with
       | Some a => a
       | None =>
           match try_redirect (sv_redirects sv) p with
           | Some a => a
           | None =>
               if path_has_part p (lit "json") then Json (parse_path_parts p (lit "json"))
               else if existsb (str_eqb p) (sv_apps sv) || sv_default sv then AppPage p
               else Redirected (lit "/404.html")
           end
       end.
(** net/http/request_target.py:43-48: the path of a request target. *)
Definition target_path (raw : str) : str := hd [] (split_on 63 raw).

(** ** Data queries *)
(** JSON-like data; a callable yields data when it is called. *)
Inductive jdata := JLeaf (v : Z) | JDict (d : list (str * jdata)) | JCall (d : jdata).
Fixpoint jget (k : str) (d : list (str * jdata)) : option jdata :=
  match d with [] => None | (k', v) :: d => if str_eqb k k' then Some v else jget k d end.
Definition jcall (d : jdata) : jdata := match d with JCall x => x | _ => d end.
(** The result: data, or the error report with the part and the path up to it. *)
Inductive jresult := Found (d : jdata) | NotDict (part current : str) | NoKey (part current : str).
(** net/server/json.py:31-68 [traverse_dict]. *)
Fixpoint traverse (data : jdata) (curr : list str) (paths : list str) : jresult :=
  match paths with
  | [] => Found (jcall data)
  | part :: paths =>
      match part with
      | [] => traverse data curr paths
      | _ =>
          let curr := curr ++ [part] in
          match jcall data with
          | JDict d =>
              match jget part d with
              | Some x => traverse x curr paths
              | None => NoKey part (join 46 curr)
              end
          | _ => NotDict part (join 46 curr)
          end
      end
  end.
Definition traverse_dict (data : jdata) (paths : list str) : jresult := traverse data [] paths.
