(** Model of runtimepy/net/server/app/__init__.py (the application that sets up the web
    server) with RuntimepyServerConnection.add_redirect_path (net/server/__init__.py:
    66-77) and normalize_root (util.py:26-32).

    What it registers is kept in attributes of the class, so it outlives the connections
    and the application.  [resolves] says whether the method named in the configuration
    can be imported; [have] whether the program xdg-open exists.  Simplifications:
    vcorelib's normalize makes a pathlib path of a string; values in the configuration
    have the types the code expects; an application is represented by what it was made
    of. *)
From Verif Require Import Base PyStrModel ServeModel SrvCmdModel.
Open Scope list_scope.

Inductive web_app := HtmlApp (method : str) | LandingPage.
Record table := mkTable { tb_apps : list (str * web_app); tb_redirects : list (path * str) }.
(** The parts of the configuration that are used; None where a key is missing. *)
Record config := mkConfig {
  c_method : option str; c_app_paths : option (list str); c_redirects : option (list (str * str));
  c_landing : option (option (list str)); c_open_http : option bool; c_open_https : option bool;
  c_host : option str; c_fragment : option str; c_ports : option (list (str * Z))
}.
(** arbiter/info.py:308-319 [config_param]. *)
Definition param {A} (x : option A) (default : A) : A := match x with Some v => v | None => default end.
Definition DEFAULT_METHOD : str := lit "runtimepy.net.server.app.env.channel_environments".

(** util.py:26-32. *)
Definition normalize_root (s : str) : path :=
  let p := path_of s in match p_root p with O => mkPath 1 (p_parts p) | _ => p end.
(** net/server/__init__.py:66-77; the flag: the assertion holds. *)
Definition add_redirect (dest src : str) (t : table) : table * bool :=
  match lookup (normalize_root src) (tb_redirects t) with
  | Some _ => (t, false)
  | None => (mkTable (tb_apps t) (tb_redirects t ++ [(normalize_root src, dest)]), true)
  end.
(** app/__init__.py:79-81. *)
Fixpoint add_redirects (l : list (str * str)) (t : table) : table * bool :=
  match l with
  | [] => (t, true)
  | (key, val) :: l => let '(t1, ok) := add_redirect val key t in if ok then add_redirects l t1 else (t1, false)
  end.
Definition add_apps (a : web_app) (paths : list str) (t : table) : table :=
  mkTable (fold_left (fun d p => dset p a d) paths (tb_apps t)) (tb_redirects t).

(** app/__init__.py:26-51 [launch_browser] for one prefix: the addresses xdg-open is
    started with, or None for the KeyError. *)
Definition launch1 (c : config) (prefix : str) (open : option bool) : option (list str) :=
  if param open false then
    match c_ports c with
    | None => None
    | Some ports =>
        Some (map (fun np =>
                let uri := prefix ++ lit "://" ++ param (c_host c) (lit "localhost") ++ lit ":" ++ dec (snd np) ++ lit "/" in
                match param (c_fragment c) [] with [] => uri | f => uri ++ lit "#" ++ f end)
              (filter (fun np => contains (prefix ++ lit "_server") (fst np)) ports))
    end
  else Some [].
(** Started, and whether it returned. *)
Definition launch_browser (have : bool) (c : config) : list str * bool :=
  let started l := if have then l else [] in
  match launch1 c (lit "http") (c_open_http c) with
  | None => ([], false)
  | Some a =>
      match launch1 c (lit "https") (c_open_https c) with
      | None => (started a, false)
      | Some b => (started (a ++ b), true)
      end
  end.

(** app/__init__.py:58-94 [setup]: the tables afterwards, the browsers it started and
    whether it returned (0). *)
Definition setup (resolves : str -> bool) (have : bool) (c : config) (t : table) : table * list str * bool :=
  let m := param (c_method c) DEFAULT_METHOD in
  if resolves m then
    let t1 := add_apps (HtmlApp m) (param (c_app_paths c) []) t in
    let '(t2, ok) := add_redirects (param (c_redirects c) []) t1 in
    if ok then
      let t3 := add_apps LandingPage (param (param (c_landing c) None) []) t2 in
      let '(uris, ok) := launch_browser have c in (t3, uris, ok)
    else (t2, [], false)
  else (t, [], false).
(** The server that answers with these tables (ServeModel.v). *)
Definition serving (paths : list path) (t : table) : ServeModel.server := ServeModel.mkServer paths (tb_redirects t) (map fst (tb_apps t)) false.
(** One setup after another in one process. *)
Fixpoint setups (resolves : str -> bool) (have : bool) (cs : list config) (t : table) : table * list (list str * bool) :=
  match cs with
  | [] => (t, [])
  | c :: cs =>
      let '(t1, uris, ok) := setup resolves have c t in
      let '(t2, rest) := setups resolves have cs t1 in (t2, (uris, ok) :: rest)
  end.
