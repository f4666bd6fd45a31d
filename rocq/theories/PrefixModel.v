(** Model of runtimepy/net/html/arbiter.py (the configuration builder that turns the
    prefixes of web applications into redirects and paths), on the configuration of
    SetupModel.v.  Simplification: the values have the types the code expects. *)
From Verif Require Import Base PyStrModel ServeModel SetupModel.
Open Scope list_scope.

Definition ends_slash (p : str) : bool := match rev p with 47 :: _ => true | _ => false end.
(** [dict.setdefault]. *)
Definition setdefault (k v : str) (d : list (str * str)) : list (str * str) := if dmem k d then d else dset k v d.
(** Lines 18-32; the flag: no assertion failed. *)
Fixpoint add_prefixes (prefixes : list str) (redirects : list (str * str)) (app_paths : list str) : list (str * str) * list str * bool :=
  match prefixes with
  | [] => (redirects, app_paths, true)
  | p :: rest =>
      let p := if prefix (lit "/") p then p else lit "/" ++ p in
      if ends_slash p then (redirects, app_paths, false)
      else
        let index_path := p ++ lit "/index.html" in
        let app_path := p ++ lit "/app.html" in
        let redirects := setdefault p index_path redirects in
        let redirects := setdefault index_path app_path redirects in
        let app_paths := if existsb (str_eqb app_path) app_paths then app_paths else app_paths ++ [app_path] in
        add_prefixes rest redirects app_paths
  end.
(** Lines 9-32 [web_app_paths]; [prefixes] is "http_app_prefixes", [] if it is missing. *)
Definition web_app_paths (prefixes : list str) (c : config) : config * bool :=
  let '(r, a, ok) := add_prefixes prefixes (param (c_redirects c) []) (param (c_app_paths c) []) in
  (mkConfig (c_method c) (Some a) (Some r) (c_landing c) (c_open_http c) (c_open_https c) (c_host c) (c_fragment c) (c_ports c), ok).
