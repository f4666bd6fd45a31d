(** What is said of the setup of the web server. *)
From Verif Require Import Base PyStrModel ServeModel ServeSpec SetupModel.
Open Scope list_scope.

(** The paths of the configuration. *)
Definition app_paths (c : config) : list str := match c_app_paths c with Some l => l | None => [] end.
Definition landing_paths (c : config) : list str := match c_landing c with Some (Some l) => l | _ => [] end.
Definition redirects (c : config) : list (str * str) := match c_redirects c with Some l => l | None => [] end.
Definition method (c : config) : str := match c_method c with Some m => m | None => lit "runtimepy.net.server.app.env.channel_environments" end.
(** Two slashes in front, which pathlib keeps apart from one. *)
Definition two_slashes (s : str) : Prop := exists r, s = lit "//" ++ r /\ forall r', r <> lit "/" ++ r'.
(** Two keys that are the same redirect: a slash in front or none is the same. *)
Definition same_key (a b : str) : Prop := components a = components b /\ (two_slashes a <-> two_slashes b).
(** Browser windows: one for every port whose name has the server of this kind in it. *)
Definition wanted (prefix : str) (open : option bool) (name : str) : Prop :=
  open = Some true /\ exists a b, name = a ++ prefix ++ lit "_server" ++ b.
Definition address (c : config) (prefix : str) (port : Z) : str :=
  prefix ++ lit "://" ++ match c_host c with Some h => h | None => lit "localhost" end ++ lit ":" ++ dec port ++ lit "/" ++
  match c_fragment c with Some (x :: f) => lit "#" ++ x :: f | _ => [] end.
(** The addresses for the ports that are wanted, in the order of the ports. *)
Inductive windows (P : str -> Prop) (f : Z -> str) : list (str * Z) -> list str -> Prop :=
| w_none : windows P f [] []
| w_open n p ports l : P n -> windows P f ports l -> windows P f ((n, p) :: ports) (f p :: l)
| w_skip n p ports l : ~ P n -> windows P f ports l -> windows P f ((n, p) :: ports) l.
(** What a path is answered with after some setups, the latest last. *)
Definition dec_in (p : str) (l : list str) : {In p l} + {~ In p l} := in_dec (list_eq_dec Z.eq_dec) p l.
Definition app_of (c : config) (p : str) (before : option web_app) : option web_app :=
  if dec_in p (landing_paths c) then Some LandingPage
  else if dec_in p (app_paths c) then Some (HtmlApp (method c)) else before.
Definition app_after (cs : list config) (p : str) (before : option web_app) : option web_app :=
  fold_left (fun b c => app_of c p b) cs before.
(** Nothing stands in the way of one setup by itself. *)
Definition sound (resolves : str -> bool) (c : config) : Prop :=
  resolves (method c) = true /\ (c_ports c = None -> c_open_http c <> Some true /\ c_open_https c <> Some true).
Definition all_redirects (cs : list config) : list (str * str) := List.concat (map redirects cs).
(** No two keys are the same redirect. *)
Definition distinct_keys (keys : list str) : Prop := ForallOrdPairs (fun a b => ~ same_key a b) keys.
