(** What is said of the prefixes of web applications. *)
From Verif Require Import Base PyStrModel ServeModel ServeSpec SetupModel SetupSpec.
Open Scope list_scope.

(** A prefix may be written without the slash in front. *)
Definition address_of (p : str) : str := match p with 47 :: _ => p | _ => 47 :: p end.
(** A prefix that can be used: something, without a slash at the end. *)
Definition usable (p : str) : Prop := p <> [] /\ forall q, p <> q ++ lit "/".
Definition index_of (p : str) : str := address_of p ++ lit "/index.html".
Definition page_of (p : str) : str := address_of p ++ lit "/app.html".
(** The redirects prefixes stand for. *)
Definition stand_for (prefixes : list str) : list (str * str) :=
  List.concat (map (fun p => [(address_of p, index_of p); (index_of p, page_of p)]) prefixes).
(** Everything else is the same. *)
Definition rest_same (c c' : config) : Prop :=
  c_method c' = c_method c /\ c_landing c' = c_landing c /\ c_open_http c' = c_open_http c /\ c_open_https c' = c_open_https c /\
  c_host c' = c_host c /\ c_fragment c' = c_fragment c /\ c_ports c' = c_ports c.
(** Redirects that are the same are written the same. *)
Definition one_spelling (keys : list str) : Prop := forall a b, In a keys -> In b keys -> same_key a b -> a = b.
