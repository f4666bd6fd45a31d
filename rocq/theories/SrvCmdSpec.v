(** What is said of the 'server' command. *)
From Verif Require Import Base PyStrModel SrvCmdModel.
Open Scope list_scope.

(** A text that is not a reference. *)
Definition plain (s : str) : Prop := forall n, s <> 36 :: n.
(** The options about certificates. *)
Definition ssl_options : list str := [lit "cafile"; lit "capath"; lit "cadata"; lit "certfile"; lit "keyfile"].
(** The name of the port of a command. *)
Definition own_port (a : args) : str := port_name a (lit "port").
(** No other port has that name. *)
Definition others (a : args) (l : list port_item) : Prop := forall it, In it l -> pi_name it <> own_port a.
(** Options whose values are not references. *)
Definition plain_options (a : args) : Prop := forall o v, In o ssl_options -> a_opt a o = Some v -> plain v.
(** An option is given as an argument if and only if it is given on the command line. *)
Definition passes_options (a : args) (k : kwargs) : Prop :=
  forall o, In o ssl_options -> dget o k = option_map (fun v => KA (AS v)) (a_opt a o).
(** The arguments other than the options are exactly these. *)
Definition besides_options (k : kwargs) (expected : kwargs) : Prop :=
  forall x, ~ In x ssl_options -> dget x k = dget x expected.
