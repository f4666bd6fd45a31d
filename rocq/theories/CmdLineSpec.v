(** What a command line says, independently of how it is parsed. *)
From Coq Require Import Ascii.
From Verif Require Import Base EnvModel CmdLineModel.

(** A word that cannot be taken for an option: it does not begin with a dash,
    or it is a single dash, or it is a negative number. *)
Definition arg_word (neg : string -> bool) (w : string) : Prop :=
  (forall r, w <> String "-" r) \/ w = "-"%string \/ neg w = true.

(** Negative numbers do not look like options of this parser. *)
Definition neg_ok (neg : string -> bool) : Prop :=
  forall w, neg w = true ->
    exists c r, w = String "-" (String c r) /\ ~ In c ["h"; "f"; "r"; "e"; "-"]%char.

(** The options that take no value, with their letter and their name. *)
Definition letter (s : setting) : string :=
  match s with SHelp => "h" | SForce => "f" | SRemote => "r" | SEnv _ => "e" end.
Definition name (s : setting) : string :=
  match s with SHelp => "help" | SForce => "force" | SRemote => "remote" | SEnv _ => "env" end.
Definition is_flag (s : setting) : Prop := match s with SEnv _ => False | _ => True end.
Definition letters (ss : list setting) : string := String.concat "" (map letter ss).
(** A long option may be abbreviated, but not to nothing. *)
Definition abbreviates (p n : string) : Prop := p <> ""%string /\ exists q, n = (p ++ q)%string.

(** The ways to write options, each with what it asks for. *)
Inductive option_words (neg : string -> bool) : list string -> list setting -> Prop :=
| ow_flags ss : ss <> [] -> Forall is_flag ss -> option_words neg [("-" ++ letters ss)%string] ss
| ow_env ss v : Forall is_flag ss -> arg_word neg v ->
    option_words neg [("-" ++ letters ss ++ "e")%string; v] (ss ++ [SEnv v])
| ow_env_joined ss v : Forall is_flag ss -> v <> ""%string -> (forall r, v <> String "=" r) ->
    option_words neg [("-" ++ letters ss ++ "e" ++ v)%string] (ss ++ [SEnv v])
| ow_env_equals ss v : Forall is_flag ss ->
    option_words neg [("-" ++ letters ss ++ "e=" ++ v)%string] (ss ++ [SEnv v])
| ow_long s p : is_flag s -> abbreviates p (name s) -> option_words neg [("--" ++ p)%string] [s]
| ow_long_env p v : abbreviates p "env" -> arg_word neg v -> option_words neg [("--" ++ p)%string; v] [SEnv v]
| ow_long_env_equals p v : abbreviates p "env" -> option_words neg [("--" ++ p ++ "=" ++ v)%string] [SEnv v].

(** Any number of options. *)
Inductive options (neg : string -> bool) : list string -> list setting -> Prop :=
| os_nil : options neg [] []
| os_cons o s os ss : option_words neg o s -> options neg os ss -> options neg (o ++ os) (s ++ ss).

(** The environment: the last one given, or "default". *)
Definition names_env (ss : list setting) (e : string) : Prop :=
  (exists a b, ss = a ++ SEnv e :: b /\ forall v, ~ In (SEnv v) b) \/
  (e = "default"%string /\ forall v, ~ In (SEnv v) ss).

(** What the arguments say: the command, the channel and further words are the
    ones written, and the options are the ones asked for. *)
Definition says (ss : list setting) (v : verb) (c : string) (extra : list string) (a : args) (e : string) : Prop :=
  a_verb a = v /\ a_chan a = c /\ a_extra a = extra /\
  (a_force a = true <-> In SForce ss) /\ (a_remote a = true <-> In SRemote ss) /\
  names_env ss e.

(** A line without "--": options may stand before the command, between it and
    the channel, and at the end; in front of the further words only in
    releases of argparse that do not consume "no further words" early. *)
Definition line_says (neg : string -> bool) (defer : bool) (ws : list string) (a : args) (e : string) : Prop :=
  exists v c extra o1 o2 o3 o4 s1 s2 s3 s4,
    ws = o1 ++ [verb_name v] ++ o2 ++ [c] ++ o3 ++ extra ++ o4 /\
    options neg o1 s1 /\ options neg o2 s2 /\ options neg o3 s3 /\ options neg o4 s4 /\
    arg_word neg c /\ Forall (arg_word neg) extra /\
    (o3 <> [] -> defer = true) /\
    says (s1 ++ s2 ++ s3 ++ s4) v c extra a e.

(** In order, with gaps. *)
Inductive in_order {A} : list A -> list A -> Prop :=
| io_nil l : in_order [] l
| io_take x l m : in_order l m -> in_order (x :: l) (x :: m)
| io_skip x l m : in_order l m -> in_order l (x :: m).

(** A word of a line. *)
Definition word (space : ascii -> bool) (w : string) : Prop :=
  w <> ""%string /\ forall c, In c (list_ascii_of_string w) -> space c = false.
(** The characters of the words the program itself writes are not separators. *)
Definition space_ok (space : ascii -> bool) : Prop :=
  space " "%char = true /\ Forall (word space) ["set"; "toggle"; "get"; "custom"; "-f"]%string.
