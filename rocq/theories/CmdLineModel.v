(** Model of channel/environment/command/parser.py and of
    channel/environment/command/processor.py:184-219 (parsing a line and
    running it).

    The parser is Python's argparse with the arguments parser.py:40-74 declares;
    what argparse does with them is transcribed from CPython's argparse.py
    (3.11.10, functions cited by name).  Newer releases differ in two places
    the model keeps open: [defer] (an empty [extra] is not consumed in front of
    an option, [_match_arguments_partial]) and [strip_all] (which "--" is
    dropped from the arguments of a positional, [_get_values] of older and
    [consume_positionals] of newer releases).

    [neg] says which words look like negative numbers
    ([_negative_number_matcher]) and [space] which characters separate words
    ([str.split]).  Simplifications: error texts are not modelled (a rejected
    line is None); nor is what older releases make of a second "--" that is the
    only word of a command or channel (the text "[]"), which is None here.
    Compared with CPython 3.11.10 on 11000 random lines (with [defer] false and
    [strip_all] true), the model differs in that case only. *)
From Coq Require Import Ascii.
From Verif Require Import Base EnvModel.

Section CmdLine.
  Context (neg : string -> bool) (space : ascii -> bool) (defer strip_all : bool).

  (** processor.py:188: [value.split()]. *)
  Fixpoint split_words (s : string) (cur : string) : list string :=
    match s with
    | EmptyString => match cur with EmptyString => [] | _ => [cur] end
    | String c r =>
        if space c then match cur with EmptyString => split_words r "" | _ => cur :: split_words r "" end
        else split_words r (cur ++ String c EmptyString)
    end.
  Definition words (s : string) : list string := split_words s "".

  (** parser.py:49-69 (and argparse's own help option). *)
  Inductive oname := OHelp | OForce | ORemote | OEnv.
  Definition short_opt (c : ascii) : option oname :=
    if Ascii.eqb c "h" then Some OHelp else if Ascii.eqb c "f" then Some OForce
    else if Ascii.eqb c "r" then Some ORemote else if Ascii.eqb c "e" then Some OEnv else None.
  Definition long_opts : list (string * oname) :=
    [("help", OHelp); ("force", OForce); ("remote", ORemote); ("env", OEnv)]%string.
  (** [_get_option_tuples]: an abbreviation that fits one option. *)
  Definition long_opt (s : string) : option oname :=
    match filter (fun no => String.prefix s (fst no)) long_opts with
    | [(_, o)] => Some o
    | _ => None
    end.

  (** [str.partition("=")]: before, and after if there is one. *)
  Fixpoint partition_eq (s : string) : string * option string :=
    match s with
    | EmptyString => (EmptyString, None)
    | String c r =>
        if Ascii.eqb c "=" then (EmptyString, Some r)
        else let '(a, b) := partition_eq r in (String c a, b)
    end.

  (** A word: an argument, the separator "--", an option (None: unknown), with
      one or two dashes, with "=" and with an attached value. *)
  Inductive tok :=
  | TA (s : string)
  | TD
  | TO (o : option oname) (long sep : bool) (x : option string).

  (** [_parse_optional]. *)
  Definition classify (w : string) : tok :=
    match w with
    | String "-" (String "-" r) =>
        let '(a, x) := partition_eq r in
        match long_opt a with
        | Some o => TO (Some o) true (match x with Some _ => true | None => false end) x
        | None => if neg w then TA w else TO None true false None
        end
    | String "-" (String c r) =>
        match short_opt c with
        | Some o =>
            match r with
            | EmptyString => TO (Some o) false false None
            | String "=" r' => TO (Some o) false true (Some r')
            | _ => TO (Some o) false false (Some r)
            end
        | None => if neg w then TA w else TO None false false None
        end
    | _ => TA w
    end.
  (** [_parse_known_args]: after "--" everything is an argument. *)
  Fixpoint classify_all (ws : list string) : list tok :=
    match ws with
    | [] => []
    | w :: r => if String.eqb w "--" then TD :: map TA r else classify w :: classify_all r
    end.

  (** parser.py:49-69: what an option stores. *)
  Inductive setting := SHelp | SForce | SRemote | SEnv (v : string).
  Definition flag (o : oname) : setting :=
    match o with OHelp => SHelp | OForce => SForce | ORemote => SRemote | OEnv => SEnv "" end.

  (** [consume_optional] without an attached value. *)
  Definition opt_plain (o : oname) (rest : list tok) : option (list setting * list tok) :=
    match o with
    | OEnv => match rest with TA v :: r => Some ([SEnv v], r) | _ => None end
    | _ => Some ([flag o], rest)
    end.
  (** [consume_optional] with the attached value [x] of a one-dash option. *)
  Fixpoint opt_short (o : oname) (sep : bool) (x : string) (rest : list tok)
    : option (list setting * list tok) :=
    match o with
    | OEnv => Some ([SEnv x], rest)
    | _ =>
        match x with
        | EmptyString => None
        | String c r =>
            if sep || Ascii.eqb c "-" then None
            else
              match short_opt c with
              | None => None
              | Some o' =>
                  option_map (fun sr => (flag o :: fst sr, snd sr))
                    (match r with
                     | EmptyString => opt_plain o' rest
                     | String "=" r' => opt_short o' true r' rest
                     | _ => opt_short o' false r rest
                     end)
              end
        end
    end.
  Definition consume_optional (o : option oname) (long sep : bool) (x : option string) (rest : list tok)
    : option (list setting * list tok) :=
    match o, x with
    | None, _ => None
    | Some o, None => opt_plain o rest
    | Some o, Some x =>
        if long then match o with OEnv => Some ([SEnv x], rest) | _ => None end
        else opt_short o sep x rest
    end.

  (** The namespace; parser.py:43-74. *)
  Record ns := mkNs {
    n_verb : option verb; n_chan : option string; n_extra : list string;
    n_force : bool; n_remote : bool; n_env : string; n_help : nat
  }.
  Definition n_new : ns := mkNs None None [] false false "default" 0.
  Definition n_set (n : ns) (s : setting) : ns :=
    match s with
    | SHelp => mkNs (n_verb n) (n_chan n) (n_extra n) (n_force n) (n_remote n) (n_env n) (S (n_help n))
    | SForce => mkNs (n_verb n) (n_chan n) (n_extra n) true (n_remote n) (n_env n) (n_help n)
    | SRemote => mkNs (n_verb n) (n_chan n) (n_extra n) (n_force n) true (n_env n) (n_help n)
    | SEnv v => mkNs (n_verb n) (n_chan n) (n_extra n) (n_force n) (n_remote n) v (n_help n)
    end.

  (** parser.py:11-17. *)
  Definition verb_name (v : verb) : string :=
    match v with VSet => "set" | VToggle => "toggle" | VGet => "get" | VCustom => "custom" end.
  Definition verb_of (s : string) : option verb :=
    find (fun v => String.eqb s (verb_name v)) [VSet; VToggle; VGet; VCustom].

  Inductive pos := PVerb | PChan | PExtra.

  (** [_get_nargs_pattern]: one argument among separators; arguments and
      separators up to an option. *)
  Fixpoint dashes (ts : list tok) : list tok * list tok :=
    match ts with
    | TD :: r => let '(a, b) := dashes r in (TD :: a, b)
    | _ => ([], ts)
    end.
  Definition match_one (ts : list tok) : option (list tok * list tok) :=
    let '(a, r) := dashes ts in
    match r with
    | TA s :: r => let '(b, r) := dashes r in Some (a ++ TA s :: b, r)
    | _ => None
    end.
  Fixpoint match_run (ts : list tok) : list tok * list tok :=
    match ts with
    | TA s :: r => let '(a, b) := match_run r in (TA s :: a, b)
    | TD :: r => let '(a, b) := match_run r in (TD :: a, b)
    | _ => ([], ts)
    end.
  Fixpoint match_pos (ps : list pos) (ts : list tok) : option (list (list tok) * list tok) :=
    match ps with
    | [] => Some ([], ts)
    | PExtra :: ps =>
        let '(a, r) := match_run ts in
        option_map (fun mr => (a :: fst mr, snd mr)) (match_pos ps r)
    | _ :: ps =>
        match match_one ts with
        | Some (a, r) => option_map (fun mr => (a :: fst mr, snd mr)) (match_pos ps r)
        | None => None
        end
    end.
  (** [_match_arguments_partial]: as many positionals as possible. *)
  Fixpoint match_partial (n : nat) (ps : list pos) (ts : list tok) : list (list tok) * list tok :=
    match n with
    | O => ([], ts)
    | S n' =>
        match match_pos (firstn n ps) ts with
        | Some mr => mr
        | None => match_partial n' ps ts
        end
    end.
  Fixpoint drop_empty (l : list (list tok)) : list (list tok) :=
    match l with
    | [] => []
    | a :: r =>
        match drop_empty r with
        | [] => match a with [] => [] | _ => [a] end
        | r' => a :: r'
        end
    end.
  Definition match_args (ps : list pos) (ts : list tok) : list (list tok) * list tok :=
    let '(l, r) := match_partial (List.length ps) ps ts in
    (if defer && match r with TO _ _ _ _ :: _ => true | _ => false end then drop_empty l else l, r).

  (** [_get_values]: the words, without the separator. *)
  Fixpoint remove_first (l : list string) : list string :=
    match l with
    | [] => []
    | s :: r => if String.eqb s "--" then r else s :: remove_first r
    end.
  Definition texts (l : list tok) : list string :=
    flat_map (fun t => match t with TA s => [s] | TD => ["--"%string] | TO _ _ _ _ => [] end) l.
  Definition values_of (l : list tok) : list string :=
    if strip_all || existsb (fun t => match t with TD => true | _ => false end) l
    then remove_first (texts l) else texts l.

  Definition n_pos (n : ns) (p : pos) (l : list tok) : option ns :=
    match p, values_of l with
    | PVerb, [s] =>
        option_map (fun v => mkNs (Some v) (n_chan n) (n_extra n) (n_force n) (n_remote n) (n_env n) (n_help n))
          (verb_of s)
    | PChan, [s] => Some (mkNs (n_verb n) (Some s) (n_extra n) (n_force n) (n_remote n) (n_env n) (n_help n))
    | PExtra, l => Some (mkNs (n_verb n) (n_chan n) l (n_force n) (n_remote n) (n_env n) (n_help n))
    | _, _ => None
    end.
  Fixpoint n_poss (n : ns) (ps : list pos) (ls : list (list tok)) : option ns :=
    match ps, ls with
    | p :: ps, l :: ls => match n_pos n p l with Some n => n_poss n ps ls | None => None end
    | _, _ => Some n
    end.
  (** [consume_positionals]. *)
  Definition consume_positionals (n : ns) (ps : list pos) (ts : list tok) : option (ns * list pos * list tok) :=
    let '(ls, r) := match_args ps ts in
    option_map (fun n => (n, skipn (List.length ls) ps, r)) (n_poss n ps ls).

  Definition is_opt (t : tok) : bool := match t with TO _ _ _ _ => true | _ => false end.

  (** [_parse_known_args]: positionals and options in turn.  None when there is
      an error or something is left over (processor.py:189). *)
  Fixpoint parse_loop (fuel : nat) (n : ns) (ps : list pos) (ts : list tok) : option ns :=
    match fuel with
    | O => None
    | S fuel =>
        if existsb is_opt ts then
          match ts with
          | TO o long sep x :: r =>
              match consume_optional o long sep x r with
              | Some (ss, r) => parse_loop fuel (fold_left n_set ss n) ps r
              | None => None
              end
          | _ =>
              match consume_positionals n ps ts with
              | Some (n, ps, r) => if Nat.ltb (List.length r) (List.length ts) then parse_loop fuel n ps r else None
              | None => None
              end
          end
        else
          match consume_positionals n ps ts with
          | Some (n, [], []) => Some n
          | _ => None
          end
    end.

  (** processor.py:184-189 [parse]: the arguments and the environment. *)
  Definition parse (ws : list string) : option (args * string) :=
    match parse_loop (S (List.length ws)) n_new [PVerb; PChan; PExtra] (classify_all ws) with
    | Some n =>
        match n_verb n, n_chan n with
        | Some v, Some c => Some (mkArgs v (n_force n) (n_remote n) c (n_extra n), n_env n)
        | _, _ => None
        end
    | None => None
    end.

  Context (int_of : string -> option Z) (float_of : string -> option flo)
    (bool_of : string -> option bool) (fround : PrimModel.kind -> flo -> flo).
  (** processor.py:191-219 [command]. *)
  Definition command (hooks : list nat) (e : env) (line : string) : env * reply * list (nat * option target) :=
    match parse (words line) with
    | Some (a, _) => handle int_of float_of bool_of fround hooks e a
    | None => (e, CFailure, [])
    end.

  (** subprocess/interface.py:132-150 and net/stream/json/__init__.py:33-50
      [handle_command]: the environment and the line sent to the peer, if any
      (mixins/async_command.py:57-60: custom commands are not given to it). *)
  Definition remote_line (a : args) : string :=
    String.concat " " (verb_name (a_verb a) :: (if a_force a then ["-f"%string] else []) ++ a_chan a :: a_extra a).
  Definition forward (a : args) (name : string) : option (string * string) :=
    if a_remote a && negb (match a_verb a with VCustom => true | _ => false end) then Some (name, remote_line a) else None.

  (** message/handlers.py:31-62 [channel_env_handler]: the environments, the
      default one and whether the reply says success.  Simplification: an
      exception of the command is a reply without success. *)
  Definition serve (hooks : list nat) (envs : list (string * env)) (dflt : env) (name line : string)
    : list (string * env) * env * bool :=
    let good r := match r with CSuccess | CValue _ => true | _ => false end in
    if String.eqb name "default" then
      let '(e, r, _) := command hooks dflt line in (envs, e, good r)
    else
      match dget name envs with
      | Some e => let '(e', r, _) := command hooks e line in (dset name e' envs, dflt, good r)
      | None => (envs, dflt, false)
      end.
End CmdLine.
