(** Model of commands sent as HTTP POST requests: net/server/__init__.py 202-247
    ([handle_command], [post_handler]), net/tcp/http/__init__.py 64-78 and
    105-130 (which requests are handled) and
    channel/environment/command/__init__.py 218-258 ([GlobalEnvironment]).

    The header lines are parsed as in HttpModel, the parts of a path are
    ServeModel's ([Path(path).parts[1:]] for a path that begins with "/") and a
    command line is run as in CmdLineModel.  Simplifications: the answer is the
    data that is written as JSON, not its text, with the command's reply in
    place of [str(result)]; characters are those below 256; what a GET request is
    answered with is ServeModel's and not repeated ([OGet]). *)
From Coq Require Import Ascii.
From Verif Require Import Base PyStrModel HttpModel ServeModel EnvModel CmdLineModel.
Open Scope list_scope.
Open Scope Z_scope.

(** A text as command lines are modelled. *)
Fixpoint text (s : str) : string :=
  match s with [] => EmptyString | c :: s => String (ascii_of_nat (Z.to_nat c)) (text s) end.

(** A command processor: its environment and its hooks. *)
Record proc := mkProc { pr_env : env; pr_hooks : list nat }.
(** The processors there are, and which are registered by name. *)
Record world := mkWorld { w_names : list (str * nat); w_procs : list proc }.

Fixpoint find_name (n : str) (l : list (str * nat)) : option nat :=
  match l with [] => None | (m, i) :: l => if str_eqb n m then Some i else find_name n l end.
Fixpoint set_nth {A} (i : nat) (x : A) (l : list A) : list A :=
  match l, i with
  | [], _ => []
  | _ :: l, O => x :: l
  | y :: l, S i => y :: set_nth i x l
  end.

(** channel/environment/command/__init__.py:228-239 [register]: true when the
    call returned, false for the AssertionError. *)
Definition register (w : world) (n : str) (i : nat) : world * bool :=
  match find_name n (w_names w) with
  | Some j => (w, Nat.eqb i j)
  | None => (mkWorld (w_names w ++ [(n, i)]) (w_procs w), true)
  end.
(** 218-226 [clear]. *)
Definition clear (w : world) : world := mkWorld [] (w_procs w).

(** net/server/__init__.py:207-224: the answer to a command. *)
Record body := mkBody {
  b_command : list str; b_success : bool; b_reply : option reply; b_environments : option (list str)
}.
(** What comes of a request: a response, what [get_handler] answers, or an
    exception instead of a response. *)
Inductive outcome := OResp (status : Z) (b : option body) | OGet (r : request) | ORaise.

Section Post.
  Context (neg : string -> bool) (space : ascii -> bool) (defer strip_all : bool).
  Context (int_of : string -> option Z) (float_of : string -> option flo)
    (bool_of : string -> option bool) (fround : PrimModel.kind -> flo -> flo).

  Definition good (r : reply) : bool := match r with CSuccess | CValue _ => true | _ => false end.

  (** net/server/__init__.py:202-227 [handle_command], with the hooks called. *)
  Definition handle_command (w : world) (args : list str)
    : world * outcome * list (nat * option target) :=
    match args with
    | [] => (w, OResp 200 (Some (mkBody args false None (Some (map fst (w_names w))))), [])
    | n :: ws =>
        match find_name n (w_names w) with
        | None => (w, OResp 200 (Some (mkBody args false None (Some (map fst (w_names w))))), [])
        | Some i =>
            match nth_error (w_procs w) i with
            | None => (w, ORaise, [])
            | Some p =>
                let '(e, r, calls) :=
                  command neg space defer strip_all int_of float_of bool_of fround (pr_hooks p) (pr_env p)
                    (String.concat " " (map text ws)) in
                (mkWorld (w_names w) (set_nth i (mkProc e (pr_hooks p)) (w_procs w)),
                 match r with
                 | CRaise _ => ORaise
                 | _ => OResp 200 (Some (mkBody args (good r) (Some r) None))
                 end, calls)
            end
        end
    end.

  (** 229-247 [post_handler]. *)
  Definition post_handler (w : world) (f : target_form) : world * outcome * list (nat * option target) :=
    match f with
    | FOrigin path _ => handle_command w (parts_of path)
    | _ => (w, OResp 200 None, [])
    end.

  (** net/tcp/http/__init__.py:105-130 [_process_request] with the handlers of 64-78. *)
  Definition process_request (w : world) (r : request) : world * outcome * list (nat * option target) :=
    if str_eqb (r_method r) (lit "GET") then (w, OGet r, [])
    else if str_eqb (r_method r) (lit "POST") then post_handler w (r_form r)
    else (w, OResp 501 None, []).

  (** The lines of a request header, as they come from the parser (header.py:45-55). *)
  Definition serve_lines (w : world) (lines : list str) : world * outcome * list (nat * option target) :=
    match req_parse lines with
    | Some r => process_request w r
    | None => (w, ORaise, [])
    end.

  (** Any use of the registry and the server. *)
  Inductive op := Register (n : str) (i : nat) | Clear | Request (lines : list str).
  Definition step (w : world) (o : op) : world :=
    match o with
    | Register n i => fst (register w n i)
    | Clear => clear w
    | Request lines => fst (fst (serve_lines w lines))
    end.
  Definition run (w : world) (os : list op) : world := fold_left step os w.
End Post.
