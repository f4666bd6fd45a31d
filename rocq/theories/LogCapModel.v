(** Forwarding the lines of log files: runtimepy/mixins/logging.py 85-133
    ([LogCaptureMixin]).

    The loop of a dispatch runs one [readline] per step, so that writers may
    append to the files between any two reads.  Simplifications: the text of a
    file is what text-mode reading yields (decoded, newlines translated); files
    only grow (a file that is truncated or replaced is not modelled); [log_line]
    (112-115) is the entry that reaches the handlers, [handle_safe_log] (56-71)
    is not modelled further; the time between opening a file (92-99) and the
    seek (102-103) is not modelled: the text at the seek is what counts. *)
From Verif Require Import Base PyStrModel TaskModel.

Section LogCapture.
  (** The white space of [str.rstrip]. *)
  Context (space : Z -> bool).

  Fixpoint drop_space (s : str) : str :=
    match s with
    | [] => []
    | x :: s' => if space x then drop_space s' else s
    end.
  (** [str.rstrip()]. *)
  Definition rstrip (s : str) : str := rev (drop_space (rev s)).

  (** [readline()] on what is left of a file: up to and including the next
      newline, or everything. *)
  Fixpoint readline (s : str) : str :=
    match s with
    | [] => []
    | x :: s' => if x =? 10 then [x] else x :: readline s'
    end.

  (** An element of [streams] (logging.py 79-80): the level, the text of the
      file and how much of it was read. *)
  Record stream := mkStream { st_level : Z; st_text : str; st_pos : nat }.

  (** The streams; where the loop of [dispatch_log_capture] is (None: no call is
      running); how many calls returned; the entries logged so far with the
      index of the stream they came from. *)
  Record capture := mkCap {
    c_streams : list stream; c_at : option nat; c_done : nat;
    c_log : list (nat * (Z * str)) }.

  (** logging.py 87-103 [init_log_capture]: paths that are no files are left
      out; the position is the end of the file. *)
  Fixpoint open_streams (files : list (Z * option str)) : list stream :=
    match files with
    | [] => []
    | (lvl, Some text) :: files' => mkStream lvl text (List.length text) :: open_streams files'
    | (_, None) :: files' => open_streams files'
    end.
  Definition c_open (files : list (Z * option str)) : capture :=
    mkCap (open_streams files) None 0 [].

  (** The loop reaches index [k] (logging.py 126) or is over. *)
  Definition c_goto (k : nat) (c : capture) : capture :=
    if (k <? List.length (c_streams c))%nat then mkCap (c_streams c) (Some k) (c_done c) (c_log c)
    else mkCap (c_streams c) None (S (c_done c)) (c_log c).

  (** logging.py 127-130: one [readline], [rstrip] and, if something is left,
      [log_line]; otherwise on to the next stream. *)
  Definition c_read (c : capture) : capture :=
    match c_at c with
    | None => c
    | Some k =>
        match nth_error (c_streams c) k with
        | None => c
        | Some s =>
            let raw := readline (skipn (st_pos s) (st_text s)) in
            let s' := mkStream (st_level s) (st_text s) (st_pos s + List.length raw) in
            let streams := upd k s' (c_streams c) in
            match rstrip raw with
            | [] => c_goto (S k) (mkCap streams (c_at c) (c_done c) (c_log c))
            | line => mkCap streams (c_at c) (c_done c) (c_log c ++ [(k, (st_level s, line))])
            end
        end
    end.

  (** A writer appends to the file of a stream. *)
  Definition c_append (k : nat) (t : str) (c : capture) : capture :=
    match nth_error (c_streams c) k with
    | None => c
    | Some s =>
        mkCap (upd k (mkStream (st_level s) (st_text s ++ t) (st_pos s)) (c_streams c))
              (c_at c) (c_done c) (c_log c)
    end.

  Inductive lop :=
  | LAppend (k : nat) (t : str)   (* a writer *)
  | LCall                         (* [dispatch_log_capture] is called *)
  | LRead.                        (* it goes on with its next read *)

  (** Calls do not overlap (they come from one periodic task). *)
  Definition c_step (c : capture) (o : lop) : capture :=
    match o with
    | LAppend k t => c_append k t c
    | LCall => match c_at c with None => c_goto 0 c | Some _ => c end
    | LRead => c_read c
    end.
  Definition c_run (c : capture) (ops : list lop) : capture := fold_left c_step ops c.
End LogCapture.
