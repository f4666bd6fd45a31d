(** Vocabulary for the statements about log-file forwarding. *)
From Verif Require Import Base PyStrModel LogCapModel.

Section LogCapSpec.
  Context (space : Z -> bool).

  (** Everything a history appends to file [k]. *)
  Fixpoint appended (k : nat) (ops : list lop) : str :=
    match ops with
    | [] => []
    | LAppend j t :: ops' => if (j =? k)%nat then t ++ appended k ops' else appended k ops'
    | _ :: ops' => appended k ops'
    end.

  (** The lines of a text that end in a newline, and what follows the last
      newline. *)
  Definition lines_of (t : str) : list str := removelast (split_on 10 t).
  Definition tail_of (t : str) : str := last (split_on 10 t) [].

  (** A text of whole lines; a history in which writers append whole lines. *)
  Definition whole (t : str) : Prop := tail_of t = [].
  Definition whole_op (o : lop) : Prop := match o with LAppend _ t => whole t | _ => True end.

  Definition blank (l : str) : bool := forallb space l.
  Definition blanks (ls : list str) : nat := List.length (filter blank ls).

  (** The entries a list of lines is worth: one per line that is not blank, at
      the level of the stream, without trailing white space. *)
  Definition entries (lvl : Z) (ls : list str) : list (Z * str) :=
    map (fun l => (lvl, rstrip space l)) (filter (fun l => negb (blank l)) ls).

  (** The entries that came from stream [k]. *)
  Definition forwarded (k : nat) (c : capture) : list (Z * str) :=
    map snd (filter (fun e => (fst e =? k)%nat) (c_log c)).

  (** What is in file [k] and was not read yet. *)
  Definition pending (k : nat) (c : capture) : str :=
    match nth_error (c_streams c) k with Some s => skipn (st_pos s) (st_text s) | None => [] end.

  Definition level (k : nat) (c : capture) : Z :=
    match nth_error (c_streams c) k with Some s => st_level s | None => 0 end.

  Definition visible (t : str) : str := filter (fun x => negb (space x)) t.

  Definition running (c : capture) : nat := match c_at c with Some _ => 1 | None => 0 end.

  (** The lines before the first blank line, and those after it. *)
  Fixpoint before_blank (ls : list str) : list str :=
    match ls with [] => [] | l :: ls' => if blank l then [] else l :: before_blank ls' end.
  Fixpoint after_blank (ls : list str) : list str :=
    match ls with [] => [] | l :: ls' => if blank l then ls' else after_blank ls' end.
End LogCapSpec.

(** The given paths that are files, with what is in them when the capture
    starts. *)
Definition existing (files : list (Z * option str)) : list (Z * str) :=
  flat_map (fun f => match snd f with Some t => [(fst f, t)] | None => [] end) files.
