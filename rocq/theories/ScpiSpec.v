(** Vocabulary for SCPI connections. *)
From Verif Require Import Base PyStrModel TaskModel ScpiModel.
Open Scope list_scope.
Open Scope Z_scope.

(** The texts that arrive in a history. *)
Definition arrived (h : list sev) : list str := flat_map (fun e => match e with SChunk d => [d] | _ => [] end) h.
(** What the call number [k] returned, if it has returned. *)
Definition returned (s : scpi) (k : nat) : option str :=
  match nth_error (sc_calls s) k with Some c => match cl_pc c with CEnd r => Some r | _ => None end | None => None end.
(** Calls that have sent their command and wait for the reply. *)
Definition outstanding (s : scpi) : list call := filter (fun c => match cl_pc c with CReply => true | _ => false end) (sc_calls s).
(** The commands of the history, as they should be on the wire. *)
Definition commands (h : list sev) : list str :=
  flat_map (fun e => match e with SCall c _ q => [(if q then c ++ lit "?" else c) ++ lit "
"] | _ => [] end) h.
Definition expects_reply (h : list sev) : list bool :=
  flat_map (fun e => match e with SCall _ r q => [r || q] | _ => [] end) h.
(** A line of text: not empty, no line break inside. *)
Definition is_line (x : str) : Prop := x <> [] /\ forall c, In c x -> is_break c = false.
(** The instrument: its reply to the command number [k], if it ever answers it.
    It is regular if it sends the replies as whole lines, in order, each after
    the command. *)
Definition replies (d : nat -> option str) (n : nat) : list str := flat_map (fun k => match d k with Some x => [x] | None => [] end) (seq 0 n).
Definition regular (d : nat -> option str) (h : list sev) : Prop :=
  (forall k x, d k = Some x -> is_line x) /\
  forall h1 h2, h = h1 ++ h2 -> exists later, map (fun x => x ++ lit "
") (replies d (List.length (sc_sent (sc_run sc_new h1)))) = arrived h1 ++ later.
