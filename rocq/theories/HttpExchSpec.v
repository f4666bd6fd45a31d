(** Specification vocabulary for C88. *)
From Verif Require Import Base HttpExchModel.
Open Scope list_scope.

(** The requests made in a history, each under a number of its own. *)
Definition calls (es : list event) : list nat :=
  flat_map (fun e => match e with Call i => [i] | _ => [] end) es.
Definition fresh (es : list event) : Prop := NoDup (calls es).
(** The connection is not lost. *)
Definition stays_up (es : list event) : Prop := ~ In Lost es /\ ~ In Restart es.
Definition nothing_cancelled (es : list event) : Prop := forall i, ~ In (Cancel i) es.
(** Events that need no one to ask for them. *)
Definition internal (e : event) : Prop :=
  match e with Acquire _ | Wake | Serve | Deliver | Put => True | _ => False end.
(** The first of two entries comes before the second. *)
Definition before (j i : nat) (l : list nat) : Prop := exists a b c, l = a ++ j :: b ++ i :: c.
