(** Specification vocabulary for C62. *)
From Verif Require Import Base UiCountModel.

(** Reading the history alone: whether the structure is ready, the connections that
    take part (a frame of theirs was handled since, and they are not closed), in the
    order they joined, and those that were closed. *)
Record party := mkParty { pa_ready : bool; pa_live : list nat; pa_gone : list nat }.

Definition party_step (s : party) (e : uev) : party :=
  match e with
  | UReady => mkParty true (pa_live s) (pa_gone s)
  | UFrame c =>
      if pa_ready s && negb (existsb (Nat.eqb c) (pa_live s ++ pa_gone s))
      then mkParty true (pa_live s ++ [c]) (pa_gone s) else s
  | UClose c => mkParty (pa_ready s) (filter (fun x => negb (Nat.eqb x c)) (pa_live s)) (c :: pa_gone s)
  end.
Definition live (h : list uev) : list nat := pa_live (fold_left party_step h (mkParty false [] [])).

(** The connections that take part and update the metrics. *)
Definition pollers (h : list uev) : list nat := filter (u_poll (u_run h)) (live h).

(** There are never more than [n] connections taking part, at any time. *)
Definition never_more_than (n : nat) (h : list uev) : Prop :=
  forall h1 h2, h = h1 ++ h2 -> (List.length (live h1) <= n)%nat.
