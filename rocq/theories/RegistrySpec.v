(** Specification vocabulary for the registry properties (C01-C05): which
    registries a user can have in hand. *)
From Verif Require Import Base RegistryModel.

Section Spec.
  Context (valid : string -> bool).

  (** Loads may raise half-way; the theorems ask that the loads in a history
      did not ([register_name] may raise freely). *)
  Definition load_ok (o : rop) (out : outcome (option Z)) : Prop :=
    match o with RegisterName _ _ => True | _ => out <> Raise end.

  (** Registries a user can have in hand: constructed, then any history in
      which no bulk load raised. *)
  Definition r_reachable (r : nreg) : Prop :=
    exists mp rv r0 ops,
      r_new valid mp rv = Some r0 /\
      Forall2 load_ok ops (snd (r_run valid r0 ops)) /\
      fst (r_run valid r0 ops) = r.

End Spec.

Section ItemSpec.
  Context (valid : string -> bool).
  Context {D P : Type}.
  Context (construct : D -> option P).

  (** Object registries a user can have in hand: built from initial items (the
      keys of a Python dictionary are distinct), then any history of
      [register] / [register_dict] calls, failing or not. *)
  Definition g_reachable (g : registry P) : Prop :=
    exists items g0 ops, NoDup (dkeys items) /\ g_new valid items = Some g0 /\
      g_run valid construct g0 ops = g.

End ItemSpec.
