(** Specification vocabulary for C06. *)
From Verif Require Import Base RegistryModel EnumModel.

Section Spec.
  Context (valid : string -> bool).

  (** Enumerations a user can have: constructed from items, then any history of
      register_int / register_bool calls. *)
  Definition e_reachable (e : renum) : Prop :=
    exists e0 ops,
      ((exists items, e_new_int valid items = Some e0) \/
       (exists items, e_new_bool valid items = Some e0)) /\
      e_run valid e0 ops = e.

  (** The (name, value) pairs the enumeration shows through its dictionary;
      boolean values as 0/1. *)
  Definition e_pairs (e : renum) : list (string * Z) :=
    match e with
    | EInt r => m_asdict (r_map r)
    | EBool m => map (fun nb => (fst nb, z_of_bool (snd nb))) (m_asdict m)
    end.
End Spec.
