(** Specification vocabulary for C31-C35. *)
From Coq Require Import QArith.
From Verif Require Import Base PrimModel PrimSpec RegistryModel EnumModel EnumSpec FieldModel EnvModel.
Open Scope Z_scope.

Section Spec.
  Context (valid : string -> bool) (int_of : string -> option Z)
    (float_of : string -> option flo) (bool_of : string -> option bool)
    (fround : kind -> flo -> flo) (enums : string + Z -> option renum).

  (** Environments a user can have: any history of calls on a new one. *)
  Definition env_reachable (e : env) : Prop :=
    exists ops, run valid int_of float_of bool_of fround enums e_new ops = e.

  (** The registered enumerations are enumerations a user can have. *)
  Definition enums_ok : Prop := forall k m, enums k = Some m -> e_reachable valid m.
End Spec.

(** The primitive behind a target. *)
Definition t_ref (t : target) : nat :=
  match t with TChan c => ch_ref c | TField r _ => r end.

(** No name denotes both a channel and a bit field. *)
Definition no_collision (e : env) : Prop :=
  forall k, e_has_field e k = true -> e_get e k = None.

(** Some commandable channel or field lives in primitive [p]. *)
Definition commandable_prim (e : env) (p : nat) : Prop :=
  exists k t, e_target e k = Some t /\ t_cmd t = true /\ t_ref t = p.

(** Everything but the values of the primitives is the same. *)
Definition same_shape (e e' : env) : Prop := e' = with_heap e (e_heap e').

(** Running a list of commands. *)
Fixpoint commands (int_of : string -> option Z) (float_of : string -> option flo)
  (bool_of : string -> option bool) (fround : kind -> flo -> flo)
  (hooks : list nat) (e : env) (l : list args)
  : env * list (reply * list (nat * option target)) :=
  match l with
  | [] => (e, [])
  | a :: rest =>
      let '(e', r, calls) := handle int_of float_of bool_of fround hooks e a in
      let '(e'', out) := commands int_of float_of bool_of fround hooks e' rest in
      (e'', (r, calls) :: out)
  end.

(** A command that acts on the other side or is user-defined. *)
Definition passes_through (a : args) : bool :=
  a_remote a || match a_verb a with VCustom => true | _ => false end.
Definition is_get (a : args) : bool := match a_verb a with VGet => true | _ => false end.

(** The representable value closest to [z]. *)
Definition nearest (bits : Z) (signed : bool) (z w : Z) : Prop :=
  representable bits signed w /\
  forall w', representable bits signed w' -> Z.abs (w - z) <= Z.abs (w' - z).

(** An enumeration name that the channel's values can represent. *)
Definition enum_pair (m : renum) (n : string) (v : Z) : Prop := In (n, v) (e_pairs m).
