(** Vocabulary for application stages. *)
From Verif Require Import Base ArbiterModel.
From Coq Require Import Permutation.
Open Scope list_scope.
Open Scope Z_scope.

(** The methods of a stage end in some order, each once. *)
Definition proper (st : stage) : Prop := Permutation (st_order st) (seq 0 (List.length (st_apps st))).
(** Method [i] of stage [s]. *)
Definition method (sts : list stage) (s i : nat) (a : appl) : Prop :=
  exists st, nth_error sts s = Some st /\ nth_error (st_apps st) i = Some a.
(** All methods of the stage return. *)
Definition all_return (st : stage) : Prop := forall a, In a (st_apps st) -> exists code, a_out a = Returned code.
Definition sum (l : list Z) : Z := fold_right Z.add 0 l.
Definition codes (st : stage) : list Z := map (fun a => match a_out a with Returned c => c | _ => 0 end) (st_apps st).
(** All return, and the codes add up to 0: what the arbiter takes for success. *)
Definition stage_ok (st : stage) : Prop := all_return st /\ sum (codes st) = 0.
(** All return 0: what a user takes for success. *)
Definition passes (a : appl) : Prop := a_out a = Returned 0.
Definition all_pass (sts : list stage) : Prop := forall s i a, method sts s i a -> passes a.
Definition no_negative (sts : list stage) : Prop := forall s i a c, method sts s i a -> a_out a = Returned c -> 0 <= c.
Definition no_cancel (sts : list stage) : Prop := forall s i a, method sts s i a -> a_out a <> Cancelled.

(** The stages before stage [s] are ok: what the arbiter asks before it starts
    stage [s]. *)
Definition reached (sts : list stage) (s : nat) : Prop := forall s' st, (s' < s)%nat -> nth_error sts s' = Some st -> stage_ok st.
(** What is recorded for a stage: the code of every method and whether it is 0;
    or, if one raised, its exception for every method; or that they did not run. *)
Inductive recorded (started : Prop) (st : stage) (l : list result) : Prop :=
| rec_run : started ->
    Forall2 (fun a r => exists c, a_out a = Returned c /\ r = mkResult (a_name a) (if c =? 0 then PASS else FAIL) (Some c) None) (st_apps st) l ->
    recorded started st l
| rec_exc e a : started -> In a (st_apps st) -> a_out a = Raised e ->
    l = map (fun a => mkResult (a_name a) EXCEPTION None (Some e)) (st_apps st) -> recorded started st l
| rec_not : ~ started -> l = map (fun a => mkResult (a_name a) NOT_RUN None None) (st_apps st) -> recorded started st l.
