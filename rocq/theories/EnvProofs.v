(** Lemmas for C31-C35. *)
From Coq Require Import QArith ZifyBool ZifyNat.
From Verif Require Import Base BaseLemmas PrimModel PrimSpec PrimProofs ScalingModel
  RegistryModel RegistrySpec RegistryProofs EnumModel EnumSpec EnumProofs FieldModel FieldSpec FieldProofs
  EnvModel EnvSpec.
Open Scope Z_scope.

Lemma upd_length {A} (l : list A) : forall n x, List.length (upd l n x) = List.length l.
Proof. induction l as [|y l IH]; intros [|n] x; cbn; auto. Qed.
Lemma upd_eq {A} (l : list A) : forall n x y, nth_error l n = Some y -> nth_error (upd l n x) n = Some x.
Proof. induction l as [|z l IH]; intros [|n] x y H; cbn in *; try discriminate; eauto. Qed.
Lemma upd_ne {A} (l : list A) : forall n m x, n <> m -> nth_error (upd l n x) m = nth_error l m.
Proof. induction l as [|z l IH]; intros [|n] [|m] x H; cbn; auto; try congruence. Qed.
Lemma upd_same {A} (l : list A) : forall n x, nth_error l n = Some x -> upd l n x = l.
Proof. induction l as [|z l IH]; intros [|n] x H; cbn in *; try discriminate; f_equal; auto; congruence. Qed.
Lemma upd_upd {A} (l : list A) : forall n x y, upd (upd l n x) n y = upd l n y.
Proof. induction l as [|z l IH]; intros [|n] x y; cbn; f_equal; auto. Qed.

Lemma with_heap_same e : with_heap e (e_heap e) = e.
Proof. destruct e; reflexivity. Qed.
Lemma same_shape_refl e : same_shape e e.
Proof. unfold same_shape. symmetry. apply with_heap_same. Qed.
Lemma same_shape_put e r c : same_shape e (e_put e r c).
Proof. unfold same_shape, e_put. destruct e; reflexivity. Qed.
Lemma same_shape_trans a b c : same_shape a b -> same_shape b c -> same_shape a c.
Proof.
  unfold same_shape. intros H1 H2. destruct a, b, c; unfold with_heap in *; cbn in *.
  injection H1; injection H2; intros; subst; reflexivity.
Qed.

Section ShapeFacts.
  Context (e e' : env) (H : same_shape e e').
  Lemma shape_name k : e_name e' k = e_name e k.
  Proof. rewrite H; reflexivity. Qed.
  Lemma shape_get k : e_get e' k = e_get e k.
  Proof. rewrite H; reflexivity. Qed.
  Lemma shape_has k : e_has_field e' k = e_has_field e k.
  Proof. rewrite H; reflexivity. Qed.
  Lemma shape_field k : e_get_field e' k = e_get_field e k.
  Proof. rewrite H; reflexivity. Qed.
  Lemma shape_target k : e_target e' k = e_target e k.
  Proof. rewrite H; reflexivity. Qed.
  Lemma shape_exists k : e_exists e' k = e_exists e k.
  Proof. rewrite H; reflexivity. Qed.
  Lemma shape_flenum : e_flenum e' = e_flenum e.
  Proof. rewrite H; reflexivity. Qed.
  Lemma shape_nocoll : no_collision e -> no_collision e'.
  Proof. intros N k. rewrite shape_has, shape_get. apply N. Qed.
  Lemma shape_cmdprim p : commandable_prim e' p <-> commandable_prim e p.
  Proof. unfold commandable_prim. setoid_rewrite shape_target. reflexivity. Qed.
End ShapeFacts.

(** The primitive a set of key [k] writes: the field first, then the channel. *)
Definition set_ref (e : env) (k : key) : option nat :=
  if e_has_field e k then option_map fst (e_get_field e k)
  else option_map ch_ref (e_get e k).

Section Commands.
  Context (int_of : string -> option Z) (float_of : string -> option flo)
    (bool_of : string -> option bool) (fround : kind -> flo -> flo).
  Notation e_set := (e_set int_of float_of bool_of fround).
  Notation handle := (handle int_of float_of bool_of fround).

  Lemma field_write_shape e r f v e' : e_field_write e r f v = Ok e' ->
    exists c c', e_cell e r = Some c /\ cell_field_write c f v = Ok c' /\ e' = e_put e r c'.
  Proof.
    unfold e_field_write. destruct (e_cell e r) as [c|]; [|discriminate].
    destruct (cell_field_write c f v) as [c'|] eqn:E; [|discriminate]. intros X; injection X as <-. eauto.
  Qed.

  Lemma set_shape e k v sc e' : e_set e k v sc = Ok e' ->
    exists r c, set_ref e k = Some r /\ e' = e_put e r c.
  Proof.
    unfold EnvModel.e_set, set_ref. destruct (e_has_field e k).
    - unfold e_set_field.
      assert (W : forall r f z, e_field_write e r f z = Ok e' -> exists c, e' = e_put e r c).
      { intros r f z W. apply field_write_shape in W as (c & c' & _ & _ & ->). eauto. }
      intros X. destruct (e_get_field e k) as [[r f]|]; [|destruct v as [|[]]; discriminate].
      assert (exists z, e_field_write e r f z = Ok e') as [z Hz].
      { destruct v as [s|[z|b|fl]]; try discriminate; eauto.
        destruct (dget (fl_name f) (e_flenum e)) as [m|].
        - destruct (e_get_int int_of bool_of m (VStr s)); [eauto|discriminate].
        - destruct (bool_of s); [eauto|]. destruct (int_of s); [eauto|discriminate]. }
      apply W in Hz as [c ->]. exists r, c. split; reflexivity.
    - destruct (e_get e k) as [ch|]; [|discriminate].
      destruct (e_cell e (ch_ref ch)) as [c|]; [|discriminate].
      destruct (resolve _ _ _ _ _ _) as [n|]; [|discriminate].
      destruct (if sc then _ else _) as [c'|]; [|discriminate].
      intros X; injection X as <-. exists (ch_ref ch), c'. split; reflexivity.
  Qed.

  Lemma put_cell_other e r c p : p <> r -> e_cell (e_put e r c) p = e_cell e p.
  Proof. intros H. unfold e_cell, e_put; cbn. apply upd_ne. congruence. Qed.
  Lemma put_cell_same e r c c0 : e_cell e r = Some c0 -> e_cell (e_put e r c) r = Some c.
  Proof. intros H. unfold e_cell, e_put in *; cbn. eapply upd_eq; eauto. Qed.

  (** Under [no_collision] a successful set writes the target. *)
  Lemma set_ref_target e k r : no_collision e -> set_ref e k = Some r ->
    exists t, e_target e k = Some t /\ t_ref t = r.
  Proof.
    intros N. unfold set_ref, e_target. destruct (e_has_field e k) eqn:H.
    - rewrite (N k H). destruct (e_get_field e k) as [[r0 f]|]; [|discriminate].
      cbn. intros X; injection X as <-. eexists; split; reflexivity.
    - destruct (e_get e k) as [c|]; [|discriminate]. cbn. intros X; injection X as <-.
      eexists; split; reflexivity.
  Qed.

  Lemma toggle_shape e t e' r : do_toggle e t = (e', r) ->
    e' = e \/ (accepted r = true /\ exists c, e' = e_put e (t_ref t) c).
  Proof.
    unfold do_toggle. destruct t as [ch|p f].
    - destruct (e_cell e (ch_ref ch)) as [c|]; [|intros X; injection X as <- _; auto].
      destruct (c_kind c); try (intros X; injection X as <- _; now left).
      destruct (c_raw c); intros X; injection X as <- <-; [right|now left].
      split; [reflexivity|]. eexists; reflexivity.
    - destruct (e_cell e p) as [c|]; [|intros X; injection X as <- _; auto].
      destruct (e_field_write e p f _) as [e1|x] eqn:W; intros X; injection X as <- <-; [right|now left].
      apply field_write_shape in W as (? & c' & _ & _ & ->). split; [reflexivity|]. eexists; reflexivity.
  Qed.

  Lemma do_set_shape e a e' r : do_set int_of float_of bool_of fround e a = (e', r) ->
    e' = e \/ (accepted r = true /\ exists p c, set_ref e (inl (a_chan a)) = Some p /\ e' = e_put e p c).
  Proof.
    unfold do_set. destruct (a_extra a) as [|v ?]; [intros X; injection X as <- _; auto|].
    destruct (e_set e _ _ true) as [e1|[]] eqn:S; intros X; injection X as <- <-; auto.
    right. split; [reflexivity|]. apply set_shape in S. exact S.
  Qed.

  (** What a command can do to the environment. *)
  Lemma handle_shape hooks e a e' r calls : handle hooks e a = (e', r, calls) ->
    e' = e \/
    (accepted r = true /\ passes_through a = false /\ is_get a = false /\
     exists t, e_target e (inl (a_chan a)) = Some t /\
       (t_cmd t = true \/ a_force a = true) /\
       ((a_verb a = VToggle /\ exists c, e' = e_put e (t_ref t) c) \/
        (a_verb a = VSet /\ exists p c, set_ref e (inl (a_chan a)) = Some p /\ e' = e_put e p c))).
  Proof.
    unfold EnvModel.handle. fold (passes_through a).
    destruct (passes_through a) eqn:P; [intros X; injection X as <- _ _; auto|].
    assert (G : forall v, a_verb a = v -> v <> VGet ->
      match e_target e (inl (a_chan a)) with
      | Some t =>
          if negb (t_cmd t) && negb (a_force a) then (e, CFailure, [])
          else
            let '(e', r) := match v with
                            | VSet => do_set int_of float_of bool_of fround e a
                            | VToggle => do_toggle e t
                            | _ => (e, CSuccess)
                            end in
            (e', r, if accepted r then call_hooks hooks (Some t) else [])
      | None => (e, CFailure, [])
      end = (e', r, calls) ->
      e' = e \/
      (accepted r = true /\ false = false /\ is_get a = false /\
       exists t, e_target e (inl (a_chan a)) = Some t /\
         (t_cmd t = true \/ a_force a = true) /\
         ((v = VToggle /\ exists c, e' = e_put e (t_ref t) c) \/
          (v = VSet /\ exists p c, set_ref e (inl (a_chan a)) = Some p /\ e' = e_put e p c)))).
    { intros v Hv Hg. destruct (e_target e (inl (a_chan a))) as [t|]; [|intros X; injection X as <- _ _; auto].
      destruct (negb (t_cmd t) && negb (a_force a)) eqn:F; [intros X; injection X as <- _ _; auto|].
      assert (F' : t_cmd t = true \/ a_force a = true) by (destruct (t_cmd t), (a_force a); auto; discriminate).
      assert (IG : is_get a = false) by (unfold is_get; rewrite Hv; destruct v; congruence).
      destruct v; try congruence.
      - destruct (do_set _ _ _ _ e a) as [e1 r1] eqn:S. intros X; injection X as <- <- <-.
        apply do_set_shape in S as [->|[A (p & c & Hp & ->)]]; [auto|]. right.
        split; [exact A|]. split; [reflexivity|]. split; [exact IG|]. exists t. split; [reflexivity|].
        split; [exact F'|]. right. split; [reflexivity|]. exists p, c. split; [exact Hp|reflexivity].
      - destruct (do_toggle e t) as [e1 r1] eqn:S. intros X; injection X as <- <- <-.
        apply toggle_shape in S as [->|[A (c & ->)]]; [auto|]. right.
        split; [exact A|]. split; [reflexivity|]. split; [exact IG|]. exists t. split; [reflexivity|].
        split; [exact F'|]. left. split; [reflexivity|]. exists c. reflexivity.
      - intros X; injection X as <- _ _; auto. }
    destruct (a_verb a) eqn:V.
    - intros X. apply (G VSet eq_refl) in X; [exact X|discriminate].
    - intros X. apply (G VToggle eq_refl) in X; [exact X|discriminate].
    - destruct (e_exists e _) eqn:E.
      + destruct (e_value e _ true true); intros X; injection X as <- _ _; auto.
      + destruct (e_target e _) as [t|]; [|intros X; injection X as <- _ _; auto].
        destruct (negb (t_cmd t) && negb (a_force a)); intros X; injection X as <- _ _; auto.
    - intros X. apply (G VCustom eq_refl) in X; [exact X|discriminate].
  Qed.

  Lemma handle_same_shape hooks e a e' r calls :
    handle hooks e a = (e', r, calls) -> same_shape e e'.
  Proof.
    intros H. apply handle_shape in H as [->|(_ & _ & _ & t & _ & _ & H)]; [apply same_shape_refl|].
    destruct H as [(_ & c & ->)|(_ & p & c & _ & ->)]; apply same_shape_put.
  Qed.

  Lemma handle_target hooks e a e' r calls : no_collision e ->
    handle hooks e a = (e', r, calls) ->
    forall p, e_cell e' p <> e_cell e p ->
    exists t, e_target e (inl (a_chan a)) = Some t /\ (t_cmd t = true \/ a_force a = true) /\
      t_ref t = p.
  Proof.
    intros N H p D. apply handle_shape in H as [->|(_ & _ & _ & t & T & F & H)]; [congruence|].
    exists t. split; [exact T|]. split; [exact F|].
    destruct H as [(_ & c & ->)|(_ & q & c & Q & ->)].
    - destruct (Nat.eq_dec (t_ref t) p); [assumption|]. exfalso. apply D. apply put_cell_other. congruence.
    - destruct (set_ref_target e _ q N Q) as (t' & T' & R). assert (t' = t) by congruence. subst t'.
      destruct (Nat.eq_dec q p); [congruence|]. exfalso. apply D. apply put_cell_other. congruence.
  Qed.

  Lemma handle_hooks hooks e a e' r calls : handle hooks e a = (e', r, calls) ->
    calls =
      if passes_through a then map (fun h => (h, None)) hooks
      else if accepted r && negb (is_get a)
           then map (fun h => (h, e_target e (inl (a_chan a)))) hooks else [].
  Proof.
    unfold EnvModel.handle. fold (passes_through a).
    destruct (passes_through a) eqn:P; [intros X; injection X as _ _ <-; reflexivity|].
    unfold is_get. destruct (a_verb a) eqn:V.
    - destruct (e_target e _) as [t|]; [|intros X; injection X as _ <- <-; reflexivity].
      destruct (negb (t_cmd t) && negb (a_force a)); [intros X; injection X as _ <- <-; reflexivity|].
      destruct (do_set _ _ _ _ e a) as [e1 r1]. intros X; injection X as _ <- <-.
      rewrite Bool.andb_true_r. reflexivity.
    - destruct (e_target e _) as [t|]; [|intros X; injection X as _ <- <-; reflexivity].
      destruct (negb (t_cmd t) && negb (a_force a)); [intros X; injection X as _ <- <-; reflexivity|].
      destruct (do_toggle e t) as [e1 r1]. intros X; injection X as _ <- <-.
      rewrite Bool.andb_true_r. reflexivity.
    - rewrite Bool.andb_false_r. destruct (e_exists e _) eqn:E.
      + destruct (e_value e _ true true); intros X; injection X as _ _ <-; reflexivity.
      + destruct (e_target e _) as [t|] eqn:T; [|intros X; injection X as _ _ <-; reflexivity].
        exfalso. unfold e_exists, e_has_field in E. unfold e_target in T.
        destruct (e_get e _); [rewrite Bool.orb_true_r in E; discriminate|].
        unfold e_get_field in T. destruct (e_name e _); [|discriminate].
        unfold dmem in E. destruct (dget _ _); discriminate.
    - unfold passes_through in P. rewrite V, Bool.orb_true_r in P. discriminate.
  Qed.

  Lemma commands_shape hooks l : forall e e' out,
    commands int_of float_of bool_of fround hooks e l = (e', out) -> same_shape e e'.
  Proof.
    induction l as [|a l IH]; cbn; intros e e' out H; [injection H as <- _; apply same_shape_refl|].
    destruct (handle hooks e a) as [[e1 r] calls] eqn:H1.
    destruct (commands _ _ _ _ hooks e1 l) as [e2 out2] eqn:H2. injection H as <- _.
    eapply same_shape_trans; [eapply handle_same_shape; eauto|eapply IH; eauto].
  Qed.

  Lemma commands_only hooks l : forall e e' out p, no_collision e ->
    Forall (fun a => a_force a = false) l ->
    commands int_of float_of bool_of fround hooks e l = (e', out) ->
    ~ commandable_prim e p -> e_cell e' p = e_cell e p.
  Proof.
    induction l as [|a l IH]; cbn; intros e e' out p N F H C; [injection H as <- _; reflexivity|].
    inversion F as [|? ? Fa Fl]; subst.
    destruct (handle hooks e a) as [[e1 r] calls] eqn:H1.
    destruct (commands _ _ _ _ hooks e1 l) as [e2 out2] eqn:H2. injection H as <- _.
    pose proof (handle_same_shape _ _ _ _ _ _ H1) as S.
    rewrite (IH e1 e2 out2 p); try assumption.
    - destruct (handle_shape _ _ _ _ _ _ H1) as [->|X]; [reflexivity|].
      destruct X as (_ & _ & _ & t & T & Fc & X).
      assert (R : t_ref t <> p).
      { intros R. apply C. exists (inl (a_chan a)), t. destruct Fc; [auto|congruence]. }
      destruct X as [(_ & c & ->)|(_ & q & c & Q & ->)]; apply put_cell_other; [congruence|].
      destruct (set_ref_target e _ q N Q) as (t' & T' & R'). congruence.
    - eapply shape_nocoll; eauto.
    - rewrite (shape_cmdprim _ _ S). exact C.
  Qed.
End Commands.
