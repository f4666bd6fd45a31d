(** Lemmas for C31 and C35: what every call keeps. *)
From Coq Require Import QArith ZifyBool ZifyNat.
From Verif Require Import Base BaseLemmas PrimModel PrimSpec ScalingModel FieldModel FieldSpec FieldProofs
  RegistryModel RegistrySpec RegistryProofs EnumModel EnumSpec EnumProofs EnvModel EnvSpec EnvProofs EnvWf EnvLife.
Open Scope Z_scope.

Section More.
  Context (valid : string -> bool) (int_of : string -> option Z)
    (float_of : string -> option flo) (bool_of : string -> option bool)
    (fround : kind -> flo -> flo) (enums : string + Z -> option renum).
  Notation EWF := (EWF enums).
  Notation step := (step valid int_of float_of bool_of fround enums).
  Notation run := (run valid int_of float_of bool_of fround enums).
  Notation mgr_field := (mgr_field valid enums).
  Notation mgr_add := (mgr_add valid enums).

  (** What a call never takes away: names, channels and fields of registers. *)
  Definition keeps (e e' : env) : Prop :=
    MExt (r_map (e_names e)) (r_map (e_names e')) /\
    (forall n ch, dget n (e_chans e) = Some ch -> dget n (e_chans e') = Some ch) /\
    (forall b bf n f, nth_error (e_bfs e) b = Some bf -> dget n (bf_fields bf) = Some f ->
       exists bf', nth_error (e_bfs e') b = Some bf' /\ bf_ref bf' = bf_ref bf /\
                   dget n (bf_fields bf') = Some f).

  Lemma keeps_same e e' : e_names e' = e_names e -> e_chans e' = e_chans e -> e_bfs e' = e_bfs e -> keeps e e'.
  Proof. intros A B C. unfold keeps. rewrite A, B, C. split; [apply MExt_refl|]. split; eauto. Qed.

  Lemma keeps_trans a b c : keeps a b -> keeps b c -> keeps a c.
  Proof.
    intros (A1 & A2 & A3) (B1 & B2 & B3). split; [eapply MExt_trans; eauto|]. split; [auto|].
    intros i bf n f H1 H2. destruct (A3 i bf n f H1 H2) as (bf1 & Q1 & Q2 & Q3).
    destruct (B3 i bf1 n f Q1 Q3) as (bf2 & R1 & R2 & R3). exists bf2. split; [exact R1|]. split; [congruence|exact R3].
  Qed.

  Lemma keeps_shape e e' : same_shape e e' -> keeps e e'.
  Proof. intros ->. apply keeps_same; reflexivity. Qed.

  Lemma register_ext e name n' out : MInv (r_map (e_names e)) ->
    r_register valid (e_names e) name None = (n', out) ->
    MInv (r_map n') /\ MExt (r_map (e_names e)) (r_map n').
  Proof. intros M R. destruct (register_known valid e name n' out M R) as (A & B & _). auto. Qed.

  Lemma mgr_field_keeps i acc nf : MInv (r_map (e_names (fst acc))) ->
    MInv (r_map (e_names (fst (mgr_field i acc nf)))) /\ keeps (fst acc) (fst (mgr_field i acc nf)).
  Proof.
    destruct acc as [e ok]. cbn [fst]. intros M. unfold EnvModel.mgr_field.
    destruct ok; cbn [negb]; [|cbn; split; [exact M|apply keeps_same; reflexivity]].
    destruct (r_register valid (e_names e) (fst nf) None) as [n' out] eqn:R.
    destruct (register_ext e (fst nf) n' out M R) as (A & B).
    assert (G : forall e', e_names e' = n' -> e_chans e' = e_chans e -> e_bfs e' = e_bfs e ->
              MInv (r_map (e_names e')) /\ keeps e e').
    { intros e' E1 E2 E3. rewrite E1. split; [exact A|]. unfold keeps. rewrite E1, E2, E3. split; [exact B|]. split; eauto. }
    destruct out as [[id|]| |]; try (apply G; reflexivity).
    destruct (fl_enum (snd nf)) as [k|]; [destruct (enums k)|]; apply G; reflexivity.
  Qed.

  Lemma mgr_fields_keeps i l : forall acc, MInv (r_map (e_names (fst acc))) ->
    MInv (r_map (e_names (fst (fold_left (mgr_field i) l acc)))) /\ keeps (fst acc) (fst (fold_left (mgr_field i) l acc)).
  Proof.
    induction l as [|nf l IH]; intros acc M; [cbn; split; [exact M|apply keeps_same; reflexivity]|].
    cbn [fold_left]. destruct (mgr_field_keeps i acc nf M) as [A B]. destruct (IH _ A) as [C D].
    split; [exact C|eapply keeps_trans; eauto].
  Qed.

  Lemma adds_keeps l : forall acc, MInv (r_map (e_names (fst acc))) ->
    MInv (r_map (e_names (fst (adds valid enums l acc)))) /\ keeps (fst acc) (fst (adds valid enums l acc)).
  Proof.
    induction l as [|b l IH]; intros acc M; [cbn; split; [exact M|apply keeps_same; reflexivity]|].
    unfold adds. cbn [fold_left]. destruct acc as [e ok]. cbn [fst] in *.
    destruct ok; [|apply (IH (e, false)); exact M].
    fold (adds valid enums l (mgr_add e b)).
    assert (S : MInv (r_map (e_names (fst (mgr_add e b)))) /\ keeps e (fst (mgr_add e b))).
    { unfold EnvModel.mgr_add. destruct (nth_error (e_bfs e) b) as [bf|]; [|split; [exact M|apply keeps_same; reflexivity]].
      match goal with |- context [fold_left _ _ (?x, true)] => set (e1 := x) end.
      destruct (mgr_fields_keeps (List.length (e_mgr e)) (bf_fields bf) (e1, true) M) as [A B].
      split; [exact A|]. eapply keeps_trans; [|exact B]. apply keeps_same; reflexivity. }
    destruct S as [A B]. destruct (IH _ A) as [C D]. split; [exact C|eapply keeps_trans; eauto].
  Qed.

  (** Adding a field to register [b]. *)
  Lemma keeps_add e b bf f : nth_error (e_bfs e) b = Some bf -> dmem (fl_name f) (bf_fields bf) = false ->
    keeps e (mkEnv (e_heap e) (e_names e) (e_chans e)
               (upd (e_bfs e) b (mkBf (bf_ref bf) (dset (fl_name f) f (bf_fields bf))))
               (e_mgr e) (e_lookup e) (e_flenum e) (e_byprim e) (e_toadd e) (e_final e) (e_bypass e)).
  Proof.
    intros Hb D. apply dmem_false in D. split; [apply MExt_refl|]. split; [cbn; auto|]. cbn.
    intros b' bf' n g H1 H2. destruct (Nat.eq_dec b b') as [<-|Hne].
    - rewrite Hb in H1. injection H1 as <-. erewrite upd_eq by exact Hb. eexists. split; [reflexivity|].
      split; [reflexivity|]. cbn. rewrite dget_dset_ne; [exact H2|congruence].
    - rewrite upd_ne by exact Hne. eauto.
  Qed.

  Lemma step_keeps e o : EWF e -> keeps e (fst (step e o)).
  Proof.
    intros W. pose proof (w_names _ e W) as M.
    assert (Id : forall e', e' = e -> keeps e e') by (intros e' ->; apply keeps_same; reflexivity).
    destruct o; cbn [EnvModel.step].
    - apply keeps_same; reflexivity.
    - unfold e_channel. destruct (e_finalized e); [apply Id; reflexivity|].
      destruct (negb _); [apply Id; reflexivity|].
      destruct (r_register valid (e_names e) name None) as [n' out] eqn:R.
      destruct (register_ext e name n' out M R) as (A & B).
      assert (G : keeps e (with_names e n')) by (split; [exact B|split; cbn; eauto]).
      destruct out as [[id|]| |]; try exact G.
      destruct (dmem name (e_chans (with_names e n'))) eqn:D; [exact G|]. apply dmem_false in D. cbn in D.
      assert (H : forall ch, keeps e (with_chans (with_names e n') (dset name ch (e_chans (with_names e n'))))).
      { intros ch. split; [exact B|]. split; cbn; [|eauto]. intros n c Hc. rewrite dget_dset_ne; [exact Hc|congruence]. }
      destruct en as [k|]; [destruct (enums k)|]; apply H.
    - unfold e_add_field. destruct (e_cell e r) as [c|]; [|apply Id; reflexivity].
      destruct (negb _); [apply Id; reflexivity|].
      destruct (dget r (e_byprim e)) as [b|].
      + destruct (nth_error (e_bfs e) b) as [bf|] eqn:Hb; [|apply Id; reflexivity].
        destruct (dmem _ _) eqn:D; [apply Id; reflexivity|]. apply keeps_add; assumption.
      + match goal with |- context [upd (e_bfs ?x)] => set (e1 := x) end.
        assert (K : keeps e e1).
        { split; [apply MExt_refl|]. split; [cbn; auto|]. cbn. intros b bf n g H1 H2. exists bf.
          rewrite nth_error_app1 by (apply nth_error_Some; congruence). auto. }
        destruct (nth_error (e_bfs e1) _) as [bf|] eqn:Hb; [|exact K].
        destruct (dmem _ _) eqn:D; [exact K|]. eapply keeps_trans; [exact K|]. apply keeps_add; assumption.
    - unfold EnvModel.e_finalize. fold (adds valid enums (e_toadd e) (e, true)).
      destruct (adds_keeps (e_toadd e) (e, true) M) as [_ K].
      destruct (adds valid enums (e_toadd e) (e, true)) as [e1 ok]. cbn [fst] in *.
      destruct ok; cbn [negb]; [|exact K]. destruct (strict && e_finalized e1); [exact K|].
      eapply keeps_trans; [exact K|]. apply keeps_same; reflexivity.
    - unfold e_set_bypass. destruct (on && e_bypass e); [apply Id; reflexivity|]. apply keeps_same; reflexivity.
    - destruct (e_set _ _ _ _ e k v scaled) as [e1|] eqn:Q; [|apply Id; reflexivity].
      apply set_shape in Q as (r & c & _ & ->). apply keeps_shape. apply same_shape_put.
    - destruct (handle _ _ _ _ hooks e a) as [[e1 rp] calls] eqn:Q. cbn [fst].
      apply keeps_shape. eapply handle_same_shape; eauto.
  Qed.

  Lemma run_keeps ops : forall e, EWF e -> keeps e (run e ops).
  Proof.
    unfold EnvModel.run. induction ops as [|o ops IH]; intros e W; [apply keeps_same; reflexivity|]. cbn [fold_left].
    eapply keeps_trans; [apply step_keeps; exact W|]. apply IH. apply wf_step. exact W.
  Qed.

  Lemma keeps_get e e' k ch : keeps e e' -> e_get e k = Some ch -> e_get e' k = Some ch.
  Proof.
    intros ([X1 X2] & C & _) H. unfold e_get, e_name in *. destruct k as [s|z].
    - unfold m_name_str, dmem in *. destruct (dget s (m_rev (r_map (e_names e)))) as [i|] eqn:D; [|discriminate].
      rewrite (X1 _ _ D). apply C. exact H.
    - unfold m_name in *. destruct (dget z (m_fwd (r_map (e_names e)))) as [n|] eqn:D; [|discriminate].
      rewrite (X2 _ _ D). apply C. exact H.
  Qed.
End More.
