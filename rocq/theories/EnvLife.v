(** Lemmas for C35: finalization. *)
From Coq Require Import QArith ZifyBool ZifyNat.
From Verif Require Import Base BaseLemmas PrimModel PrimSpec ScalingModel FieldModel FieldSpec FieldProofs
  RegistryModel RegistrySpec RegistryProofs EnumModel EnumSpec EnumProofs EnvModel EnvSpec EnvProofs EnvWf.
Open Scope Z_scope.

(** The register a field name currently denotes. *)
Definition owner (e : env) (n : string) : option nat :=
  match dget n (e_lookup e) with Some i => nth_error (e_mgr e) i | None => None end.

(** Which of the registers [l] (last wins) has a field of that name. *)
Definition has_name (e : env) (n : string) (b : nat) : bool :=
  match nth_error (e_bfs e) b with Some bf => dmem n (bf_fields bf) | None => false end.
Definition last_owner (e : env) (n : string) (l : list nat) (o : option nat) : option nat :=
  fold_left (fun acc b => if has_name e n b then Some b else acc) l o.

Lemma last_owner_idem e n l o : last_owner e n l (last_owner e n l o) = last_owner e n l o.
Proof.
  assert (G : (forall o', last_owner e n l o' = o') \/ (forall o1 o2, last_owner e n l o1 = last_owner e n l o2)).
  { unfold last_owner. induction l as [|b l IH]; [left; reflexivity|]. cbn [fold_left].
    destruct (has_name e n b).
    - right. reflexivity.
    - exact IH. }
  destruct G as [G|G]; [rewrite !G; reflexivity|apply G].
Qed.

Section Life.
  Context (valid : string -> bool) (int_of : string -> option Z)
    (float_of : string -> option flo) (bool_of : string -> option bool)
    (fround : kind -> flo -> flo) (enums : string + Z -> option renum).
  Notation EWF := (EWF enums).
  Notation step := (step valid int_of float_of bool_of fround enums).
  Notation run := (run valid int_of float_of bool_of fround enums).
  Notation mgr_field := (mgr_field valid enums).
  Notation mgr_add := (mgr_add valid enums).
  Notation e_finalize := (e_finalize valid enums).

  (** Everything except names, [lookup] and [enum_lookup]. *)
  Definition same_rest (e e' : env) : Prop :=
    e_heap e' = e_heap e /\ e_chans e' = e_chans e /\ e_bfs e' = e_bfs e /\ e_mgr e' = e_mgr e /\
    e_byprim e' = e_byprim e /\ e_toadd e' = e_toadd e /\ e_final e' = e_final e /\ e_bypass e' = e_bypass e.

  Lemma mgr_field_rest i e ok nf : same_rest e (fst (mgr_field i (e, ok) nf)).
  Proof.
    unfold same_rest, EnvModel.mgr_field. destruct ok; cbn [negb]; [|cbn; auto 10].
    destruct (r_register valid (e_names e) (fst nf) None) as [n' [[id|]| |]]; cbn; auto 10.
    destruct (fl_enum (snd nf)) as [k|]; [destruct (enums k)|]; cbn; auto 10.
  Qed.

  Lemma mgr_fields_rest i l : forall e ok, same_rest e (fst (fold_left (mgr_field i) l (e, ok))).
  Proof.
    induction l as [|nf l IH]; intros e ok; [cbn; unfold same_rest; auto 10|]. cbn [fold_left].
    pose proof (mgr_field_rest i e ok nf) as A. destruct (mgr_field i (e, ok) nf) as [e1 ok1].
    cbn [fst] in A. pose proof (IH e1 ok1) as B. unfold same_rest in *.
    decompose [and] A. decompose [and] B. repeat split; congruence.
  Qed.

  Lemma mgr_fields_false i l : forall e, snd (fold_left (mgr_field i) l (e, false)) = false.
  Proof. induction l as [|nf l IH]; intros e; [reflexivity|]. cbn [fold_left]. apply IH. Qed.

  Definition enum_fine (f : field) : Prop := forall k, fl_enum f = Some k -> enums k <> None.

  (** One field, when the result is good. *)
  Lemma mgr_field_true i e nf e' : MInv (r_map (e_names e)) -> mgr_field i (e, true) nf = (e', true) ->
    MInv (r_map (e_names e')) /\ MExt (r_map (e_names e)) (r_map (e_names e')) /\
    known e' (fst nf) /\ enum_fine (snd nf) /\ e_lookup e' = dset (fst nf) i (e_lookup e).
  Proof.
    intros M. unfold EnvModel.mgr_field. cbn [negb].
    destruct (r_register valid (e_names e) (fst nf) None) as [n' out] eqn:R.
    destruct (register_known valid e (fst nf) n' out M R) as (M' & X & I).
    destruct out as [[id|]| |]; try discriminate. specialize (I id eq_refl).
    unfold enum_fine. destruct (fl_enum (snd nf)) as [k|] eqn:En; [destruct (enums k) as [m|] eqn:Em|];
      intros Q; try discriminate; injection Q as <-; cbn;
      (split; [exact M'|split; [exact X|split; [unfold known; cbn; rewrite I; discriminate|split; [|reflexivity]]]]).
    - intros k' Hk. injection Hk as <-. congruence.
    - discriminate.
  Qed.

  (** One field whose name is known. *)
  Lemma mgr_field_known i e nf : MInv (r_map (e_names e)) -> known e (fst nf) -> enum_fine (snd nf) ->
    exists e', mgr_field i (e, true) nf = (e', true) /\ e_names e' = e_names e.
  Proof.
    intros M K F. unfold EnvModel.mgr_field. cbn [negb].
    pose proof (r_register_spec valid (e_names e) (fst nf) None M) as S.
    destruct (r_register valid (e_names e) (fst nf) None) as [n' out].
    unfold known in K. destruct (dget (fst nf) (m_rev (r_map (e_names e)))) as [c|]; [|congruence].
    destruct S as [-> ->]. unfold enum_fine in F.
    destruct (fl_enum (snd nf)) as [k|]; [|eexists; split; reflexivity].
    specialize (F k eq_refl). destruct (enums k); [|congruence]. eexists; split; reflexivity.
  Qed.

  Lemma known_ext e e' n : MExt (r_map (e_names e)) (r_map (e_names e')) -> known e n -> known e' n.
  Proof. intros X K. unfold known. eapply ext_known; eauto. Qed.

  Lemma mgr_fields_true i l : forall e e', MInv (r_map (e_names e)) ->
    fold_left (mgr_field i) l (e, true) = (e', true) ->
    MInv (r_map (e_names e')) /\ MExt (r_map (e_names e)) (r_map (e_names e')) /\
    (forall n f, In (n, f) l -> known e' n /\ enum_fine f) /\
    e_lookup e' = fold_left (fun d nf => dset (fst nf) i d) l (e_lookup e).
  Proof.
    induction l as [|nf l IH]; intros e e' M H.
    - cbn in H. injection H as <-. split; [exact M|]. split; [apply MExt_refl|]. split; [intros ? ? []|reflexivity].
    - cbn [fold_left] in H. destruct (mgr_field i (e, true) nf) as [e1 [|]] eqn:E.
      2:{ exfalso. pose proof (mgr_fields_false i l e1) as Q. rewrite H in Q. discriminate. }
      apply mgr_field_true in E as (M1 & X1 & K1 & F1 & L1); [|exact M].
      destruct (IH e1 e' M1 H) as (M2 & X2 & K2 & L2).
      split; [exact M2|]. split; [eapply MExt_trans; eauto|]. split.
      + intros n f [Q|Q]; [|eauto]. subst nf. cbn in K1, F1. split; [eapply known_ext; eauto|exact F1].
      + cbn [fold_left]. rewrite <- L1. exact L2.
  Qed.

  Lemma mgr_fields_known i l : forall e, MInv (r_map (e_names e)) ->
    (forall n f, In (n, f) l -> known e n /\ enum_fine f) ->
    exists e', fold_left (mgr_field i) l (e, true) = (e', true) /\ e_names e' = e_names e.
  Proof.
    induction l as [|nf l IH]; intros e M K; [cbn; eauto|]. cbn [fold_left].
    destruct (mgr_field_known i e nf M) as (e1 & E1 & N1).
    - destruct nf as [n f]. apply (K n f). now left.
    - destruct nf as [n f]. apply (K n f). now left.
    - rewrite E1. destruct (IH e1) as (e2 & E2 & N2).
      + rewrite N1. exact M.
      + intros n f Hin. destruct (K n f) as [A B]; [now right|]. split; [|exact B].
        unfold known in *. rewrite N1. exact A.
      + exists e2. split; [exact E2|congruence].
  Qed.

  Lemma fold_dset_get {V} (l : list (string * V)) (i : nat) n : forall d,
    dget n (fold_left (fun d (nf : string * V) => dset (fst nf) i d) l d) =
    if dmem n l then Some i else dget n d.
  Proof.
    induction l as [|[n' v] l IH]; intros d; [reflexivity|]. cbn [fold_left fst]. rewrite IH.
    unfold dmem. cbn [dget]. rewrite dget_dset. destruct (eq_dec n n'); destruct (dget n l); reflexivity.
  Qed.

  Lemma add_true e b e' : EWF e -> mgr_add e b = (e', true) ->
    MExt (r_map (e_names e)) (r_map (e_names e')) /\
    (exists bf, nth_error (e_bfs e) b = Some bf /\
      forall n f, In (n, f) (bf_fields bf) -> known e' n /\ enum_fine f) /\
    (forall n, owner e' n = if has_name e n b then Some b else owner e n) /\
    e_mgr e' = e_mgr e ++ [b] /\
    e_heap e' = e_heap e /\ e_chans e' = e_chans e /\ e_bfs e' = e_bfs e /\
    e_byprim e' = e_byprim e /\ e_toadd e' = e_toadd e /\ e_final e' = e_final e /\ e_bypass e' = e_bypass e.
  Proof.
    intros W. unfold EnvModel.mgr_add. destruct (nth_error (e_bfs e) b) as [bf|] eqn:B; [|discriminate].
    match goal with |- context [fold_left _ _ (?x, true)] => set (e1 := x) end. intros H.
    pose proof (mgr_fields_rest (List.length (e_mgr e)) (bf_fields bf) e1 true) as R.
    rewrite H in R. cbn [fst] in R. destruct R as (R1 & R2 & R3 & R4 & R5 & R6 & R7 & R8).
    apply mgr_fields_true in H as (M & X & K & L); [|exact (w_names _ e W)].
    split; [exact X|]. split; [exists bf; split; [reflexivity|exact K]|]. split.
    { intros n. unfold owner. rewrite L, fold_dset_get, R4. unfold has_name. rewrite B. cbn.
      destruct (dmem n (bf_fields bf)).
      - rewrite nth_error_app2 by lia. rewrite Nat.sub_diag. reflexivity.
      - destruct (dget n (e_lookup e)) as [i|] eqn:Li; [|reflexivity].
        destruct (w_lookup _ e W n i Li) as (_ & b' & _ & _ & Hb & _).
        rewrite nth_error_app1; [reflexivity|]. apply nth_error_Some. congruence. }
    cbn in *. auto 10.
  Qed.

  Definition adds (l : list nat) (acc : env * bool) : env * bool :=
    fold_left (fun (acc : env * bool) b => let '(e, ok) := acc in if ok then mgr_add e b else (e, false)) l acc.
  Lemma adds_false l : forall e, adds l (e, false) = (e, false).
  Proof. induction l as [|b l IH]; intros e; [reflexivity|]. apply IH. Qed.

  Definition fine (e : env) (l : list nat) : Prop :=
    forall b, In b l -> exists bf, nth_error (e_bfs e) b = Some bf /\
      forall n f, In (n, f) (bf_fields bf) -> known e n /\ enum_fine f.

  Lemma adds_true l : forall e e', EWF e -> adds l (e, true) = (e', true) ->
    EWF e' /\ MExt (r_map (e_names e)) (r_map (e_names e')) /\ fine e' l /\
    (forall n, owner e' n = last_owner e n l (owner e n)) /\
    e_mgr e' = e_mgr e ++ l /\
    e_heap e' = e_heap e /\ e_chans e' = e_chans e /\ e_bfs e' = e_bfs e /\
    e_byprim e' = e_byprim e /\ e_toadd e' = e_toadd e /\ e_final e' = e_final e /\ e_bypass e' = e_bypass e.
  Proof.
    induction l as [|b l IH]; intros e e' W H.
    - cbn in H. injection H as <-. split; [exact W|]. split; [apply MExt_refl|]. split; [intros ? []|].
      split; [reflexivity|]. rewrite app_nil_r. auto 10.
    - unfold adds in H. cbn [fold_left] in H. fold (adds l (mgr_add e b)) in H.
      pose proof (wf_mgr_add valid enums e b W) as [W1 _].
      destruct (mgr_add e b) as [e1 [|]] eqn:E; [|rewrite adds_false in H; discriminate].
      cbn [fst] in W1. apply add_true in E as (X1 & (bf & Hbf & F1) & O1 & G1 & H1 & C1 & B1 & P1 & T1 & Fi1 & By1); [|exact W].
      destruct (IH e1 e' W1 H) as (W2 & X2 & F2 & O2 & G2 & H2 & C2 & B2 & P2 & T2 & Fi2 & By2).
      split; [exact W2|]. split; [eapply MExt_trans; eauto|]. split.
      { intros b' [<-|Hb]; [|apply F2; exact Hb]. exists bf. split; [congruence|].
        intros n f Hin. destruct (F1 n f Hin) as [A1 A2]. split; [eapply known_ext; eauto|exact A2]. }
      split.
      { intros n. rewrite O2. unfold last_owner. cbn [fold_left]. rewrite O1.
        assert (Q : forall b, has_name e1 n b = has_name e n b) by (intros; unfold has_name; rewrite B1; reflexivity).
        clear - Q. generalize (if has_name e n b then Some b else owner e n).
        induction l as [|x l IHl]; intros o; [reflexivity|]. cbn [fold_left]. rewrite Q. apply IHl. }
      split; [rewrite G2, G1, <- app_assoc; reflexivity|]. repeat split; congruence.
  Qed.

  Lemma add_known e b bf : EWF e -> nth_error (e_bfs e) b = Some bf ->
    (forall n f, In (n, f) (bf_fields bf) -> known e n /\ enum_fine f) ->
    exists e', mgr_add e b = (e', true) /\ e_names e' = e_names e.
  Proof.
    intros W B K. unfold EnvModel.mgr_add. rewrite B.
    match goal with |- context [fold_left _ _ (?x, true)] => set (e1 := x) end.
    apply (mgr_fields_known (List.length (e_mgr e)) (bf_fields bf) e1 (w_names _ e W)).
    exact K.
  Qed.

  Lemma adds_known l : forall e, EWF e -> fine e l ->
    exists e', adds l (e, true) = (e', true) /\ e_names e' = e_names e.
  Proof.
    induction l as [|b l IH]; intros e W F; [cbn; eauto|].
    destruct (F b (or_introl eq_refl)) as (bf & Hbf & K).
    destruct (add_known e b bf W Hbf K) as (e1 & E1 & N1).
    pose proof (wf_mgr_add valid enums e b W) as [W1 _]. rewrite E1 in W1. cbn [fst] in W1.
    destruct (add_true e b e1 W E1) as (_ & _ & _ & _ & _ & _ & B1 & _).
    destruct (IH e1 W1) as (e2 & E2 & N2).
    - intros b' Hb. destruct (F b' (or_intror Hb)) as (bf' & Hbf' & K'). exists bf'. split; [congruence|].
      intros n f Hin. destruct (K' n f Hin) as [A1 A2]. split; [|exact A2]. unfold known in *. rewrite N1. exact A1.
    - exists e2. split; [|congruence]. unfold adds. cbn [fold_left]. rewrite E1. exact E2.
  Qed.

  (** The finalized state. *)
  Record settled (e : env) : Prop := {
    s_wf : EWF e;
    s_final : e_finalized e = true;
    s_fine : fine e (e_toadd e);
    s_last : forall n, last_owner e n (e_toadd e) (owner e n) = owner e n
  }.

  Lemma finalized_flags e : e_finalized e = true <-> e_final e = true /\ e_bypass e = false.
  Proof. unfold e_finalized. destruct (e_bypass e), (e_final e); intuition congruence. Qed.

  Lemma finalize_settles e strict e' : EWF e -> e_bypass e = false ->
    e_finalize e strict = (e', true) -> settled e'.
  Proof.
    intros W By. unfold EnvModel.e_finalize. fold (adds (e_toadd e) (e, true)).
    destruct (adds (e_toadd e) (e, true)) as [e1 ok] eqn:A. destruct ok; cbn [negb]; [|discriminate].
    destruct (strict && e_finalized e1); [discriminate|]. intros X; injection X as <-.
    apply adds_true in A as (W1 & X1 & F1 & O1 & G1 & H1 & C1 & B1 & P1 & T1 & Fi1 & By1); [|exact W].
    split.
    - apply wf_flags. exact W1.
    - unfold e_finalized; cbn. rewrite By1, By. reflexivity.
    - cbn. rewrite T1. intros b Hb. destruct (F1 b Hb) as (bf & Hbf & K). exists bf. split; [exact Hbf|exact K].
    - intros n. change (last_owner e1 n (e_toadd e1) (owner e1 n) = owner e1 n). rewrite O1, T1.
      assert (Q : forall l o, last_owner e1 n l o = last_owner e n l o).
      { intros l. unfold last_owner, has_name. rewrite B1. reflexivity. }
      rewrite Q. apply last_owner_idem.
  Qed.

  (** What stays the same after finalization. *)
  Definition frozen (e e' : env) : Prop :=
    e_names e' = e_names e /\ e_chans e' = e_chans e /\ e_bfs e' = e_bfs e /\
    e_toadd e' = e_toadd e /\ e_final e' = e_final e /\ e_bypass e' = e_bypass e /\
    (forall n, owner e' n = owner e n).

  Lemma frozen_refl e : frozen e e.
  Proof. unfold frozen. auto 10. Qed.
  Lemma frozen_trans a b c : frozen a b -> frozen b c -> frozen a c.
  Proof.
    intros (A1 & A2 & A3 & A4 & A5 & A6 & A7) (B1 & B2 & B3 & B4 & B5 & B6 & B7).
    unfold frozen. repeat split; congruence.
  Qed.
  Lemma frozen_shape e e' : same_shape e e' -> frozen e e'.
  Proof. intros H. rewrite H. unfold frozen, owner. cbn. auto 10. Qed.

  Lemma frozen_settled e e' : settled e -> EWF e' -> frozen e e' -> settled e'.
  Proof.
    intros [S1 S2 S3 S4] W (A1 & A2 & A3 & A4 & A5 & A6 & A7). split.
    - exact W.
    - apply finalized_flags in S2 as [F B]. apply finalized_flags. split; congruence.
    - rewrite A4. intros b Hb. destruct (S3 b Hb) as (bf & Hbf & K). exists bf. split; [congruence|].
      intros n f Hin. destruct (K n f Hin). split; [|assumption]. unfold known in *. rewrite A1. assumption.
    - intros n. rewrite A4, A7. rewrite <- (S4 n) at 2. unfold last_owner, has_name. rewrite A3. reflexivity.
  Qed.

  Lemma frozen_target e e' k : frozen e e' ->
    e_get e' k = e_get e k /\ e_get_field e' k = e_get_field e k /\
    (EWF e -> EWF e' -> e_has_field e' k = e_has_field e k).
  Proof.
    intros (A1 & A2 & A3 & A4 & A5 & A6 & A7).
    assert (N : e_name e' k = e_name e k) by (unfold e_name; rewrite A1; reflexivity).
    split; [unfold e_get; rewrite N, A2; reflexivity|].
    assert (G : forall e, e_get_field e k =
      match e_name e k with
      | None => None
      | Some n => match owner e n with
                  | None => None
                  | Some b => match nth_error (e_bfs e) b with
                              | None => None
                              | Some bf => match dget n (bf_fields bf) with
                                           | Some f => Some (bf_ref bf, f) | None => None end
                              end
                  end
      end).
    { intros d. unfold e_get_field, owner. destruct (e_name d k) as [n|]; [|reflexivity].
      destruct (dget n (e_lookup d)); reflexivity. }
    split.
    - rewrite !G, N. destruct (e_name e k) as [n|]; [|reflexivity]. rewrite A7, A3. reflexivity.
    - intros W W'. unfold e_has_field. rewrite N. destruct (e_name e k) as [n|]; [|reflexivity].
      pose proof (A7 n) as O. unfold owner in O. unfold dmem.
      destruct (dget n (e_lookup e)) as [i|] eqn:L; destruct (dget n (e_lookup e')) as [j|] eqn:L'; try reflexivity.
      + destruct (w_lookup _ e W n i L) as (_ & b & _ & _ & Hb & _). congruence.
      + destruct (w_lookup _ e' W' n j L') as (_ & b & _ & _ & Hb & _). congruence.
  Qed.

  Definition freezes (o : op) : Prop :=
    match o with OAddField _ _ => False | OBypass on => on = false | _ => True end.

  Lemma settled_step e o : settled e -> freezes o -> frozen e (fst (step e o)).
  Proof.
    intros S Hf. pose proof (s_final e S) as Fin. destruct o; cbn [EnvModel.step].
    - apply frozen_shape. unfold e_prim, same_shape. destruct e; reflexivity.
    - unfold e_channel. rewrite Fin. apply frozen_refl.
    - destruct Hf.
    - unfold EnvModel.e_finalize. fold (adds (e_toadd e) (e, true)).
      destruct (adds_known (e_toadd e) e (s_wf e S) (s_fine e S)) as (e1 & E1 & N1). rewrite E1.
      apply adds_true in E1 as (W1 & X1 & F1 & O1 & G1 & H1 & C1 & B1 & P1 & T1 & Fi1 & By1); [|apply S].
      assert (Fr : frozen e e1).
      { unfold frozen. repeat split; try congruence; intros n; rewrite O1; apply S. }
      cbn [negb]. apply finalized_flags in Fin as [Fn By].
      destruct (strict && e_finalized e1); [exact Fr|]. cbn [fst].
      destruct Fr as (A1 & A2 & A3 & A4 & A5 & A6 & A7). unfold frozen; cbn. repeat split; try congruence.
      exact A7.
    - cbn in Hf. subst on. cbn. unfold frozen; cbn. apply finalized_flags in Fin as [_ By]. auto 10.
    - destruct (e_set _ _ _ _ e k v scaled) as [e1|] eqn:Q; [|apply frozen_refl].
      apply set_shape in Q as (r & c & _ & ->). apply frozen_shape. apply same_shape_put.
    - destruct (handle _ _ _ _ hooks e a) as [[e1 rp] calls] eqn:Q. cbn [fst].
      apply frozen_shape. eapply handle_same_shape; eauto.
  Qed.

  Lemma settled_run ops : forall e, settled e -> Forall freezes ops ->
    frozen e (run e ops) /\ settled (run e ops).
  Proof.
    unfold EnvModel.run. induction ops as [|o ops IH]; intros e S F; [split; [apply frozen_refl|exact S]|].
    inversion F as [|? ? Fo Fr]; subst. cbn [fold_left].
    pose proof (settled_step e o S Fo) as A.
    assert (W : EWF (fst (step e o))) by (apply wf_step; apply S).
    pose proof (frozen_settled e _ S W A) as S1.
    destruct (IH _ S1 Fr) as [B C]. split; [eapply frozen_trans; eauto|exact C].
  Qed.

  (** Channels alone. *)
  Lemma adds_chans l : forall e ok, e_chans (fst (adds l (e, ok))) = e_chans e /\
    e_final (fst (adds l (e, ok))) = e_final e /\ e_bypass (fst (adds l (e, ok))) = e_bypass e.
  Proof.
    induction l as [|b l IH]; intros e ok; [auto|]. unfold adds. cbn [fold_left].
    destruct ok; [|fold (adds l (e, false)); apply IH]. fold (adds l (mgr_add e b)).
    destruct (mgr_add e b) as [e1 ok1] eqn:E. destruct (IH e1 ok1) as (A & B & C).
    unfold EnvModel.mgr_add in E. destruct (nth_error (e_bfs e) b) as [bf|].
    - match type of E with fold_left _ _ (?x, true) = _ =>
        pose proof (mgr_fields_rest (List.length (e_mgr e)) (bf_fields bf) x true) as R end.
      rewrite E in R. cbn [fst] in R. destruct R as (_ & R2 & _ & _ & _ & _ & R7 & R8). cbn in R2, R7, R8.
      repeat split; congruence.
    - injection E as <- <-. auto.
  Qed.

  Lemma step_chans e o : e_finalized e = true ->
    e_chans (fst (step e o)) = e_chans e /\
    (o <> OBypass true -> e_finalized (fst (step e o)) = true).
  Proof.
    intros Fin. pose proof Fin as Fin'. apply finalized_flags in Fin' as [Fn By].
    assert (SS : forall e', same_shape e e' -> e_chans e' = e_chans e /\ (o <> OBypass true -> e_finalized e' = true)).
    { intros e' H. rewrite H. split; [reflexivity|]. intros _. exact Fin. }
    destruct o; cbn [EnvModel.step].
    - apply SS. unfold e_prim, same_shape. destruct e; reflexivity.
    - unfold e_channel. rewrite Fin. auto.
    - unfold e_add_field. destruct (e_cell e r); [|auto]. destruct (negb _); [auto|].
      destruct (dget r (e_byprim e)) as [b|].
      + destruct (nth_error (e_bfs e) b); [|auto]. destruct (dmem _ _); [auto|]. split; [reflexivity|intros _; exact Fin].
      + cbn [e_bfs]. destruct (nth_error _ _); [|split; [reflexivity|intros _; exact Fin]].
        destruct (dmem _ _); (split; [reflexivity|intros _; exact Fin]).
    - unfold EnvModel.e_finalize. fold (adds (e_toadd e) (e, true)).
      destruct (adds_chans (e_toadd e) e true) as (A & B & C).
      destruct (adds (e_toadd e) (e, true)) as [e1 ok]. cbn [fst] in *.
      destruct ok; cbn [negb fst].
      + destruct (strict && e_finalized e1); cbn [fst e_chans]; (split; [exact A|]); intros _; apply finalized_flags; cbn;
          split; congruence.
      + split; [exact A|]. intros _. apply finalized_flags. split; congruence.
    - unfold e_set_bypass. rewrite By, Bool.andb_false_r. cbn. split; [reflexivity|].
      intros H. destruct on; [congruence|]. unfold e_finalized; cbn. exact Fn.
    - destruct (e_set _ _ _ _ e k v scaled) as [e1|] eqn:Q; [|auto].
      apply set_shape in Q as (r & c & _ & ->). apply SS. apply same_shape_put.
    - destruct (handle _ _ _ _ hooks e a) as [[e1 rp] calls] eqn:Q. cbn [fst].
      apply SS. eapply handle_same_shape; eauto.
  Qed.
End Life.
