(** Further parts of C33 and C35: special numbers, what a new primitive holds,
    identifiers, and exactly when each building call returns. *)
From Coq Require Import QArith ZifyBool ZifyNat.
From Verif Require Import Base BaseLemmas PrimModel PrimSpec PrimProofs ScalingModel ScalingProofs FieldModel FieldSpec FieldProofs
  RegistryModel RegistrySpec RegistryProofs EnumModel EnumSpec EnumProofs EnvModel EnvSpec EnvProofs EnvWf
  EnvLife EnvMore EnvValue EnvProps.
Open Scope Z_scope.

(** What a number says when it is taken as a truth value: only the zeros are
    false. *)
Definition counts_as_true (n : num) : Prop :=
  match n with
  | NInt z => z <> 0
  | NBool b => b = true
  | NFlo (FFin q) => ~ (q == 0)%Q
  | NFlo _ => True
  end.

Section Values.
  Context (valid : string -> bool) (int_of : string -> option Z)
    (float_of : string -> option flo) (bool_of : string -> option bool)
    (fround : kind -> flo -> flo) (enums : string + Z -> option renum).
  Notation e_set := (e_set int_of float_of bool_of fround).
  Notation step := (step valid int_of float_of bool_of fround enums).
  Notation run := (run valid int_of float_of bool_of fround enums).
  Notation reachable := (env_reachable valid int_of float_of bool_of fround enums).

  (** C33.  A boolean channel given any number reads back whether that number
      is something other than zero. *)
  Theorem C33_set_bool_number :
    forall e k ch c n sc sc',
      e_has_field e k = false -> e_get e k = Some ch -> e_cell e (ch_ref ch) = Some c ->
      c_kind c = KBool -> c_scaling c = [] -> ch_enum ch = None ->
      exists e' b, e_set e k (CNum n) sc = Ok e' /\
        e_value e' k true sc' = Ok (CNum (NBool b)) /\ (b = true <-> counts_as_true n).
  Proof.
    intros e k ch c n sc sc' H1 H2 H3 Hk Hs He.
    assert (exists b, (b = true <-> counts_as_true n) /\
      (if sc : bool then cell_set_scaled fround c n else cell_set fround c n) =
      Ok (mkCell KBool [] (RI (z_of_bool b)))) as (b & B & S).
    { unfold cell_set_scaled, cell_set. rewrite Hk, Hs. cbn [k_is_int k_is_float].
      destruct n as [z|b|[q|s|]]; cbn [counts_as_true].
      - destruct (Z.eqb_spec z 0) as [->|N]; [exists false|exists true]; split; try (destruct sc; reflexivity).
        + split; [discriminate|congruence].
        + split; auto.
      - exists b. split; [tauto|destruct sc; reflexivity].
      - destruct (Qeq_bool q 0) eqn:Q; [exists false|exists true]; split; try (destruct sc; reflexivity).
        + apply Qeq_bool_iff in Q. split; [discriminate|contradiction].
        + apply Qeq_bool_neq in Q. split; auto.
      - exists true. split; [tauto|destruct sc; reflexivity].
      - exists true. split; [tauto|destruct sc; reflexivity]. }
    exists (e_put e (ch_ref ch) (mkCell KBool [] (RI (z_of_bool b)))), b. split; [|split; [|exact B]].
    - eapply set_channel; eauto. rewrite He. reflexivity.
    - rewrite (value_channel e k ch c) by assumption. rewrite He. cbv zeta iota.
      destruct sc', b; reflexivity.
  Qed.

  (** C33.  A text given to a scaled number channel, or to a floating-point
      one, is read as a floating-point number and then acts as that number. *)
  Theorem C33_set_text_is_number :
    forall e k ch c s f sc,
      e_has_field e k = false -> e_get e k = Some ch -> e_cell e (ch_ref ch) = Some c ->
      ((exists bits sg, int_kind (c_kind c) bits sg) /\ c_scaling c <> [] \/ float_kind (c_kind c)) ->
      ch_enum ch = None ->
      (float_of s = Some f -> e_set e k (CStr s) sc = e_set e k (CNum (NFlo f)) sc) /\
      (float_of s = None -> e_set e k (CStr s) sc = Err XValue).
  Proof.
    intros e k ch c s f sc H1 H2 H3 Hk He. unfold EnvModel.e_set. rewrite H1, H2, H3, He.
    assert (E : resolve int_of float_of bool_of c None (CStr s) =
      match float_of s with Some f => Ok (NFlo f) | None => Err XValue end).
    { unfold resolve. destruct Hk as [[(bits & sg & Hk) Hs]|Hk].
      - destruct (int_kind_bits _ _ _ Hk) as (_ & _ & I). rewrite I.
        destruct (c_scaling c); [congruence|]. reflexivity.
      - destruct Hk as [->|[->| ->]]; reflexivity. }
    rewrite E. split; intros ->; reflexivity.
  Qed.

  (** C33.  An integer channel refuses the floating-point numbers that are not
      finite, and then nothing changes. *)
  Theorem C33_not_finite_refused :
    forall e k ch c bits sg f,
      e_has_field e k = false -> e_get e k = Some ch -> e_cell e (ch_ref ch) = Some c ->
      int_kind (c_kind c) bits sg -> ch_enum ch = None ->
      (c_scaling c = [] \/ (exists o, c_scaling c = [o]) \/
       exists o s, c_scaling c = [o; s] /\ ~ (s == 0)%Q) ->
      (forall q, f <> FFin q) ->
      e_set e k (CNum (NFlo f)) true = Err (match f with FNan => XValue | _ => XOther end) /\
      step e (OSet k (CNum (NFlo f)) true) = (e, false).
  Proof.
    intros e k ch c bits sg f H1 H2 H3 Hk He Hs Nf.
    destruct (int_kind_bits _ _ _ Hk) as (_ & _ & I).
    assert (G : e_set e k (CNum (NFlo f)) true = Err (match f with FNan => XValue | _ => XOther end)).
    { unfold EnvModel.e_set. rewrite H1, H2, H3. cbn [resolve]. unfold cell_set_scaled. rewrite I.
      destruct f as [q|s|]; [destruct (Nf q); reflexivity| |].
      - destruct Hs as [->|[[o ->]|(o & t & -> & Ht)]]; try reflexivity.
        cbn [to_flo f_invert]. destruct (Qeq_bool t 0) eqn:Q0; [apply Qeq_bool_iff in Q0; contradiction|].
        cbn [fadd fmul]. destruct (Qeq_bool (/ t) 0) eqn:Q1; [|reflexivity].
        apply Qeq_bool_iff in Q1. exfalso. apply Ht.
        rewrite <- (Qinv_involutive t), Q1. reflexivity.
      - destruct Hs as [->|[[o ->]|(o & t & -> & Ht)]]; try reflexivity.
        cbn [to_flo f_invert]. destruct (Qeq_bool t 0) eqn:Q0; [apply Qeq_bool_iff in Q0; contradiction|].
        reflexivity. }
    split; [exact G|]. cbn [EnvModel.step]. rewrite G. reflexivity.
  Qed.

  (** C33.  A floating-point channel scaled by [offset + scale * raw] keeps an
      infinity: it is stored with the sign divided by the scale's and reads back
      as it was set (the storage is assumed to hold infinities, as both C
      types do). *)
  Theorem C33_infinity_scaled :
    forall e k ch c offset scale neg,
      e_has_field e k = false -> e_get e k = Some ch -> e_cell e (ch_ref ch) = Some c ->
      float_kind (c_kind c) -> c_scaling c = [offset; scale] -> ~ (scale == 0)%Q ->
      ch_enum ch = None -> (forall b, fround (c_kind c) (FInf b) = FInf b) ->
      exists e' stored, e_set e k (CNum (NFlo (FInf neg))) true = Ok e' /\
        e_value e' k true true = Ok (CNum (NFlo (FInf neg))) /\
        e_value e' k true false = Ok (CNum (NFlo (FInf stored))) /\
        (stored = neg <-> (0 < scale)%Q).
  Proof.
    intros e k ch c offset scale neg H1 H2 H3 Hk Hs Hz He Fr.
    assert (I : k_is_int (c_kind c) = false /\ k_is_float (c_kind c) = true)
      by (destruct Hk as [->|[->| ->]]; split; reflexivity).
    destruct I as [I F].
    assert (Qi : Qeq_bool (/ scale) 0 = false).
    { destruct (Qeq_bool (/ scale) 0) eqn:Q1; [|reflexivity].
      apply Qeq_bool_iff in Q1. exfalso. apply Hz. rewrite <- (Qinv_involutive scale), Q1. reflexivity. }
    assert (Qs : Qeq_bool scale 0 = false).
    { destruct (Qeq_bool scale 0) eqn:Q1; [|reflexivity]. apply Qeq_bool_iff in Q1. contradiction. }
    assert (Sg : q_neg (/ scale) = q_neg scale).
    { unfold q_neg, Qinv. destruct scale as [[|p|p] d]; reflexivity. }
    set (st := xorb neg (q_neg scale)).
    assert (S : cell_set_scaled fround c (NFlo (FInf neg)) =
                Ok (mkCell (c_kind c) [offset; scale] (RF (FInf st)))).
    { unfold cell_set_scaled. rewrite I, Hs. cbn [f_invert to_flo]. rewrite Qs. cbn [fadd fmul]. rewrite Qi, Sg.
      unfold cell_set. rewrite I, F, Hs. cbn [to_flo]. rewrite Fr. reflexivity. }
    eexists. exists st. split; [|split; [|split]].
    - eapply set_channel; eauto. reflexivity.
    - rewrite (value_channel e k ch c) by assumption. rewrite He. cbv zeta iota.
      unfold cell_get_scaled, cell_get. cbn [c_scaling c_raw to_flo f_loop fadd fmul].
      change (Qeq_bool 1 0) with false. cbv iota. change (q_neg 1) with false. rewrite xorb_false_r.
      cbn [fmul]. rewrite Qs. cbn [fadd]. unfold st. do 4 f_equal.
      destruct neg, (q_neg scale); reflexivity.
    - rewrite (value_channel e k ch c) by assumption. rewrite He. reflexivity.
    - unfold st. assert (q_neg scale = false <-> (0 < scale)%Q) as <-.
      { unfold q_neg, Qlt. destruct scale as [n d]. cbn [Qnum Qden]. unfold Qeq in Hz. cbn in Hz.
        split; intros X; nia. }
      destruct neg, (q_neg scale); cbn; intuition congruence.
  Qed.

  (** C33.  The polynomial of an infinite raw value is not a number as soon as
      one of its coefficients after the first is zero. *)
  Theorem C33_infinity_zero_coefficient :
    forall e k ch kd offset rest neg,
      e_has_field e k = false -> e_get e k = Some ch -> ch_enum ch = None ->
      e_cell e (ch_ref ch) = Some (mkCell kd (offset :: rest) (RF (FInf neg))) ->
      (exists q, In q rest /\ (q == 0)%Q) ->
      e_value e k true true = Ok (CNum (NFlo FNan)).
  Proof.
    intros e k ch kd offset rest neg H1 H2 He Hc (q & Hq & Q0).
    unfold e_value. rewrite H1, H2, Hc, He. cbv zeta iota. do 3 f_equal.
    unfold cell_get_scaled. cbn [c_scaling]. unfold cell_get. cbn [c_raw to_flo]. f_equal.
    cbn [f_loop]. change (fmul (FFin 1) (FInf neg)) with (FInf (xorb neg false)).
    generalize (xorb neg false) as s. generalize (fadd (FFin 0) (fmul (FFin offset) (FFin 1))) as r.
    assert (N : forall l v p, f_loop l v FNan p = FNan).
    { induction l as [|x l IH]; intros v p; [reflexivity|]. cbn [f_loop]. cbn [fadd]. apply IH. }
    clear Hc. revert Hq. induction rest as [|x rest IH]; [intros []|]. intros [->|Hq] r s; cbn [f_loop].
    - replace (fadd r (fmul (FFin q) (FInf s))) with FNan; [apply N|].
      cbn [fmul]. replace (Qeq_bool q 0) with true by (symmetry; apply Qeq_bool_iff; exact Q0).
      destruct r; reflexivity.
    - apply IH. exact Hq.
  Qed.

  (** C33.  An enumerated channel whose number is a float reads as the name of
      the whole number it equals, and as nothing (KeyError) otherwise. *)
  Theorem C33_enum_of_float :
    forall e k ch c m q sc n,
      enums_ok valid enums -> reachable e ->
      e_has_field e k = false -> e_get e k = Some ch -> e_cell e (ch_ref ch) = Some c ->
      ch_enum ch = Some m ->
      e_value e k false sc = Ok (CNum (NFlo (FFin q))) ->
      (e_value e k true sc = Ok (CStr n) <-> exists z, (q == inject_Z z)%Q /\ enum_pair m n z) /\
      (e_value e k true sc = Err XKey \/ exists n, e_value e k true sc = Ok (CStr n)).
  Proof.
    intros e k ch c m q sc n Eo Re H1 H2 H3 He V.
    pose proof (reachable_wf _ _ _ _ _ _ _ Re) as W.
    assert (Rm : e_reachable valid m).
    { unfold e_get in H2. destruct (e_name e k) as [nm|]; [|discriminate].
      destruct (w_chans _ _ W _ _ H2) as (_ & _ & En). destruct (En m He) as [kk Ek]. apply (Eo kk). exact Ek. }
    unfold e_value in *. rewrite H1, H2, H3, He in *. cbv zeta in *.
    set (x := if sc then cell_get_scaled c else cell_get c) in *. injection V as V. rewrite V.
    unfold enum_name. destruct (Qeq_bool q (inject_Z (py_round q))) eqn:Q.
    - apply Qeq_bool_iff in Q. split.
      + split.
        * destruct (e_get_str m (VInt (py_round q))) as [s|] eqn:G; [|discriminate]. intros [= <-].
          exists (py_round q). split; [exact Q|]. eapply (enum_back valid int_of bool_of); eauto.
        * intros (z & Ez & P). assert (py_round q = z) as ->.
          { apply py_round_integer. exact Ez. }
          pose proof (enum_translates valid int_of bool_of m Rm n z P) as (T1 & _). rewrite T1. reflexivity.
      + destruct (e_get_str m (VInt (py_round q))) as [s|]; eauto.
    - split; [|auto]. split; [discriminate|]. intros (z & Ez & _). exfalso.
      apply Qeq_bool_neq in Q. apply Q. clear Q.
      assert (Er : py_round q = z).
      { apply py_round_integer. exact Ez. }
      rewrite Er. exact Ez.
  Qed.
End Values.

(** ** Building calls *)

(** The identifiers in use are exactly 1 .. n, and the next one is n + 1. *)
Definition dense (r : nreg) : Prop :=
  (forall i, dget i (m_fwd (r_map r)) <> None <-> 1 <= i <= zlen (m_fwd (r_map r))) /\
  r_cur r = Z.max 1 (zlen (m_fwd (r_map r))).

Lemma dense_scan r : dense r ->
  r_scan (S (List.length (m_fwd (r_map r)))) (r_cur r) (m_fwd (r_map r)) = Some (zlen (m_fwd (r_map r)) + 1).
Proof.
  intros [D C]. set (f := m_fwd (r_map r)) in *.
  assert (In0 : forall i, dmem i f = true <-> 1 <= i <= zlen f).
  { intros i. unfold dmem. rewrite <- D. destruct (dget i f); split; congruence. }
  destruct f as [|p f'] eqn:Ef.
  - rewrite C. reflexivity.
  - rewrite <- Ef in *. assert (L : 1 <= zlen f) by (rewrite Ef, zlen_cons; pose proof (zlen_nonneg f'); lia).
    replace (r_cur r) with (zlen f) by lia. cbn [r_scan].
    replace (dmem (zlen f) f) with true by (symmetry; apply In0; lia).
    assert (exists m, List.length f = S m) as [m ->] by (rewrite Ef; cbn; eauto). cbn [r_scan].
    destruct (dmem (zlen f + 1) f) eqn:X; [apply In0 in X; lia|reflexivity].
Qed.

Section Build.
  Context (valid : string -> bool) (int_of : string -> option Z)
    (float_of : string -> option flo) (bool_of : string -> option bool)
    (fround : kind -> flo -> flo) (enums : string + Z -> option renum).
  Notation step := (step valid int_of float_of bool_of fround enums).
  Notation run := (run valid int_of float_of bool_of fround enums).
  Notation reachable := (env_reachable valid int_of float_of bool_of fround enums).

  (** Registering a name without choosing an identifier. *)
  Lemma register_none r name : MInv (r_map r) -> dense r ->
    dense (fst (r_register valid r name None)) /\
    match dget name (m_rev (r_map r)) with
    | Some i => r_register valid r name None = (r, Ret (Some i))
    | None =>
        if valid name then
          exists r', r_register valid r name None = (r', Ret (Some (zlen (m_fwd (r_map r)) + 1))) /\
            m_fwd (r_map r') = m_fwd (r_map r) ++ [(zlen (m_fwd (r_map r)) + 1, name)]
        else r_register valid r name None = (r, Ret None)
    end.
  Proof.
    intros M D. pose proof (dense_scan r D) as Sc. unfold r_register, m_identifier.
    destruct (dget name (m_rev (r_map r))) as [i|] eqn:R; [auto|].
    destruct (valid name) eqn:V; cbn [negb]; [|auto].
    rewrite Sc. set (f := m_fwd (r_map r)) in *. destruct D as [D C]. fold f in D, C.
    pose proof (zlen_nonneg f).
    assert (G : dget (zlen f + 1) f = None).
    { destruct (dget (zlen f + 1) f) eqn:X; [|reflexivity].
      assert (Y : dget (zlen f + 1) f <> None) by congruence. apply D in Y. lia. }
    unfold dmem. rewrite G. unfold m_set. rewrite V. cbn [negb]. fold f. rewrite G, R.
    rewrite dset_notin by exact G. cbn [fst]. split.
    - unfold dense. cbn [r_map r_cur m_fwd]. rewrite zlen_app. change (zlen [(zlen f + 1, name)]) with 1.
      split; [|lia]. intros i. rewrite <- (dset_notin _ _ _ G), dget_dset.
      destruct (eq_dec i (zlen f + 1)) as [->|N]; [split; [lia|discriminate]|]. rewrite D. lia.
    - eexists. split; reflexivity.
  Qed.

  Lemma dense_fields i l : forall acc, MInv (r_map (e_names (fst acc))) -> dense (e_names (fst acc)) ->
    dense (e_names (fst (fold_left (mgr_field valid enums i) l acc))).
  Proof.
    induction l as [|nf l IH]; intros acc M D; [exact D|]. cbn [fold_left].
    apply IH; [apply (mgr_field_keeps valid enums i acc nf M)|].
    destruct acc as [e ok]. cbn [fst] in *. unfold mgr_field. destruct ok; cbn [negb]; [|exact D].
    pose proof (proj1 (register_none (e_names e) (fst nf) M D)) as G.
    destruct (r_register valid (e_names e) (fst nf) None) as [n' out]. cbn [fst] in G.
    destruct out as [[j|]| |]; try exact G.
    destruct (fl_enum (snd nf)) as [k|]; [destruct (enums k)|]; exact G.
  Qed.

  Lemma dense_adds l : forall acc, MInv (r_map (e_names (fst acc))) -> dense (e_names (fst acc)) ->
    dense (e_names (fst (adds valid enums l acc))).
  Proof.
    induction l as [|b l IH]; intros acc M D; [exact D|]. unfold adds. cbn [fold_left].
    destruct acc as [e ok]. cbn [fst] in *.
    destruct ok; [|apply (IH (e, false)); assumption].
    apply (IH (mgr_add valid enums e b)).
    - unfold mgr_add. destruct (nth_error (e_bfs e) b) as [bf|]; [|exact M].
      cbv zeta. apply (mgr_fields_keeps valid enums). exact M.
    - unfold mgr_add. destruct (nth_error (e_bfs e) b) as [bf|]; [|exact D].
      cbv zeta. apply dense_fields; assumption.
  Qed.

  Lemma dense_step e o : EWF enums e -> dense (e_names e) -> dense (e_names (fst (step e o))).
  Proof.
    intros W D. pose proof (w_names _ e W) as M. destruct o; cbn [EnvModel.step].
    - exact D.
    - unfold e_channel. destruct (e_finalized e); [exact D|]. destruct (negb _); [exact D|].
      pose proof (proj1 (register_none (e_names e) name M D)) as G.
      destruct (r_register valid (e_names e) name None) as [n' out]. cbn [fst] in G.
      destruct out as [[j|]| |]; try exact G. destruct (dmem name _); [exact G|].
      destruct en as [k|]; [destruct (enums k)|]; exact G.
    - unfold e_add_field. destruct (e_cell e r); [|exact D]. destruct (negb _); [exact D|].
      destruct (dget r (e_byprim e)) as [b|].
      + destruct (nth_error (e_bfs e) b); [|exact D]. destruct (dmem _ _); exact D.
      + destruct (nth_error _ _); [|exact D]. destruct (dmem _ _); exact D.
    - unfold e_finalize. fold (adds valid enums (e_toadd e) (e, true)).
      pose proof (dense_adds (e_toadd e) (e, true) M D) as G.
      destruct (adds valid enums (e_toadd e) (e, true)) as [e1 ok]. cbn [fst] in G.
      destruct ok; cbn [negb]; [|exact G]. destruct (strict && _); exact G.
    - unfold e_set_bypass. destruct (_ && _); exact D.
    - destruct (e_set _ _ _ _ e k v scaled) as [e1|] eqn:Q; [|exact D].
      apply set_shape in Q as (r & c & _ & ->). exact D.
    - destruct (handle _ _ _ _ hooks e a) as [[e1 rp] calls] eqn:Q. cbn [fst].
      apply handle_same_shape in Q. rewrite Q. exact D.
  Qed.

  Lemma dense_run ops : forall e, EWF enums e -> dense (e_names e) -> dense (e_names (run e ops)).
  Proof.
    unfold EnvModel.run. induction ops as [|o ops IH]; intros e W D; [exact D|]. cbn [fold_left].
    apply IH; [apply wf_step; exact W|]. apply dense_step; assumption.
  Qed.

  Lemma dense_reachable e : reachable e -> dense (e_names e).
  Proof.
    intros [ops <-]. apply dense_run; [apply wf_new|]. split; [|reflexivity].
    intros i. cbn. split; [congruence|lia].
  Qed.

  (** C35.  In every history the identifiers of the channels and fields are
      1, 2, ... without gaps, each name has one, and a channel with a new name
      gets the next. *)
  Theorem C35_identifiers :
    forall e, reachable e ->
      exists count, 0 <= count /\
        (forall i, e_name e (inr i) <> None <-> 1 <= i <= count) /\
        (forall name, e_name e (inl name) <> None <-> exists i, e_name e (inr i) = Some name) /\
        (forall name r cmd en e', step e (OChannel name r cmd en) = (e', true) ->
           e_name e (inl name) = None -> e_name e' (inr (count + 1)) = Some name).
  Proof.
    intros e Re. pose proof (dense_reachable e Re) as D. pose proof (reachable_wf _ _ _ _ _ _ _ Re) as W.
    pose proof (w_names _ e W) as M. set (f := m_fwd (r_map (e_names e))) in *.
    exists (zlen f). split; [apply zlen_nonneg|]. split; [exact (proj1 D)|]. split.
    - intros name. unfold e_name, m_name_str, dmem, m_name. fold f. split.
      + destruct (dget name (m_rev (r_map (e_names e)))) as [i|] eqn:R; [|congruence].
        intros _. exists i. apply M. exact R.
      + intros [i Hi]. apply M in Hi. rewrite Hi. discriminate.
    - intros name r cmd en e' H N. cbn [EnvModel.step] in H. unfold e_channel in H.
      destruct (e_finalized e); [discriminate|]. destruct (negb _); [discriminate|].
      pose proof (proj2 (register_none (e_names e) name M D)) as G.
      assert (R : dget name (m_rev (r_map (e_names e))) = None).
      { unfold e_name, m_name_str, dmem in N. destruct (dget name (m_rev (r_map (e_names e)))); [discriminate|reflexivity]. }
      rewrite R in G. destruct (valid name).
      + destruct G as (r' & Er & F). rewrite Er in H. fold f in F.
        assert (E : dget (zlen f + 1) (m_fwd (r_map r')) = Some name).
        { rewrite F. rewrite <- dset_notin; [apply dget_dset_eq|].
          destruct (dget (zlen f + 1) f) eqn:X; [|reflexivity].
          assert (Y : dget (zlen f + 1) f <> None) by congruence. apply D in Y. fold f in Y. lia. }
        destruct (dmem name _); [discriminate|].
        destruct en as [k|]; [destruct (enums k)|]; injection H as <-; try discriminate; exact E.
      + rewrite G in H. discriminate.
  Qed.

  (** C35.  Creating a channel returns exactly when the environment is open,
      the name is valid or already in use by a field, no channel has it, the
      primitive exists and so does the enumeration. *)
  Theorem C35_create_channel_iff :
    forall e name r cmd en, reachable e ->
      (snd (step e (OChannel name r cmd en)) = true <->
       e_finalized e = false /\ e_cell e r <> None /\
       (valid name = true \/ e_name e (inl name) <> None) /\
       e_get e (inl name) = None /\ (forall k, en = Some k -> enums k <> None)).
  Proof.
    intros e name r cmd en Re. pose proof (dense_reachable e Re) as D.
    pose proof (reachable_wf _ _ _ _ _ _ _ Re) as W. pose proof (w_names _ e W) as M.
    cbn [EnvModel.step]. unfold e_channel. destruct (e_finalized e) eqn:F.
    { split; [discriminate|]. intros (X & _). discriminate. }
    unfold e_cell. destruct (Nat.ltb_spec r (List.length (e_heap e))) as [L|L]; cbn [negb].
    2:{ split; [discriminate|]. intros (_ & X & _). destruct X. apply nth_error_None. exact L. }
    apply nth_error_Some in L.
    pose proof (register_none (e_names e) name M D) as [_ G].
    assert (Gn : e_get e (inl name) = None <-> dget name (e_chans e) = None).
    { unfold e_get, e_name, m_name_str, dmem. destruct (dget name (m_rev _)) as [i|] eqn:R; [tauto|].
      split; [|auto]. intros _. destruct (dget name (e_chans e)) as [ch|] eqn:X; [|reflexivity].
      destruct (w_chans _ e W _ _ X) as (_ & K & _). unfold known in K. congruence. }
    unfold e_name, m_name_str, dmem at 2. rewrite Gn.
    destruct (dget name (m_rev (r_map (e_names e)))) as [i|] eqn:R.
    - rewrite G. unfold dmem. cbn [with_names e_chans].
      destruct (dget name (e_chans e)) as [ch|].
      { split; [discriminate|]. intros (_ & _ & _ & X & _). discriminate. }
      destruct en as [k|]; [destruct (enums k) eqn:Ek|]; cbn [snd];
        (split; [intros Hr; try discriminate Hr|intros (_ & _ & _ & _ & X); try reflexivity]).
      + repeat split; auto; try discriminate; try (right; discriminate). intros k' [= <-]. congruence.
      + destruct (X k eq_refl). exact Ek.
      + repeat split; auto; try (right; discriminate). discriminate.
    - destruct (valid name) eqn:V.
      + destruct G as (r' & -> & _). unfold dmem. cbn [with_names e_chans].
        destruct (dget name (e_chans e)) as [ch|].
        { split; [discriminate|]. intros (_ & _ & _ & X & _). discriminate. }
        destruct en as [k|]; [destruct (enums k) eqn:Ek|]; cbn [snd];
          (split; [intros Hr; try discriminate Hr|intros (_ & _ & _ & _ & X); try reflexivity]).
        * repeat split; auto. intros k' [= <-]. congruence.
        * destruct (X k eq_refl). exact Ek.
        * repeat split; auto. discriminate.
      + rewrite G. split; [discriminate|]. intros (_ & _ & [X|X] & _); [discriminate|]. destruct X. reflexivity.
  Qed.

  (** C35.  Adding a field returns exactly when the primitive exists, is an
      integer, the field starts inside it and is not wider, the name is valid
      and no field of that register has it. *)
  Theorem C35_add_field_iff :
    forall e r f, reachable e ->
      (snd (step e (OAddField r f)) = true <->
       (exists c bits sg, e_cell e r = Some c /\ int_kind (c_kind c) bits sg /\
          0 <= fl_index f < bits /\ 0 <= fl_width f <= bits) /\
       fl_name f <> EmptyString /\ made_of name_alphabet (fl_name f) /\
       (forall b bf, dget r (e_byprim e) = Some b -> nth_error (e_bfs e) b = Some bf ->
          dget (fl_name f) (bf_fields bf) = None)).
  Proof.
    intros e r f Re. pose proof (reachable_wf _ _ _ _ _ _ _ Re) as W.
    cbn [EnvModel.step]. unfold e_add_field. destruct (e_cell e r) as [c|] eqn:Hc.
    2:{ split; [discriminate|]. intros ((c & bits & sg & X & _) & _). discriminate. }
    assert (Fo : field_ok (c_kind c) (fl_name f) (fl_index f) (fl_width f) = true <->
      (exists c0 bits sg, Some c = Some c0 /\ int_kind (c_kind c0) bits sg /\
          0 <= fl_index f < bits /\ 0 <= fl_width f <= bits) /\
       fl_name f <> EmptyString /\ made_of name_alphabet (fl_name f)).
    { split.
      - intros O. apply field_ok_spec in O as (O1 & O2 & O3 & O4 & O5 & O6).
        destruct (is_int_kind _ O6) as (bits & sg & Hk). destruct (int_kind_bits _ _ _ Hk) as (Eb & _ & _).
        split; [|apply valid_name_chars; exact O5].
        exists c, bits, sg. split; [reflexivity|]. split; [exact Hk|]. lia.
      - intros ((c0 & bits & sg & [= <-] & Hk & I1 & I2) & N1 & N2).
        destruct (int_kind_bits _ _ _ Hk) as (Eb & _ & I).
        unfold field_ok, base_ok. rewrite I. replace (valid_name (fl_name f)) with true
          by (symmetry; apply valid_name_chars; auto). rewrite Eb. lia. }
    destruct (field_ok _ _ _ _) eqn:O; cbn [negb].
    2:{ split; [discriminate|]. intros (X1 & X2 & X3 & _). assert (false = true) by (apply Fo; auto). discriminate. }
    destruct (proj1 Fo eq_refl) as (P1 & P2 & P3).
    destruct (dget r (e_byprim e)) as [b|] eqn:B.
    - destruct (w_byprim _ e W r b B) as (bf & Hb & _). rewrite Hb. unfold dmem.
      destruct (dget (fl_name f) (bf_fields bf)) as [g|] eqn:Hg.
      + split; [discriminate|]. intros (_ & _ & _ & X). specialize (X b bf eq_refl Hb). congruence.
      + split; [|reflexivity]. intros _. split; [exact P1|]. split; [exact P2|]. split; [exact P3|].
        intros b' bf' [= <-] Hb'. congruence.
    - cbn [e_bfs]. rewrite nth_error_app2, Nat.sub_diag by lia. cbn. split; [|reflexivity].
      intros _. split; [exact P1|]. split; [exact P2|]. split; [exact P3|]. discriminate.
  Qed.

  (** C35.  The bypass cannot be entered twice, can always be left, and while it
      is on the environment counts as open. *)
  Theorem C35_bypass :
    forall e on,
      (snd (step e (OBypass on)) = true <-> on = false \/ e_bypass e = false) /\
      (snd (step e (OBypass on)) = true ->
         e_finalized (fst (step e (OBypass on))) = if on then false else e_final e) /\
      (snd (step e (OBypass on)) = false -> fst (step e (OBypass on)) = e).
  Proof.
    intros e on. cbn [EnvModel.step]. unfold e_set_bypass, e_finalized.
    destruct on, (e_bypass e); cbn; intuition congruence.
  Qed.

  (** C35.  A new environment is open and empty. *)
  Theorem C35_new :
    e_finalized e_new = false /\ (forall k, e_exists e_new k = false) /\
    (forall k, e_name e_new k = None) /\
    forall name cmd kd sc, valid name = true ->
      let e := fst (step e_new (OPrim kd sc)) in
      snd (step e (OChannel name 0 cmd None)) = true /\
      e_name (fst (step e (OChannel name 0 cmd None))) (inr 1) = Some name.
  Proof.
    assert (N : forall k, e_name e_new k = None) by (intros [s|z]; reflexivity).
    split; [reflexivity|]. split; [|split; [exact N|]].
    - intros k. unfold e_exists, e_has_field, e_get. rewrite N. reflexivity.
    - intros name cmd kd sc V e.
      assert (Re : reachable e) by (exists [OPrim kd sc]; reflexivity).
      assert (R : snd (step e (OChannel name 0 cmd None)) = true).
      { apply C35_create_channel_iff; [exact Re|]. split; [reflexivity|]. split; [discriminate|].
        split; [left; exact V|]. split; [reflexivity|discriminate]. }
      split; [exact R|].
      destruct (C35_identifiers e Re) as (count & C0 & Ci & _ & Cn).
      assert (count = 0).
      { destruct (Z.eq_dec count 0) as [Q|Q]; [exact Q|]. exfalso.
        assert (X : e_name e (inr 1) <> None) by (apply Ci; lia). apply X. reflexivity. }
      subst count. destruct (step e (OChannel name 0 cmd None)) as [e' ok] eqn:St. cbn [snd] in R. subst ok.
      apply (Cn _ _ _ _ _ St). reflexivity.
  Qed.

  (** C33.  A channel on a new primitive reads zero (False for a boolean). *)
  Theorem C33_initial_value :
    forall e name cmd kd e',
      reachable e ->
      let p := List.length (e_heap e) in
      step (fst (step e (OPrim kd []))) (OChannel name p cmd None) = (e', true) ->
      e_has_field e' (inl name) = false ->
      forall sc, e_value e' (inl name) true sc =
        Ok (CNum (match kd with
                  | KBool => NBool false
                  | Half | Float | Double => NFlo (FFin 0)
                  | _ => NInt 0
                  end)).
  Proof.
    intros e name cmd kd e' Re p H Hf sc.
    set (e1 := fst (step e (OPrim kd []))) in *.
    assert (R1 : reachable e1).
    { destruct Re as [ops <-]. exists (ops ++ [OPrim kd []]). unfold EnvModel.run, e1.
      rewrite fold_left_app. reflexivity. }
    assert (Hp : e_cell e1 p = Some (mkCell kd [] (if k_is_float kd then RF (FFin 0) else RI 0))).
    { unfold e1, e_cell, p. cbn. rewrite nth_error_app2, Nat.sub_diag by lia. reflexivity. }
    assert (Hh : e_heap e' = e_heap e1).
    { cbn [EnvModel.step] in H. unfold e_channel in H.
      destruct (e_finalized e1); [discriminate|]. destruct (negb _); [discriminate|].
      destruct (r_register _ _ _ _) as [n' [[j|]| |]]; try discriminate.
      destruct (dmem _ _); [discriminate|].
      injection H as <-; reflexivity. }
    assert (G : exists m, e_get e' (inl name) = Some (mkChan p cmd m) /\ m = None).
    { destruct (C35_create_channel valid int_of float_of bool_of fround enums e1 name p cmd None e' true R1 H)
        as (X & _). destruct (X eq_refl) as (_ & m & G & Em & _). exists m. auto. }
    destruct G as (m & G & ->). unfold e_value. rewrite Hf, G. cbn [ch_ref ch_enum].
    unfold e_cell in *. rewrite Hh, Hp. destruct kd, sc; reflexivity.
  Qed.
End Build.
Print Assumptions C33_set_bool_number.
Print Assumptions C33_set_text_is_number.
Print Assumptions C33_not_finite_refused.
Print Assumptions C33_infinity_scaled.
Print Assumptions C33_infinity_zero_coefficient.
Print Assumptions C33_enum_of_float.
Print Assumptions C35_identifiers.
Print Assumptions C35_create_channel_iff.
Print Assumptions C35_add_field_iff.
Print Assumptions C35_bypass.
Print Assumptions C35_new.
Print Assumptions C33_initial_value.

(** Cases that meet the hypotheses: a boolean, a scaled 8-bit integer, a scaled
    float with a negative scale, a cubic one, and an enumerated float. *)
Definition api_demo : env :=
  xrun e_new [OPrim KBool []; OPrim U8 [1#1; 2#1]; OPrim Float [1#1; -2#1]; OPrim Float [1#1; 0#1; 3#1]; OPrim Float [];
              OChannel "b" 0 true None; OChannel "i" 1 true None; OChannel "f" 2 true None;
              OChannel "g" 3 true None; OChannel "m" 4 true (Some (inl "Mode"))].
Example api_cases :
  let set k v s := match EnvModel.e_set xint (fun _ => None) xbool (fun _ x => x) api_demo (inl k) v s with
                   | Ok e => e | Err _ => e_new end in
  let get e k s := e_value e (inl k) true s in
  get (set "b" (CNum (NFlo FNan)) true) "b" true = Ok (CNum (NBool true)) /\
  get (set "b" (CNum (NFlo (FFin 0))) true) "b" true = Ok (CNum (NBool false)) /\
  EnvModel.e_set xint (fun _ => None) xbool (fun _ x => x) api_demo (inl "i") (CNum (NFlo (FInf false))) true = Err XOther /\
  get (set "f" (CNum (NFlo (FInf false))) true) "f" true = Ok (CNum (NFlo (FInf false))) /\
  get (set "f" (CNum (NFlo (FInf false))) true) "f" false = Ok (CNum (NFlo (FInf true))) /\
  get (set "g" (CNum (NFlo (FInf false))) false) "g" true = Ok (CNum (NFlo FNan)) /\
  get (set "m" (CNum (NFlo (FFin (6 # 2)))) false) "m" true = Ok (CStr "idle") /\
  get (set "m" (CNum (NFlo (FFin (5 # 2)))) false) "m" true = Err XKey /\
  map (fun i => e_name api_demo (inr i)) [0; 1; 5; 6] = [None; Some "b"; Some "m"; None] /\
  get api_demo "i" false = Ok (CNum (NInt 0)).
Proof. vm_compute. repeat split. Qed.
