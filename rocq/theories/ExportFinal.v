(** Putting the round trip of C79 together. *)
From Coq Require Import QArith ZifyBool ZifyNat.
From Verif Require Import Base BaseLemmas PrimModel PrimSpec PrimProofs ScalingModel FieldModel FieldSpec FieldProofs
  FieldExportProofs RegistryModel RegistrySpec RegistryProofs EnumModel EnumSpec EnumProofs
  EnvModel EnvSpec EnvProofs EnvWf EnvLife EnvValue ExportModel ExportSpec ExportProofs ExportLoad ExportRound
  ExportApply ExportBuild.
Open Scope Z_scope.

Section Final.
  Context (valid validE word : string -> bool).
  Context (int_of : string -> option Z) (float_of : string -> option flo)
    (bool_of : string -> option bool) (fround : kind -> flo -> flo).
  Context {C : Type} (cdefault : C -> option num).

  Lemma apply_wf enums vs : forall e e', EWF enums e ->
    apply_values int_of float_of bool_of fround e vs = Some e' -> EWF enums e'.
  Proof.
    induction vs as [|[n v] vs IH]; intros e e' W H; cbn in H; [injection H as <-; exact W|].
    destruct (e_set _ _ _ _ e (inl n) v true) as [e1|] eqn:S; [|discriminate].
    eapply IH; [|exact H]. eapply wf_set; eauto.
  Qed.
  Lemma sr_shape e e' e2 : SR validE int_of bool_of e e' -> same_shape e' e2 -> SR validE int_of bool_of e e2.
  Proof. intros [S1 S2 S3 S4] H. rewrite H. split; [exact S1|exact S2|exact S3|exact S4]. Qed.

  Lemma values_inv e re vs : values e re = Some vs -> exists all,
    Forall2 (fun n nv => match e_value e (inl n) re true with Ok v => Some (n, v) | Err _ => None end = Some nv)
      (m_names (r_map (e_names e))) all /\ vs = filter (fun nv => negb (is_nan (snd nv))) all.
  Proof.
    unfold values. intros V. match type of V with option_map _ ?o = _ => destruct o as [all|] eqn:A end; [|discriminate].
    exists all. split; [apply (opt_map_inv _ _ _ A)|]. injection V as <-. reflexivity.
  Qed.

  Lemma round_trip g x re d : XD valid word fround cdefault g x re d -> GF validE g -> portable word x re ->
    exists x', x_load valid validE word int_of float_of bool_of fround cdefault d = Some x' /\
      same_view int_of bool_of x x' /\ e_finalized (x_env x') = true.
  Proof.
    intros D G P. pose proof (d_inv _ _ _ _ _ _ _ _ D) as XIx. pose proof (xi_env _ _ _ _ _ _ XIx) as EIx.
    destruct (cells_load valid word int_of float_of bool_of fround cdefault g x re d D P) as (cells & Lc & Fc).
    destruct (names_load valid word fround cdefault g x re d D) as (names0 & names & Ln0 & Ln & In1 & Rn & Fn).
    destruct (load_enums_ok validE int_of bool_of g d G (d_enums _ _ _ _ _ _ _ _ D) (d_enames _ _ _ _ _ _ _ _ D)) as (g' & Lg & Ei & Er).
    destruct (regs_load valid word fround cdefault g x re d D P) as (rs & Lr & Fr).
    destruct (built valid validE word int_of float_of bool_of fround cdefault g x re d D G P cells names g' rs Fc In1 Rn Fn Er Fr)
      as (e2 & chans & B1 & B2 & B3 & B4 & B5 & B6 & B7 & B8 & B9 & B10 & _).
    set (e3 := with_chans e2 chans) in *.
    assert (Src : SRC fround (x_env x) re).
    { split.
      - intros n ch H. unfold ofield, owner. rewrite (p_apart _ _ _ P n ch H). reflexivity.
      - intros n ch c H Hc. split; [apply (p_plain _ _ _ P n ch c H Hc)|]. split; [eapply w_cells; [apply EIx|exact Hc]|].
        eapply i_fix; eauto.
      - intros Hre n ch c en H Hc He. destruct (p_suit _ _ _ P Hre n ch c en H Hc He) as [Sf Sb].
        split; [|exact Sb]. unfold float_kind in Sf.
        destruct (c_kind c); try reflexivity; exfalso; apply Sf; auto. }
    assert (Vs : forall n v, In (n, v) (jv_values d) -> e_value (x_env x) (inl n) re true = Ok v).
    { intros n v H. destruct (values_inv _ _ _ (d_values _ _ _ _ _ _ _ _ D)) as (all & A & V). rewrite V in H.
      apply filter_In in H as [H _]. apply In_nth_error in H as [i Hi].
      destruct (Forall2_nth_r _ _ _ A i _ Hi) as (n' & _ & E).
      destruct (e_value (x_env x) (inl n') re true) as [w|] eqn:Ew; [|discriminate]. injection E as <- <-. exact Ew. }
    assert (All : forall n ch, dget n (e_chans (x_env x)) = Some ch -> In n (map fst (jv_values d))).
    { intros n ch H. destruct (values_inv _ _ _ (d_values _ _ _ _ _ _ _ _ D)) as (all & A & V). rewrite V.
      destruct (w_chans _ _ (i_wf _ _ _ _ EIx) n ch H) as ((c & Hc) & Kn & _).
      unfold known in Kn. destruct (dget n (m_rev (r_map (e_names (x_env x))))) as [i0|] eqn:Ei0; [|congruence].
      assert (Inn : In n (m_names (r_map (e_names (x_env x))))).
      { unfold m_names. apply dget_In in Ei0. apply in_map_iff. exists (n, i0). auto. }
      apply In_nth_error in Inn as [j Hj]. destruct (Forall2_nth _ _ _ A j _ Hj) as (nv & Hnv & E).
      destruct (e_value (x_env x) (inl n) re true) as [w|] eqn:Ew; [|discriminate]. injection E as <-.
      apply in_map_iff. exists (n, w). split; [reflexivity|]. apply filter_In. split; [eapply nth_error_In; eauto|]. cbn [snd].
      unfold e_value in Ew.
      assert (Nm : e_name (x_env x) (inl n) = Some n) by (cbn; unfold m_name_str, dmem; rewrite Ei0; reflexivity).
      assert (Hf : e_has_field (x_env x) (inl n) = false).
      { unfold e_has_field. rewrite Nm. unfold dmem. rewrite (p_apart _ _ _ P n ch H). reflexivity. }
      rewrite Hf in Ew. unfold e_get in Ew. rewrite Nm, H, Hc in Ew.
      destruct (p_plain _ _ _ P n ch c H Hc) as [Sc Nn].
      assert (Q : is_nan (CNum (cell_get_scaled c)) = false).
      { unfold cell_get_scaled. rewrite Sc. unfold cell_get. destruct (c_raw c) as [z|f]; cbn.
        - destruct (c_kind c); reflexivity.
        - destruct f; [reflexivity|reflexivity|congruence]. }
      destruct (ch_enum ch) as [en|]; [destruct re|]; [|injection Ew as <-; rewrite Q; reflexivity|injection Ew as <-; rewrite Q; reflexivity].
      destruct (enum_name en _); [injection Ew as <-; reflexivity|discriminate]. }
    destruct (apply_own validE int_of float_of bool_of fround (enums_of g) (enums_of g') (x_env x) e3 re
                B3 B4 Src (i_wf _ _ _ _ EIx) B5 (jv_values d) e3 (same_shape_refl e3) B6) as (e4 & A1 & A2 & A3 & A4 & _).
    { intros n ch ch' H H'. destruct (B7 n ch ch' H H') as (c & c' & Q1 & Q2 & Q3 & Q4 & _). exists c, c'.
      repeat (split; [assumption|]). intros Hn. destruct (Hn (All n ch H)). }
    { exact Vs. }
    pose proof (apply_wf _ _ _ _ B5 A1) as W4.
    pose proof (sr_shape _ _ _ B3 A2) as S4.
    unfold x_load. rewrite Lc, Ln0, Lg, Lr, Ln, B1. cbn [negb]. rewrite B2. fold e3. rewrite A1.
    assert (T4 : e_toadd e4 = []) by (rewrite A2; exact B8).
    assert (F4 : e_final e4 = false) by (rewrite A2; exact B9).
    assert (Y4 : e_bypass e4 = false) by (rewrite A2; exact B10).
    unfold e_finalize. rewrite T4. cbn [fold_left negb]. unfold e_finalized at 1. rewrite F4, Y4. cbn [andb].
    set (e5 := mkEnv _ _ _ _ _ _ _ _ _ _ _).
    assert (S5 : SR validE int_of bool_of (x_env x) e5) by (destruct S4 as [X1 X2 X3 X4]; split; [exact X1|exact X2|exact X3|exact X4]).
    assert (W5 : EWF (enums_of g') e5).
    { exact (wf_flags _ _ true false W4). }
    eexists. split; [reflexivity|]. split; [|reflexivity].
    assert (Meta : forall n ch, dget n (e_chans (x_env x)) = Some ch ->
              dget n (map (meta_load cdefault) (jv_chans d)) = dget n (x_meta x)).
    { intros n ch H. apply (dget_nth _ _ _ (nd_e _ _ _ _ _ _ _ _ D)) in H as [i Hi].
      destruct (chan_entry _ _ _ _ _ _ _ _ D n ch (nth_error_In _ _ Hi)) as (m & c & M1 & M2 & M3 & M4 & M5 & M6 & M7 & M8).
      destruct (Forall2_nth _ _ _ (d_chans _ _ _ _ _ _ _ _ D) i _ Hi) as (nj & J1 & J2). rewrite M3 in J2. injection J2 as <-.
      rewrite M1. apply In_dget.
      - assert (K : dkeys (map (meta_load cdefault) (jv_chans d)) = dkeys (e_chans (x_env x))).
        { unfold dkeys. rewrite map_map. pose proof (d_chans _ _ _ _ _ _ _ _ D) as F. clear - F.
          induction F as [|[n ch] nj l l' H F IH]; [reflexivity|]. cbn. f_equal; [|exact IH].
          unfold chan_dict in H. cbn in H. destruct (dget n (x_meta x)); [|discriminate]. destruct (e_cell _ _); [|discriminate].
          injection H as <-. reflexivity. }
        rewrite K. apply (nd_e _ _ _ _ _ _ _ _ D).
      - apply in_map_iff. exists (n, jchan_of m c ch). split; [|eapply nth_error_In; eauto].
        unfold meta_load. cbn. rewrite M8. destruct m; reflexivity. }
    split; cbn [x_env x_enums x_meta].
    - intros n. apply (s_rev _ _ _ _ _ S5).
    - intros i. apply (s_fwd _ _ _ _ _ S5).
    - rewrite (xi_g _ _ _ _ _ _ XIx). exact Ei.
    - rewrite (xi_g _ _ _ _ _ _ XIx). exact Er.
    - intros k. unfold channel_view. cbn [x_env x_meta]. rewrite (sr_name _ _ _ _ _ k S5).
      destruct (e_name (x_env x) k) as [n|]; [|reflexivity].
      pose proof (s_chan _ _ _ _ _ S5 n) as Sc.
      destruct (dget n (e_chans (x_env x))) as [ch|] eqn:Ch; destruct (dget n (e_chans e5)) as [ch'|] eqn:Ch'; [destruct Sc as [Cm _]|destruct Sc|destruct Sc|reflexivity].
      rewrite (Meta n ch Ch). destruct (A4 n ch ch' Ch Ch') as (c & c' & Q1 & Q2 & Q3 & Q4 & _).
      rewrite Q1. change (e_cell e5 (ch_ref ch')) with (e_cell e4 (ch_ref ch')). rewrite Q2, Q3, Cm.
      destruct (dget n (x_meta x)); reflexivity.
    - intros k. unfold field_view. cbn [x_env]. rewrite !get_ofield, (sr_name _ _ _ _ _ k S5).
      destruct (e_name (x_env x) k) as [n|]; [|reflexivity]. pose proof (s_field _ _ _ _ _ S5 n) as Sf.
      destruct (ofield (x_env x) n) as [[r f]|]; destruct (ofield e5 n) as [[r' f']|]; cbn in Sf; try destruct Sf; [|reflexivity].
      cbn. destruct f as [a1 a2 a3 a4 a5 a6]. rewrite H. reflexivity.
    - intros k r s. apply (sr_value validE int_of bool_of (enums_of g) (enums_of g')); auto.
      + apply EIx.
      + intros n ch c H Hc. apply (p_plain _ _ _ P n ch c H Hc).
  Qed.

  (** ** Scaling *)
  Definition plain (e : env) : Prop := Forall (fun c => c_scaling c = []) (e_heap e).
  Lemma plain_put e r c c' : plain e -> e_cell e r = Some c -> c_scaling c' = c_scaling c -> plain (e_put e r c').
  Proof.
    unfold plain, e_cell. intros H Hc E. cbn [e_put with_heap e_heap]. rewrite Forall_forall in *. intros x Hx.
    apply In_nth_error in Hx as [i Hi]. destruct (Nat.eq_dec r i) as [<-|Hne].
    - rewrite (upd_eq _ _ _ _ Hc) in Hi. injection Hi as <-. rewrite E. apply H. eapply nth_error_In; eauto.
    - rewrite upd_ne in Hi by exact Hne. apply H. eapply nth_error_In; eauto.
  Qed.
  Lemma plain_field e r f z e' : plain e -> e_field_write e r f z = Ok e' -> plain e'.
  Proof.
    intros H X. apply field_write_shape in X as (c & c' & Hc & Hw & ->). eapply plain_put; eauto.
    unfold cell_field_write in Hw. destruct (c_raw c); [injection Hw as <-; reflexivity|discriminate].
  Qed.
  Lemma plain_set e k v sc e' : plain e -> e_set int_of float_of bool_of fround e k v sc = Ok e' -> plain e'.
  Proof.
    intros P. unfold e_set. destruct (e_has_field e k).
    - unfold e_set_field. destruct (e_get_field e k) as [[r f]|]; [|destruct v as [|[]]; discriminate].
      destruct v as [s|[z|b|fl]]; try discriminate; try (apply plain_field; exact P).
      destruct (dget (fl_name f) (e_flenum e)) as [m|].
      + destruct (e_get_int int_of bool_of m (VStr s)); [apply plain_field; exact P|discriminate].
      + destruct (bool_of s); [apply plain_field; exact P|]. destruct (int_of s); [apply plain_field; exact P|discriminate].
    - destruct (e_get e k) as [ch|]; [|discriminate].
      destruct (e_cell e (ch_ref ch)) as [c|] eqn:Hc; [|discriminate].
      destruct (resolve _ _ _ c _ v) as [n|]; [|discriminate].
      destruct (if sc then _ else _) as [c'|] eqn:S; [|discriminate].
      intros X; injection X as <-. eapply plain_put; eauto.
      destruct sc; [apply cell_set_scaled_ok in S|apply cell_set_ok in S]; apply S.
  Qed.
  Lemma plain_apply vs : forall e e', plain e -> apply_values int_of float_of bool_of fround e vs = Some e' -> plain e'.
  Proof.
    induction vs as [|[n v] vs IH]; intros e e' W H; cbn in H; [injection H as <-; exact W|].
    destruct (e_set _ _ _ _ e (inl n) v true) as [e1|] eqn:S; [|discriminate].
    eapply IH; [|exact H]. eapply plain_set; eauto.
  Qed.
  Lemma adds_heap enums l : forall e ok,
    e_heap (fst (fold_left (fun (acc : env * bool) b =>
                 let '(e, ok) := acc in if ok then mgr_add valid enums e b else (e, false)) l (e, ok))) = e_heap e.
  Proof.
    induction l as [|b l IH]; intros e ok; [reflexivity|]. cbn [fold_left]. destruct ok; [|apply IH].
    assert (H : e_heap (fst (mgr_add valid enums e b)) = e_heap e).
    { unfold mgr_add. destruct (nth_error (e_bfs e) b) as [bf|]; [|reflexivity].
      match goal with |- context [fold_left _ _ (?x, true)] => set (e1 := x) end.
      pose proof (mgr_fields_rest valid enums (List.length (e_mgr e)) (bf_fields bf) e1 true) as R. rewrite (proj1 R). reflexivity. }
    destruct (mgr_add valid enums e b) as [e1 ok1]. rewrite IH. exact H.
  Qed.

  Lemma adds_mgr enums l : forall e ok,
    let r := fold_left (fun (acc : env * bool) b =>
                 let '(e, ok) := acc in if ok then mgr_add valid enums e b else (e, false)) l (e, ok) in
    snd r = true -> e_toadd (fst r) = e_toadd e /\
      List.length (e_mgr (fst r)) = (List.length (e_mgr e) + List.length l)%nat.
  Proof.
    induction l as [|b l IH]; intros e ok; cbn zeta; [cbn; intros; split; [reflexivity|lia]|]. cbn [fold_left].
    assert (N : forall l e, snd (fold_left (fun (acc : env * bool) b =>
                 let '(e, ok) := acc in if ok then mgr_add valid enums e b else (e, false)) l (e, false)) = false).
    { clear. induction l as [|b l IH]; intros e; [reflexivity|]. cbn [fold_left]. apply IH. }
    destruct ok; [|rewrite N; discriminate].
    destruct (mgr_add valid enums e b) as [e1 ok1] eqn:E. destruct ok1; [|rewrite N; discriminate].
    intros H. apply IH in H as [H1 H2]. cbn [fst snd] in *. rewrite H1, H2.
    unfold mgr_add in E. destruct (nth_error (e_bfs e) b) as [bf|]; [|discriminate].
    match type of E with fold_left _ _ (?x, true) = _ =>
      pose proof (mgr_fields_rest valid enums (List.length (e_mgr e)) (bf_fields bf) x true) as R end.
    rewrite E in R. cbn [fst] in R. destruct R as (_ & _ & _ & R4 & _ & R6 & _ & _).
    cbn in R4, R6. rewrite R4, R6. rewrite app_length. cbn. split; [reflexivity|lia].
  Qed.

  Lemma load_plain d x : x_load valid validE word int_of float_of bool_of fround cdefault d = Some x ->
    forall r c, e_cell (x_env x) r = Some c -> c_scaling c = [].
  Proof.
    unfold x_load. destruct (opt_map _ (jv_chans d)) as [cells|] eqn:Ec; [|discriminate].
    destruct (RegistryModel.r_new _ _ _) as [n0|]; [|discriminate].
    destruct (load_enums validE d) as [g|]; [|discriminate].
    destruct (opt_map _ (jv_fields d)) as [rs|]; [|discriminate].
    destruct (load_names valid n0 (jv_names d)) as [names|]; [|discriminate].
    pose proof (adds_heap (enums_of g) (seq 0 (List.length rs)) (load_base d names cells rs) true) as Hh.
    destruct (fold_left _ (seq 0 (List.length rs)) (load_base d names cells rs, true)) as [e2 ok]. cbn [fst] in Hh. destruct ok; [|discriminate].
    cbn [negb]. destruct (opt_map (enum_link g) _) as [chans|]; [|discriminate].
    destruct (apply_values _ _ _ _ _ _) as [e3|] eqn:A; [|discriminate].
    assert (P2 : plain (with_chans e2 chans)).
    { unfold plain. cbn [with_chans e_heap]. rewrite Hh. cbn [load_base e_heap]. apply Forall_app. split.
      - apply opt_map_inv in Ec. clear - Ec. induction Ec as [|[n j] c l l' H F IH]; constructor; [|exact IH].
        unfold chan_load in H. destruct (_ && _ && _ && _); [|discriminate].
        destruct (ExportModel.dflt _ _ _) as [dv|]; [|injection H as <-; reflexivity].
        destruct (cell_set _ _ dv) as [c'|] eqn:S; [|discriminate]. injection H as <-. apply cell_set_ok in S. apply S.
      - apply Forall_forall. intros c Hc. apply in_map_iff in Hc as (s & <- & _). reflexivity. }
    pose proof (plain_apply _ _ _ P2 A) as P3.
    unfold e_finalize. pose proof (adds_heap (enums_of g) (e_toadd e3) e3 true) as Hf.
    destruct (fold_left _ (e_toadd e3) (e3, true)) as [e4 ok4]. cbn [fst] in Hf.
    destruct ok4; cbn [negb]; [|discriminate]. destruct (_ && _); [discriminate|].
    intros X; injection X as <-. cbn [x_env]. intros r c Hc. unfold e_cell in Hc. cbn in Hc. rewrite Hf in Hc.
    unfold plain in P3. rewrite Forall_forall in P3. apply P3. eapply nth_error_In; eauto.
  Qed.
End Final.
