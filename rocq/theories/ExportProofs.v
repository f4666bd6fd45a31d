(** Invariants of environments for C79. *)
From Coq Require Import QArith ZifyBool ZifyNat.
From Verif Require Import Base BaseLemmas PrimModel PrimSpec PrimProofs ScalingModel FieldModel FieldSpec FieldProofs
  RegistryModel RegistrySpec RegistryProofs EnumModel EnumSpec EnumProofs EnvModel EnvSpec EnvProofs EnvWf EnvLife
  ExportModel ExportSpec.
Open Scope Z_scope.

Section Inv.
  Context (valid : string -> bool) (int_of : string -> option Z)
    (float_of : string -> option flo) (bool_of : string -> option bool)
    (fround : kind -> flo -> flo).
  Context (fround_idem : forall k f, fround k (fround k f) = fround k f)
    (fround_0 : forall k, fround k (FFin 0) = FFin 0).

  (** A float a primitive of that type can hold. *)
  Definition fixed (c : cell) : Prop :=
    match c_raw c with RF f => fround (c_kind c) f = f | RI _ => True end.

  (** How the primitives change. *)
  Definition HR (e e' : env) : Prop :=
    (forall r c, e_cell e r = Some c -> exists c', e_cell e' r = Some c' /\ c_kind c' = c_kind c) /\
    ((forall r c, e_cell e r = Some c -> fixed c) -> forall r c, e_cell e' r = Some c -> fixed c).
  Lemma HR_refl e : HR e e.
  Proof. split; [|auto]. intros r c H. eauto. Qed.
  Lemma HR_trans a b c : HR a b -> HR b c -> HR a c.
  Proof.
    intros [A1 A2] [B1 B2]. split; [|intros F; exact (B2 (A2 F))]. intros r x H. destruct (A1 r x H) as (y & Hy & E).
    destruct (B1 r y Hy) as (z & Hz & E'). exists z. split; [exact Hz|congruence].
  Qed.
  Lemma HR_heap e e' : e_heap e' = e_heap e -> HR e e'.
  Proof. intros H. unfold HR, e_cell. rewrite H. split; [|auto]. intros r c X. eauto. Qed.
  Lemma HR_put e r c c' : e_cell e r = Some c -> c_kind c' = c_kind c -> (fixed c -> fixed c') ->
    HR e (e_put e r c').
  Proof.
    intros Hc K F. split.
    - intros p d Hd. destruct (Nat.eq_dec p r) as [->|Hne].
      + rewrite (put_cell_same _ _ _ _ Hc). exists c'. split; [reflexivity|congruence].
      + rewrite put_cell_other by exact Hne. eauto.
    - intros A p d Hd. destruct (Nat.eq_dec p r) as [->|Hne].
      + rewrite (put_cell_same _ _ _ _ Hc) in Hd. injection Hd as <-. apply F. eapply A; eauto.
      + rewrite put_cell_other in Hd by exact Hne. eapply A; eauto.
  Qed.

  Lemma set_fixed c n c' : cell_set fround c n = Ok c' -> c_kind c' = c_kind c /\ fixed c'.
  Proof.
    unfold cell_set, fixed. destruct (k_is_int (c_kind c)).
    - destruct n; intros X; try discriminate; injection X as <-; cbn; auto.
    - destruct (k_is_float (c_kind c)); intros X; injection X as <-; cbn; auto.
  Qed.
  Lemma set_scaled_fixed c n c' : cell_set_scaled fround c n = Ok c' -> c_kind c' = c_kind c /\ fixed c'.
  Proof.
    unfold cell_set_scaled. destruct (k_is_int (c_kind c)).
    - destruct (match c_scaling c with [] => _ | _ => _ end) as [z|]; [apply set_fixed|discriminate].
    - destruct (c_scaling c); [apply set_fixed|]. destruct (f_invert _ _); [apply set_fixed|discriminate].
  Qed.
  Lemma field_fixed c f v c' : cell_field_write c f v = Ok c' -> c_kind c' = c_kind c /\ fixed c'.
  Proof.
    unfold cell_field_write, fixed. destruct (c_raw c); [|discriminate]. intros X; injection X as <-. cbn. auto.
  Qed.

  Lemma HR_write e r f z e' : e_field_write e r f z = Ok e' -> HR e e'.
  Proof.
    intros H. apply field_write_shape in H as (c & c' & Hc & Hw & ->).
    apply field_fixed in Hw as [K F]. eapply HR_put; eauto.
  Qed.
  Lemma HR_set e k v sc e' : e_set int_of float_of bool_of fround e k v sc = Ok e' -> HR e e'.
  Proof.
    unfold e_set. destruct (e_has_field e k).
    - unfold e_set_field. destruct (e_get_field e k) as [[r f]|] eqn:G; [|destruct v as [|[]]; discriminate].
      destruct v as [s|[z|b|fl]]; try discriminate; try apply HR_write.
      destruct (dget (fl_name f) (e_flenum e)) as [m|].
      + destruct (e_get_int int_of bool_of m (VStr s)); [apply HR_write|discriminate].
      + destruct (bool_of s); [apply HR_write|]. destruct (int_of s); [apply HR_write|discriminate].
    - destruct (e_get e k) as [ch|] eqn:G; [|discriminate].
      destruct (e_cell e (ch_ref ch)) as [c|] eqn:Hc; [|discriminate].
      destruct (resolve _ _ _ c _ v) as [n|]; [|discriminate].
      destruct (if sc then _ else _) as [c'|] eqn:S; [|discriminate].
      intros X; injection X as <-.
      assert (c_kind c' = c_kind c /\ fixed c') as [K F].
      { destruct sc; [apply set_scaled_fixed in S|apply set_fixed in S]; exact S. }
      eapply HR_put; eauto.
  Qed.
  Lemma HR_toggle e t e' rp : do_toggle e t = (e', rp) -> HR e e'.
  Proof.
    unfold do_toggle. destruct t as [ch|r f].
    - destruct (e_cell e (ch_ref ch)) as [c|] eqn:Hc; [|intros X; injection X as <- _; apply HR_refl].
      destruct (c_kind c) eqn:K; try (intros X; injection X as <- _; apply HR_refl).
      destruct (c_raw c) as [z|] eqn:R; intros X; injection X as <- _; [|apply HR_refl].
      eapply HR_put; [exact Hc|cbn; congruence|]. unfold fixed. cbn. auto.
    - destruct (e_cell e r) as [c|]; [|intros X; injection X as <- _; apply HR_refl].
      destruct (e_field_write e r f _) as [e1|] eqn:Hw; intros X; injection X as <- _; [|apply HR_refl].
      eapply HR_write; eauto.
  Qed.
  Lemma HR_handle hooks e a : HR e (fst (fst (handle int_of float_of bool_of fround hooks e a))).
  Proof.
    unfold handle. destruct (_ || _); [apply HR_refl|].
    assert (S : HR e (fst (do_set int_of float_of bool_of fround e a))).
    { unfold do_set. destruct (a_extra a) as [|s ?]; [apply HR_refl|].
      destruct (e_set _ _ _ _ e _ _ true) as [e1|[]] eqn:S; try apply HR_refl. cbn. eapply HR_set; eauto. }
    assert (G2 : forall v, HR e (fst (fst match e_target e (inl (a_chan a)) with
      | Some t =>
          if negb (t_cmd t) && negb (a_force a) then (e, CFailure, [])
          else
            let '(e', r) := match v with
                            | VSet => do_set int_of float_of bool_of fround e a
                            | VToggle => do_toggle e t
                            | _ => (e, CSuccess)
                            end in
            (e', r, if accepted r then call_hooks hooks (Some t) else [])
      | None => (e, CFailure, [])
      end))).
    { intros v. destruct (e_target e (inl (a_chan a))) as [t|]; [|apply HR_refl].
      destruct (negb (t_cmd t) && negb (a_force a)); [apply HR_refl|].
      destruct v; try apply HR_refl.
      - destruct (do_set _ _ _ _ e a) as [e1 r1]. exact S.
      - destruct (do_toggle e t) as [e1 r1] eqn:D. eapply HR_toggle; eauto. }
    destruct (a_verb a) eqn:V; [apply (G2 VSet)|apply (G2 VToggle)| |apply (G2 VCustom)].
    destruct (e_exists e _); [|apply (G2 VGet)]. destruct (e_value e _ true true); apply HR_refl.
  Qed.

  Context (enums : string + Z -> option renum).
  Notation EWF := (EWF enums).
  Notation step := (step valid int_of float_of bool_of fround enums).

  Record EI (e : env) : Prop := {
    i_wf : EWF e;
    i_names : MWf valid (r_map (e_names e));
    i_nd : NoDup (dkeys (e_chans e));
    i_mgr : incl (e_mgr e) (e_toadd e);
    i_fix : forall r c, e_cell e r = Some c -> fixed c
  }.
  (** What stays true of channels. *)
  Definition ER (e e' : env) : Prop :=
    e_chans e' = e_chans e /\ MExt (r_map (e_names e)) (r_map (e_names e')) /\
    (forall r c, e_cell e r = Some c -> exists c', e_cell e' r = Some c' /\ c_kind c' = c_kind c).
  Lemma ER_refl e : ER e e.
  Proof. split; [reflexivity|]. split; [apply MExt_refl|]. intros r c H. eauto. Qed.
  Lemma ER_trans a b c : ER a b -> ER b c -> ER a c.
  Proof.
    intros (A1 & A2 & A3) (B1 & B2 & B3). split; [congruence|]. split; [eapply MExt_trans; eauto|].
    intros r x H. destruct (A3 r x H) as (y & Hy & E).
    destruct (B3 r y Hy) as (z & Hz & E'). exists z. split; [exact Hz|congruence].
  Qed.

  Lemma ei_new : EI e_new.
  Proof.
    split; [apply wf_new|split; [|split]|constructor|intros ? []|].
    - intros n k; cbn; split; discriminate.
    - cbn. discriminate.
    - constructor.
    - intros [|r] c; discriminate.
  Qed.

  Lemma ei_shape e e' : EI e -> EWF e' -> same_shape e e' -> HR e e' -> EI e' /\ ER e e'.
  Proof.
    intros [I1 I2 I3 I4 I5] W S [H1 H2]. split.
    - split; [exact W| | | |]; try (rewrite S; assumption). apply H2. exact I5.
    - split; [rewrite S; reflexivity|]. split; [rewrite S; apply MExt_refl|exact H1].
  Qed.

  (** Registering names while fields are added to the manager. *)
  Lemma mgr_field_names i e ok nf : MWf valid (r_map (e_names e)) ->
    MWf valid (r_map (e_names (fst (mgr_field valid enums i (e, ok) nf)))) /\
    MExt (r_map (e_names e)) (r_map (e_names (fst (mgr_field valid enums i (e, ok) nf)))).
  Proof.
    intros M. unfold mgr_field. destruct ok; cbn [negb]; [|split; [exact M|apply MExt_refl]].
    pose proof (r_register_wf valid (e_names e) (fst nf) None M) as A.
    pose proof (r_register_inv valid (e_names e) (fst nf) None (proj1 M)) as [_ B].
    destruct (r_register valid (e_names e) (fst nf) None) as [n' out]. cbn [fst] in A, B.
    destruct out as [[id|]| |]; cbn; auto.
    destruct (fl_enum (snd nf)) as [k|]; [destruct (enums k)|]; cbn; auto.
  Qed.
  Lemma mgr_fields_names i l : forall e ok, MWf valid (r_map (e_names e)) ->
    MWf valid (r_map (e_names (fst (fold_left (mgr_field valid enums i) l (e, ok))))) /\
    MExt (r_map (e_names e)) (r_map (e_names (fst (fold_left (mgr_field valid enums i) l (e, ok))))).
  Proof.
    induction l as [|nf l IH]; intros e ok M; [split; [exact M|apply MExt_refl]|]. cbn [fold_left].
    destruct (mgr_field_names i e ok nf M) as [A B].
    destruct (mgr_field valid enums i (e, ok) nf) as [e1 ok1]. cbn [fst] in A, B.
    destruct (IH e1 ok1 A) as [A' B']. split; [exact A'|eapply MExt_trans; eauto].
  Qed.
  Lemma ei_mgr_add e b : EI e -> In b (e_toadd e) ->
    EI (fst (mgr_add valid enums e b)) /\ ER e (fst (mgr_add valid enums e b)) /\
    e_toadd (fst (mgr_add valid enums e b)) = e_toadd e.
  Proof.
    intros [I1 I2 I3 I4 I5] Hb. pose proof (wf_mgr_add valid enums e b I1) as [W _].
    unfold mgr_add in *. destruct (nth_error (e_bfs e) b) as [bf|].
    2:{ cbn [fst]. split; [split; assumption|]. split; [apply ER_refl|reflexivity]. }
    match goal with |- context [fold_left _ _ (?x, true)] => set (e1 := x) in * end.
    pose proof (mgr_fields_rest valid enums (List.length (e_mgr e)) (bf_fields bf) e1 true) as R.
    pose proof (mgr_fields_names (List.length (e_mgr e)) (bf_fields bf) e1 true I2) as [A B].
    destruct (fold_left _ _ _) as [e2 ok]. cbn [fst] in *.
    destruct R as (R1 & R2 & R3 & R4 & R5 & R6 & R7 & R8).
    assert (Hp : e_heap e2 = e_heap e) by (rewrite R1; reflexivity).
    split; [|split].
    - split; [exact W|exact A|rewrite R2; exact I3| |].
      + rewrite R4, R6. cbn. intros b' H. apply in_app_iff in H as [H|[<-|[]]]; [apply I4; exact H|exact Hb].
      + intros r c H. apply (I5 r). unfold e_cell in *. rewrite <- Hp. exact H.
    - split; [exact R2|]. split; [exact B|]. intros r c H. exists c. split; [|reflexivity].
      unfold e_cell in *. rewrite Hp. exact H.
    - exact R6.
  Qed.
  Lemma ei_adds l : forall e ok, EI e -> incl l (e_toadd e) ->
    EI (fst (adds valid enums l (e, ok))) /\ ER e (fst (adds valid enums l (e, ok))).
  Proof.
    induction l as [|b l IH]; intros e ok I H; [split; [exact I|apply ER_refl]|].
    unfold adds. cbn [fold_left]. destruct ok.
    - fold (adds valid enums l (mgr_add valid enums e b)).
      destruct (ei_mgr_add e b I (H b (or_introl eq_refl))) as (A & B & T).
      destruct (mgr_add valid enums e b) as [e1 ok1]. cbn [fst] in *.
      destruct (IH e1 ok1 A) as [A' B'].
      + rewrite T. intros x Hx. apply H. now right.
      + split; [exact A'|eapply ER_trans; eauto].
    - fold (adds valid enums l (e, false)). apply IH; [exact I|]. intros x Hx. apply H. now right.
  Qed.
  Lemma ei_flags e fin byp : EI e ->
    EI (mkEnv (e_heap e) (e_names e) (e_chans e) (e_bfs e) (e_mgr e) (e_lookup e) (e_flenum e)
          (e_byprim e) (e_toadd e) fin byp).
  Proof. intros [I1 I2 I3 I4 I5]. split; auto. apply wf_flags. exact I1. Qed.
  Lemma ei_finalize e strict : EI e ->
    EI (fst (e_finalize valid enums e strict)) /\ ER e (fst (e_finalize valid enums e strict)).
  Proof.
    intros I. unfold e_finalize. fold (adds valid enums (e_toadd e) (e, true)).
    destruct (ei_adds (e_toadd e) e true I (incl_refl _)) as [A B].
    destruct (adds valid enums (e_toadd e) (e, true)) as [e1 ok]. cbn [fst] in *.
    destruct ok; cbn [negb]; [|auto]. destruct (strict && e_finalized e1); [auto|]. cbn [fst].
    split; [apply ei_flags; exact A|exact B].
  Qed.

  Lemma ei_step e o : match o with OChannel _ _ _ _ => False | _ => True end -> EI e ->
    EI (fst (step e o)) /\ ER e (fst (step e o)).
  Proof.
    intros No I. pose proof (wf_step valid int_of float_of bool_of fround enums e o (i_wf e I)) as W.
    destruct o; cbn [EnvModel.step] in *.
    - cbn [fst] in *. destruct I as [I1 I2 I3 I4 I5]. unfold e_prim in *.
      assert (Fw : forall r c, e_cell e r = Some c -> nth_error (e_heap e ++ [mkCell k scaling (if k_is_float k then RF (FFin 0) else RI 0)]) r = Some c).
      { intros r c H. rewrite nth_error_app1; [exact H|]. apply nth_error_Some. unfold e_cell in H. congruence. }
      split.
      + split; auto. intros r c H. unfold e_cell in H. cbn in H.
        destruct (lt_dec r (List.length (e_heap e))) as [L|L].
        * rewrite nth_error_app1 in H by exact L. eapply I5; exact H.
        * rewrite nth_error_app2 in H by lia. destruct (r - List.length (e_heap e))%nat as [|[|]]; try discriminate.
          injection H as <-. unfold fixed; cbn. destruct (k_is_float k); auto.
      + split; [reflexivity|]. split; [apply MExt_refl|]. intros r c H. exists c. split; [|reflexivity]. apply Fw. exact H.
    - destruct No.
    - assert (Q : let e' := fst (e_add_field e r f) in e_heap e' = e_heap e /\ e_names e' = e_names e /\
                e_chans e' = e_chans e /\ e_mgr e' = e_mgr e /\ incl (e_toadd e) (e_toadd e')).
      { unfold e_add_field. destruct (e_cell e r); [|cbn; repeat split; apply incl_refl]. destruct (negb _); [cbn; repeat split; apply incl_refl|].
        destruct (dget r (e_byprim e)) as [b|].
        - destruct (nth_error (e_bfs e) b); [|cbn; repeat split; apply incl_refl]. destruct (dmem _ _); cbn; repeat split; apply incl_refl.
        - cbn [e_bfs]. destruct (nth_error _ _); [destruct (dmem _ _)|]; cbn; repeat split; apply incl_appl, incl_refl. }
      cbv zeta in Q. destruct (e_add_field e r f) as [e' ok]. cbn [fst] in *. destruct Q as (Q1 & Q2 & Q3 & Q4 & Q5).
      destruct I as [I1 I2 I3 I4 I5]. split.
      + split; [exact W|rewrite Q2; exact I2|rewrite Q3; exact I3|rewrite Q4; eapply incl_tran; eauto|].
        unfold e_cell. rewrite Q1. exact I5.
      + split; [exact Q3|]. split; [rewrite Q2; apply MExt_refl|]. unfold e_cell. rewrite Q1. intros r' c H. eauto.
    - apply ei_finalize. exact I.
    - unfold e_set_bypass in *. destruct (on && e_bypass e); [split; [exact I|apply ER_refl]|]. cbn [fst].
      split; [apply ei_flags; exact I|exact (ER_refl e)].
    - destruct (e_set _ _ _ _ e k v scaled) as [e1|] eqn:Q; [|split; [exact I|apply ER_refl]]. cbn [fst] in *.
      apply ei_shape; [exact I|exact W| |eapply HR_set; eauto].
      apply set_shape in Q as (r & c & _ & ->). apply same_shape_put.
    - pose proof (HR_handle hooks e a) as H.
      destruct (handle _ _ _ _ hooks e a) as [[e1 rp] calls] eqn:Q. cbn [fst] in *.
      apply ei_shape; [exact I|exact W| |exact H]. eapply handle_same_shape; eauto.
  Qed.

  Lemma ei_names_only e n : EI e -> MWf valid (r_map n) -> MExt (r_map (e_names e)) (r_map n) ->
    EI (with_names e n) /\ ER e (with_names e n).
  Proof.
    intros [I1 I2 I3 I4 I5] M X. split.
    - split; auto. apply wf_names; auto. apply M.
    - split; [reflexivity|]. split; [exact X|]. intros r c H. exists c. auto.
  Qed.
End Inv.

Section XInv.
  Context (valid validE word : string -> bool).
  Context (int_of : string -> option Z) (float_of : string -> option flo)
    (bool_of : string -> option bool) (fround : kind -> flo -> flo).
  Context {C : Type} (cdefault : C -> option num).
  Context (fround_idem : forall k f, fround k (fround k f) = fround k f)
    (fround_0 : forall k, fround k (FFin 0) = FFin 0).
  Notation dflt := (dflt cdefault).

  (** What is recorded about a channel. *)
  Definition meta_ok (x : xenv C) (n : string) (ch : chan) : Prop :=
    exists m c, dget n (x_meta x) = Some m /\ e_cell (x_env x) (ch_ref ch) = Some c /\
      dget n (m_rev (r_map (e_names (x_env x)))) = Some (cm_id m) /\
      ch_enum ch = (match cm_enum m with Some k => enums_of (x_enums x) k | None => None end) /\
      chan_schema word (c_kind c) (cm_id m) (cm_enum m) = true /\
      default_fits (c_kind c) (cm_default m) = true /\
      dflt (cm_default m) (cm_ctl m) = cm_default m.
  Record XI (g : ereg) (x : xenv C) : Prop := {
    xi_g : x_enums x = g;
    xi_env : EI valid fround (enums_of g) (x_env x);
    xi_meta : forall n ch, dget n (e_chans (x_env x)) = Some ch -> meta_ok x n ch;
    xi_back : forall n m, dget n (x_meta x) = Some m -> dget n (e_chans (x_env x)) <> None
  }.

  Lemma dflt_idem d ctl : dflt (dflt d ctl) ctl = dflt d ctl.
  Proof. unfold ExportModel.dflt. destruct d; [reflexivity|]. destruct ctl as [c|]; [|reflexivity]. destruct (cdefault c) eqn:E; auto. Qed.

  Lemma xi_er g x e : XI g x -> EI valid fround (enums_of g) e -> ER (x_env x) e -> XI g (with_env x e).
  Proof.
    intros [G I M B] I' (E1 & E2 & E3). split; cbn; auto.
    - intros n ch H. rewrite E1 in H. destruct (M n ch H) as (m & c & A1 & A2 & A3 & A4 & A5 & A6 & A7).
      destruct (E3 _ _ A2) as (c' & Hc' & K). exists m, c'. cbn. rewrite K.
      repeat (split; [first [assumption | apply E2; assumption]|]). assumption.
    - rewrite E1. exact B.
  Qed.

  Lemma put_default_inv en e r d : EI valid fround en e ->
    EI valid fround en (put_default fround e r d) /\ ER e (put_default fround e r d).
  Proof.
    intros I. unfold put_default. destruct d as [n|]; [|split; [exact I|apply ER_refl]].
    destruct (e_cell e r) as [c|] eqn:Hc; [|split; [exact I|apply ER_refl]].
    destruct (cell_set fround c n) as [c'|] eqn:S; [|split; [exact I|apply ER_refl]].
    pose proof (cell_set_ok _ _ _ _ S) as (Ok & K & _).
    pose proof (set_fixed _ fround_idem _ _ _ S) as [_ F].
    apply ei_shape; [exact I| |apply same_shape_put|].
    - eapply wf_put; [apply I|exact Hc|exact Ok|exact K].
    - eapply HR_put; eauto.
  Qed.

  Lemma xi_channel g x name r cmd en desc ctl d : XI g x ->
    XI g (fst (x_channel valid word fround cdefault x name r cmd en desc ctl d)).
  Proof.
    intros X. pose proof X as [G I M B]. unfold x_channel.
    destruct (e_finalized (x_env x)) eqn:Fin; [exact X|].
    destruct (e_cell (x_env x) r) as [c|] eqn:Hc; [|exact X].
    pose proof (r_register_wf valid (e_names (x_env x)) name None (i_names _ _ _ _ I)) as N1.
    pose proof (r_register_inv valid (e_names (x_env x)) name None (proj1 (i_names _ _ _ _ I))) as [_ N2].
    destruct (r_register valid (e_names (x_env x)) name None) as [n out] eqn:R. cbn [fst] in N1, N2.
    destruct (ei_names_only valid fround (enums_of g) (x_env x) n I N1 N2) as [J1 J2].
    pose proof (xi_er g x _ X J1 J2) as XN.
    destruct out as [[i|]| |]; try exact XN.
    destruct (chan_schema word (c_kind c) i en && default_fits (c_kind c) (dflt d ctl)) eqn:Sc; [|exact XN].
    apply andb_prop in Sc as [Sc Df].
    pose proof (wf_channel valid int_of float_of bool_of (enums_of (x_enums x)) (x_env x) name r cmd en) as Wc.
    rewrite G in *. specialize (Wc (i_wf _ _ _ _ I)).
    destruct (register_known valid (x_env x) name n (Ret (Some i)) (w_names _ _ (i_wf _ _ _ _ I)) R) as (_ & _ & Kn).
    specialize (Kn i eq_refl).
    unfold e_channel in *. rewrite Fin in *.
    assert (Lt : Nat.ltb r (List.length (e_heap (x_env x))) = true).
    { apply Nat.ltb_lt. apply nth_error_Some. unfold e_cell in Hc. congruence. }
    rewrite Lt in *. cbn [negb] in *. rewrite R in *.
    cbn [e_chans with_names] in *. destruct (dmem name (e_chans (x_env x))) eqn:D; [exact XN|].
    pose proof D as D'. apply dmem_false in D'.
    set (ch := mkChan r cmd (match en with Some k => enums_of g k | None => None end)).
    assert (Q : forall ok, XI g (fst (mkX (put_default fround (with_chans (with_names (x_env x) n) (dset name ch (e_chans (x_env x)))) r (dflt d ctl))
                 (dset name (mkMeta i en (keep_desc desc) ctl (dflt d ctl)) (x_meta x)) g, ok : bool))).
    { intros ok. cbn [fst].
      assert (I1 : EI valid fround (enums_of g) (with_chans (with_names (x_env x) n) (dset name ch (e_chans (x_env x))))).
      { destruct J1 as [J1 J3 J4 J5 J6]. split; cbn; auto.
        - unfold ch. destruct en as [k|]; [destruct (enums_of g k) eqn:Ek|]; exact Wc.
        - apply NoDup_dset. exact J4. }
      destruct (put_default_inv _ _ r (dflt d ctl) I1) as [I2 (E1 & E2 & E3)].
      split; cbn [x_enums x_env x_meta]; [reflexivity|exact I2| |].
      - intros n0 ch0 H. rewrite E1 in H. cbn [e_chans with_chans] in H. unfold meta_ok. cbn [x_meta x_env x_enums].
        rewrite dget_dset in H. rewrite dget_dset. destruct (eq_dec n0 name) as [->|Hne].
        + injection H as <-. destruct (E3 r c Hc) as (c' & Hc' & K).
          exists (mkMeta i en (keep_desc desc) ctl (dflt d ctl)), c'. cbn [cm_id cm_enum cm_default cm_ctl]. rewrite K.
          repeat (split; [first [reflexivity | assumption | apply E2; exact Kn]|]).
          apply dflt_idem.
        + destruct (M n0 ch0 H) as (m & c0 & A1 & A2 & A3 & A4 & A5 & A6 & A7).
          destruct (E3 _ c0 A2) as (c' & Hc' & K). exists m, c'. rewrite K, <- G.
          repeat (split; [first [assumption | apply E2; apply N2; assumption]|]). assumption.
      - intros n0 m. rewrite E1. cbn [e_chans with_chans]. rewrite !dget_dset.
        destruct (eq_dec n0 name) as [->|]; [discriminate|]. apply B. }
    unfold ch in Q. destruct en as [k|]; [destruct (enums_of g k) eqn:Ek|]; apply Q.
  Qed.

  Lemma xi_step g x o : XI g x ->
    XI g (fst (x_step valid word int_of float_of bool_of fround cdefault x o)).
  Proof.
    intros X. destruct o as [n r cmd en desc ctl d|o]; cbn [x_step]; [apply xi_channel; exact X|].
    assert (Q : match o with OChannel _ _ _ _ => False | _ => True end ->
      XI g (fst (let '(e, ok) := step valid int_of float_of bool_of fround (enums_of (x_enums x)) (x_env x) o in (with_env x e, ok)))).
    { intros No. rewrite (xi_g g x X).
      destruct (ei_step valid int_of float_of bool_of fround fround_idem fround_0 (enums_of g) (x_env x) o No (xi_env g x X)) as [A B].
      destruct (step _ _ _ _ _ _ _ o) as [e ok]. cbn [fst] in *. apply xi_er; auto. }
    destruct o; try (apply Q; exact I). apply xi_channel. exact X.
  Qed.

  Lemma xi_new g : XI g (x_new g).
  Proof. split; cbn; [reflexivity|apply ei_new|discriminate|discriminate]. Qed.

  Lemma xi_reachable g x : x_reachable valid word int_of float_of bool_of fround cdefault g x -> XI g x.
  Proof.
    intros [ops <-]. unfold x_run. generalize (xi_new g). generalize (@x_new C g).
    induction ops as [|o ops IH]; intros x X; [exact X|]. cbn [fold_left]. apply IH. apply xi_step. exact X.
  Qed.
End XInv.
