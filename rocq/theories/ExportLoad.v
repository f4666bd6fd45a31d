(** Loading what was exported, for C79. *)
From Coq Require Import QArith ZifyBool ZifyNat.
From Verif Require Import Base BaseLemmas PrimModel PrimSpec PrimProofs ScalingModel FieldModel FieldSpec FieldProofs
  FieldExportProofs RegistryModel RegistrySpec RegistryProofs EnumModel EnumSpec EnumProofs
  EnvModel EnvSpec EnvProofs EnvWf EnvLife EnvValue ExportModel ExportSpec ExportProofs.
Open Scope Z_scope.

Lemma opt_map_all {A B} (f : A -> option B) (P : A -> B -> Prop) l :
  (forall a, In a l -> exists b, f a = Some b /\ P a b) ->
  exists bs, opt_map f l = Some bs /\ Forall2 P l bs.
Proof.
  induction l as [|a l IH]; intros H; [exists []; split; [reflexivity|constructor]|].
  destruct (H a (or_introl eq_refl)) as (b & Hb & P1). destruct IH as (bs & Hbs & P2).
  - intros x Hx. apply H. now right.
  - exists (b :: bs). cbn. rewrite Hb, Hbs. split; [reflexivity|constructor; assumption].
Qed.
Lemma opt_map_inv {A B} (f : A -> option B) l : forall bs, opt_map f l = Some bs ->
  Forall2 (fun a b => f a = Some b) l bs.
Proof.
  induction l as [|a l IH]; intros bs H; cbn in H; [injection H as <-; constructor|].
  destruct (f a) as [b|] eqn:E; [|discriminate]. destruct (opt_map f l) as [s|]; [|discriminate].
  injection H as <-. constructor; auto.
Qed.
Lemma Forall2_len {A B} (R : A -> B -> Prop) l l' : Forall2 R l l' -> List.length l = List.length l'.
Proof. induction 1; cbn; auto. Qed.
Lemma Forall2_nth {A B} (R : A -> B -> Prop) l l' : Forall2 R l l' ->
  forall i a, nth_error l i = Some a -> exists b, nth_error l' i = Some b /\ R a b.
Proof.
  induction 1 as [|a b l l' H _ IH]; intros [|i] x Hx; try discriminate; cbn in *.
  - injection Hx as <-. eauto.
  - eauto.
Qed.
Lemma Forall2_nth_r {A B} (R : A -> B -> Prop) l l' : Forall2 R l l' ->
  forall i b, nth_error l' i = Some b -> exists a, nth_error l i = Some a /\ R a b.
Proof.
  induction 1 as [|a b l l' H _ IH]; intros [|i] x Hx; try discriminate; cbn in *.
  - injection Hx as <-. eauto.
  - eauto.
Qed.
Lemma Forall2_imp {A B} (R S : A -> B -> Prop) l l' : (forall a b, In a l -> R a b -> S a b) ->
  Forall2 R l l' -> Forall2 S l l'.
Proof.
  intros H F. induction F as [|a b l l' X F IH]; constructor.
  - apply H; [now left|exact X].
  - apply IH. intros a' b' Hi. apply H. now right.
Qed.

(** ** Name mappings *)
Section Maps.
  Context {K : Type} {KD : EqDec K} (valid : string -> bool).

  Lemma m_load_sub (M : nmap K) : MWf valid M -> forall l m, MInv m -> MExt m M ->
    (forall k n, In (k, n) l -> dget n (m_rev M) = Some k) ->
    exists m', m_load valid m l = (m', true) /\ MInv m' /\ MExt m' M /\ MExt m m' /\
      forall k n, In (k, n) l -> dget n (m_rev m') = Some k.
  Proof.
    intros (HM & HV & _). induction l as [|[k n] l IH]; intros m I X H.
    - exists m. split; [reflexivity|]. split; [exact I|]. split; [exact X|]. split; [apply MExt_refl|]. intros ? ? [].
    - cbn [m_load]. pose proof (H k n (or_introl eq_refl)) as Hn.
      assert (S : exists m1, m_set valid m k n = (m1, true)).
      { unfold m_set. rewrite (HV n k Hn). cbn [negb].
        destruct (dget k (m_fwd m)) as [n'|] eqn:F.
        - pose proof (proj2 X n' k F) as F'. apply HM in Hn. assert (n' = n) by congruence. subst n'.
          destruct (eq_dec n n); [|congruence]. apply I in F. rewrite F.
          destruct (eq_dec k k); [eauto|congruence].
        - destruct (dget n (m_rev m)) as [k'|] eqn:G; [|eauto].
          pose proof (proj1 X n k' G) as G'. assert (k' = k) by congruence. subst k'.
          destruct (eq_dec k k); [eauto|congruence]. }
      destruct S as [m1 S]. rewrite S. apply m_set_ok in S as (I1 & X1 & N1 & O1 & O2); [|exact I].
      destruct (IH m1) as (m' & L & I' & X' & X2 & A).
      + exact I1.
      + split.
        * intros n' k' Hd. destruct (eq_dec n' n) as [->|Hne]; [congruence|]. rewrite O1 in Hd by exact Hne. apply X. exact Hd.
        * intros n' k' Hd. apply HM. apply I1 in Hd.
          destruct (eq_dec n' n) as [->|Hne]; [congruence|]. rewrite O1 in Hd by exact Hne. apply X. exact Hd.
      + intros k' n' Hi. apply H. now right.
      + exists m'. split; [exact L|]. split; [exact I'|]. split; [exact X'|]. split; [eapply MExt_trans; eauto|].
        intros k' n' [E|Hi]; [|auto]. injection E as <- <-. apply X2. exact N1.
  Qed.

  (** Loading all of a mapping on top of a part of it gives the mapping. *)
  Lemma load_all (M m : nmap K) : MWf valid M -> MInv m -> MExt m M ->
    exists m', m_load_rev valid m (m_rev M) = (m', true) /\ MInv m' /\
      (forall n, dget n (m_rev m') = dget n (m_rev M)) /\ (forall k, dget k (m_fwd m') = dget k (m_fwd M)).
  Proof.
    intros W I X. unfold m_load_rev.
    destruct (m_load_sub M W (map (fun nk => (snd nk, fst nk)) (m_rev M)) m I X) as (m' & L & I' & X' & _ & A).
    - intros k n H. apply in_map_iff in H as ([n' k'] & E & H). cbn in E. injection E as <- <-.
      apply In_dget; [apply W|exact H].
    - assert (R : forall n, dget n (m_rev m') = dget n (m_rev M)).
      { intros n. destruct (dget n (m_rev M)) as [k|] eqn:E.
        - apply A. apply in_map_iff. exists (n, k). split; [reflexivity|]. apply dget_In. exact E.
        - destruct (dget n (m_rev m')) as [k|] eqn:E'; [|reflexivity]. apply X' in E'. congruence. }
      exists m'. split; [exact L|]. split; [exact I'|]. split; [exact R|].
      intros k. destruct W as (HM & _). destruct (dget k (m_fwd M)) as [n|] eqn:E.
      + apply HM in E. apply I'. rewrite R. exact E.
      + destruct (dget k (m_fwd m')) as [n|] eqn:E'; [|reflexivity]. apply I' in E'. rewrite R in E'. apply HM in E'. congruence.
  Qed.

  Lemma new_sub (M : nmap K) nks : MWf valid M ->
    (forall n k, In (n, k) nks -> dget n (m_rev M) = Some k) ->
    exists m, m_new valid [] nks = Some m /\ MInv m /\ MExt m M.
  Proof.
    intros W H. unfold m_new, m_load_rev. cbn [m_load].
    destruct (m_load_sub M W (map (fun nk => (snd nk, fst nk)) nks) m_empty) as (m & L & I & X & _).
    - apply MInv_empty.
    - split; cbn; discriminate.
    - intros k n Hi. apply in_map_iff in Hi as ([n' k'] & E & Hi). cbn in E. injection E as <- <-. auto.
    - rewrite L. eauto.
  Qed.
End Maps.

(** ** Enumerations *)
Section Enums.
  Context (validE : string -> bool) (int_of : string -> option Z) (bool_of : string -> option bool).
  Notation same_enum := (same_enum int_of bool_of).

  Record GF (g : ereg) : Prop := {
    gf_names : MWf validE (r_map (g_names g));
    gf_nd : NoDup (dkeys (g_items g));
    gf_id : forall n it, dget n (g_items g) = Some it -> dget n (m_rev (r_map (g_names g))) = Some (i_id it);
    gf_item : forall n it, In (n, it) (g_items g) -> 1 <= i_id it /\ e_reachable validE (snd (i_payload it))
  }.

  Lemma g_step_more (g : ereg) o : MWf validE (r_map (g_names g)) -> NoDup (dkeys (g_items g)) ->
    MWf validE (r_map (g_names (fst (g_step validE (@Some epay) g o)))) /\
    NoDup (dkeys (g_items (fst (g_step validE (@Some epay) g o)))).
  Proof.
    intros M N.
    assert (R : forall (g : ereg) name it, MWf validE (r_map (g_names g)) -> NoDup (dkeys (g_items g)) ->
      MWf validE (r_map (g_names (fst (g_register validE g name it)))) /\
      NoDup (dkeys (g_items (fst (g_register validE g name it))))).
    { clear. intros g name it M N. unfold g_register.
      pose proof (r_register_wf validE (g_names g) name (Some (i_id it)) M) as W.
      destruct (r_register _ _ _ _) as [n' [[i|]| |]]; cbn [fst g_names g_items] in *; auto.
      destruct (dmem name (g_items g)); cbn [fst g_names g_items]; split; auto. apply NoDup_dset. exact N. }
    destruct o as [name d|name it]; cbn [g_step].
    - assert (F : forall (g : ereg) i p, MWf validE (r_map (g_names g)) -> NoDup (dkeys (g_items g)) ->
        MWf validE (r_map (g_names (fst (g_finish validE epay epay (@Some epay) g name i p)))) /\
        NoDup (dkeys (g_items (fst (g_finish validE epay epay (@Some epay) g name i p))))).
      { intros g1 i p M1 N1. unfold g_finish, g_kind. destruct (R g1 name (mkItem i p) M1 N1) as [A B].
        destruct (g_register _ _ _ _) as [g' [[|]| |]]; cbn [fst] in *; auto. }
      unfold g_register_dict. destruct (d_id d) as [i|]; [apply F; auto|].
      pose proof (r_register_wf validE (g_names g) name None M) as W.
      destruct (r_register _ _ _ _) as [n' [[i|]| |]]; cbn [fst] in *; auto.
    - destruct (R g name it M N) as [A B]. destruct (g_register _ _ _ _) as [g' [[|]| |]]; cbn in *; auto.
  Qed.

  Lemma ereg_facts g : ereg_ok validE g -> GF g.
  Proof.
    intros (g0 & R & En & F & Fa). pose proof (g_reachable_inv validE _ _ _ g0 R) as [_ GI].
    assert (M : MWf validE (r_map (g_names g0)) /\ NoDup (dkeys (g_items g0))).
    { destruct R as (items & g1 & ops & Nd & New & <-).
      unfold g_new in New. destruct (r_new validE [] _) as [n|] eqn:E; [|discriminate]. injection New as <-.
      unfold r_new in E. destruct (m_new validE [] _) as [m|] eqn:Em; [|discriminate]. injection E as <-.
      apply m_new_wf in Em.
      assert (H0 : MWf validE (r_map (g_names (mkRegistry items (mkNreg m (r_bump 1 (dkeys (m_fwd m))))))) /\
                   NoDup (dkeys (g_items (mkRegistry items (mkNreg m (r_bump 1 (dkeys (m_fwd m)))))))) by (split; assumption).
      clear F En Fa GI. revert H0. generalize (mkRegistry items (mkNreg m (r_bump 1 (dkeys (m_fwd m))))).
      unfold g_run. induction ops as [|o ops IH]; intros g1 H0; [exact H0|]. cbn [fold_left]. apply IH.
      apply g_step_more; apply H0. }
    destruct M as [M N].
    assert (Keys : forall a b : list (string * RegistryModel.item epay),
      Forall2 (fun a b => fst a = fst b /\ i_id (snd a) = i_id (snd b) /\
                 fst (i_payload (snd a)) = fst (i_payload (snd b))) a b ->
      dkeys b = dkeys a /\ forall n it, dget n b = Some it -> exists it0, dget n a = Some it0 /\ i_id it0 = i_id it).
    { clear. induction 1 as [|[n a] [n' b] la lb (E1 & E2 & _) _ [IH1 IH2]]; [split; [reflexivity|discriminate]|].
      cbn [fst snd] in *. subst n'. split; [cbn; f_equal; exact IH1|].
      intros m it. cbn. destruct (eq_dec m n); [|apply IH2]. intros X; injection X as <-. eauto. }
    destruct (Keys _ _ F) as [K1 K2]. split.
    - rewrite En. exact M.
    - rewrite K1. exact N.
    - intros n it H. destruct (K2 n it H) as (it0 & H0 & <-). rewrite En. apply GI. exact H0.
    - intros n it H. rewrite Forall_forall in Fa. apply (Fa (n, it) H).
  Qed.

  Lemma same_enum_reload en : e_reachable validE en ->
    exists en', e_reload validE en = Some en' /\ same_enum en en'.
  Proof.
    intros R. destruct (enum_reload validE int_of bool_of en R) as (en' & E & P & A1 & A2 & A3).
    exists en'. split; [exact E|]. split.
    - destruct en as [r|m]; cbn in E; [unfold e_new_int in E|unfold e_new_bool in E];
        [destruct (r_new _ _ _)|destruct (m_new _ _ _)]; try discriminate; injection E as <-; exact I.
    - repeat split; intros; symmetry; auto.
  Qed.

  Definition erel (a b : string * RegistryModel.item epay) : Prop :=
    fst a = fst b /\ i_id (snd a) = i_id (snd b) /\ fst (i_payload (snd a)) = fst (i_payload (snd b)) /\
    same_enum (snd (i_payload (snd a))) (snd (i_payload (snd b))).

  Lemma enum_load_one n it : 1 <= i_id it -> e_reachable validE (snd (i_payload it)) ->
    exists b, enum_load validE (enum_dict (n, it)) = Some b /\ erel (n, it) b.
  Proof.
    intros H R. destruct (same_enum_reload _ R) as (en' & E & S). destruct it as [id [pr en]].
    cbn [i_id i_payload snd fst] in *. unfold enum_load, enum_dict. cbn [fst snd i_id i_payload je_id je_items je_prim].
    replace (1 <=? id) with true by lia.
    exists (n, mkItem id (pr, en')). split; [|repeat split; apply S].
    destruct en as [r|m]; cbn [e_reload] in E; unfold e_items_int, e_items_bool in E; rewrite E; reflexivity.
  Qed.

  Lemma erel_get l l' : Forall2 erel l l' -> forall n,
    opt_rel (fun a b => same_enum (snd (i_payload a)) (snd (i_payload b))) (dget n l) (dget n l').
  Proof.
    induction 1 as [|[n a] [n' b] la lb (E1 & _ & _ & S) _ IH]; intros m; [exact I|].
    cbn [fst snd] in *. subst n'. cbn. destruct (eq_dec m n); [exact S|apply IH].
  Qed.

  Lemma load_enums_ok {C} g (d : jenv C) : GF g ->
    jv_enums d = map enum_dict (g_items g) -> jv_enames d = m_asdict (r_map (g_names g)) ->
    exists g', load_enums validE d = Some g' /\
      (forall n, m_identifier (r_map (g_names g')) n = m_identifier (r_map (g_names g)) n) /\
      (forall k, opt_rel same_enum (enums_of g k) (enums_of g' k)).
  Proof.
    intros [M N Id It] E1 E2. unfold load_enums. rewrite E1, E2.
    destruct (opt_map_all (enum_load validE) (fun j b => exists a, In a (g_items g) /\ j = enum_dict a /\ erel a b)
                (map enum_dict (g_items g))) as (items & L & _).
    { intros j Hj. apply in_map_iff in Hj as ([n it] & <- & H). destruct (It n it H) as [H1 H2].
      destruct (enum_load_one n it H1 H2) as (b & Hb & Rb). exists b. split; [exact Hb|]. exists (n, it). auto. }
    rewrite L. apply opt_map_inv in L.
    assert (F : Forall2 erel (g_items g) items).
    { assert (Q : forall l bs, (forall n it, In (n, it) l -> 1 <= i_id it /\ e_reachable validE (snd (i_payload it))) ->
        Forall2 (fun a b => enum_load validE a = Some b) (map enum_dict l) bs -> Forall2 erel l bs).
      { induction l as [|[n it] l IH]; intros bs Hl Hf; inversion Hf as [|? b ? bs' Hb Hf']; subst; constructor.
        - destruct (Hl n it (or_introl eq_refl)) as [H1 H2]. destruct (enum_load_one n it H1 H2) as (b' & Hb' & Rb). congruence.
        - apply IH; [|exact Hf']. intros n' it' H. apply (Hl n' it'). now right. }
      apply Q; [exact It|exact L]. }
    assert (Pairs : forall n k, In (n, k) (map (fun ni => (fst ni, i_id (snd ni))) items) ->
              dget n (m_rev (r_map (g_names g))) = Some k).
    { intros n k H. apply in_map_iff in H as ([n' it'] & E & H). cbn in E. injection E as -> <-.
      apply In_nth_error in H as [i Hi]. destruct (Forall2_nth_r _ _ _ F i _ Hi) as ([m it] & Hm & (R1 & R2 & _)).
      cbn in R1, R2. subst m. rewrite <- R2. apply Id. apply In_dget; [exact N|]. eapply nth_error_In; eauto. }
    unfold g_new, r_new.
    destruct (new_sub validE (r_map (g_names g)) _ M Pairs) as (m & Hm & I1 & X1). rewrite Hm.
    unfold load_names. cbn [g_names r_map]. destruct (load_all validE _ _ M I1 X1) as (m' & L' & I' & R' & F'). unfold m_asdict. rewrite L'.
    eexists. split; [reflexivity|]. cbn. split; [intros n; apply R'|].
    intros k. unfold enums_of.
    assert (Hk : opt_rel (fun a b => same_enum (snd (i_payload a)) (snd (i_payload b)))
      (match k with inl n => g_get_name g n | inr i => g_get_id g i end)
      (match k with inl n => g_get_name (mkRegistry items (mkNreg m' (r_bump 1 (dkeys (m_fwd m))))) n
                  | inr i => g_get_id (mkRegistry items (mkNreg m' (r_bump 1 (dkeys (m_fwd m))))) i end)).
    { destruct k as [n|i].
      - unfold g_get_name, m_name_str, dmem. cbn [g_names r_map g_items]. rewrite R'.
        destruct (dget n (m_rev (r_map (g_names g)))); [|exact I]. apply erel_get. exact F.
      - unfold g_get_id, m_name. cbn [g_names r_map g_items]. rewrite F'.
        destruct (dget i (m_fwd (r_map (g_names g)))); [|exact I]. apply erel_get. exact F. }
    assert (Om : forall a b : option (RegistryModel.item epay),
      opt_rel (fun a b => same_enum (snd (i_payload a)) (snd (i_payload b))) a b ->
      opt_rel same_enum (option_map (fun it => snd (i_payload it)) a) (option_map (fun it => snd (i_payload it)) b)).
    { intros [a|] [b|] H; exact H. }
    exact (Om _ _ Hk).
  Qed.
End Enums.

(** ** Registers *)
Section Registers.
  Context (word : string -> bool).

  Definition entries (fs : list (string * field)) : list (Z * FieldModel.item) :=
    map (fun nf => (fl_index (snd nf), IField (snd nf))) fs.

  Lemma by_index_entries fs : NoDup (map (fun nf => fl_index (snd nf)) fs) -> by_index fs = entries fs.
  Proof.
    unfold by_index, entries.
    assert (G : forall (l : list (string * field)) (d : list (Z * FieldModel.item)), NoDup (dkeys d ++ map (fun nf => fl_index (snd nf)) l) ->
      fold_left (fun d nf => dset (fl_index (snd nf)) (IField (snd nf)) d) l d =
      d ++ map (fun nf => (fl_index (snd nf), IField (snd nf))) l).
    { induction l as [|nf l IH]; intros d H; cbn [fold_left map]; [rewrite app_nil_r; reflexivity|].
      rewrite dset_notin.
      - rewrite IH; [rewrite <- app_assoc; reflexivity|]. unfold dkeys in *. rewrite map_app, <- app_assoc. exact H.
      - apply dget_None_notin. intros Hin. apply NoDup_remove_2 in H. apply H. apply in_app_iff. now left. }
    intros H. apply (G fs []). exact H.
  Qed.

  Lemma fields_of_entries fs : NoDup (dkeys fs) -> (forall n f, In (n, f) fs -> fl_name f = n) ->
    fields_of (entries fs) = fs.
  Proof.
    intros N H. induction fs as [|[n f] fs IH] using rev_ind; [reflexivity|].
    unfold entries in *. rewrite map_app. cbn [map]. rewrite fields_of_snoc. cbn [snd].
    rewrite IH.
    - rewrite (H n f) by (apply in_app_iff; right; now left). apply dset_notin. apply dget_None_notin.
      unfold dkeys in *. rewrite map_app in N. cbn in N. apply NoDup_remove_2 in N. rewrite app_nil_r in N. exact N.
    - unfold dkeys in *. rewrite map_app in N. apply NoDup_app_l in N. exact N.
    - intros n' f' Hi. apply H. apply in_app_iff. now left.
  Qed.

  Lemma strip_entries fs : map strip_item (entries fs) = entries (map (fun nf => (fst nf, strip (snd nf))) fs).
  Proof. unfold entries. rewrite !map_map. apply map_ext. intros [n f]. reflexivity. Qed.

  Lemma schema_unsigned k : schema_kind k = true -> exists b, int_kind k b false.
  Proof. destruct k; try discriminate; intros _; eexists; constructor. Qed.

  Lemma fields_fold fs : fields_of (entries fs) = fs -> forall n f, In (n, f) fs -> True.
  Proof. auto. Qed.

  Lemma built_entries bits fs : NoDup (dkeys fs) ->
    (forall n f, In (n, f) fs -> fl_name f = n /\ valid_name n = true /\ 0 <= fl_index f /\
       1 <= fl_width f /\ fl_index f + fl_width f <= bits) ->
    (forall n f n' f', In (n, f) fs -> In (n', f') fs -> n <> n' ->
       disjoint (fl_index f, fl_width f) (fl_index f', fl_width f')) ->
    Built bits (entries fs).
  Proof.
    intros N H D. induction fs as [|[n f] fs IH] using rev_ind; [constructor|].
    unfold entries in *. rewrite map_app. cbn [map snd].
    assert (N1 : NoDup (dkeys fs)) by (unfold dkeys in *; rewrite map_app in N; apply NoDup_app_l in N; exact N).
    assert (N2 : ~ In n (dkeys fs)) by (unfold dkeys in *; rewrite map_app in N; cbn in N; apply NoDup_remove_2 in N; rewrite app_nil_r in N; exact N).
    assert (Hl : forall n' f', In (n', f') fs -> In (n', f') (fs ++ [(n, f)])) by (intros; apply in_app_iff; now left).
    assert (Hn : In (n, f) (fs ++ [(n, f)])) by (apply in_app_iff; right; now left).
    destruct (H n f Hn) as (E & V & I1 & I2 & I3).
    assert (Bd : Built bits (map (fun nf => (fl_index (snd nf), IField (snd nf))) fs)) by (apply IH; eauto).
    constructor.
    - exact Bd.
    - unfold fits. cbn [fst snd]. repeat split; try assumption; try lia.
      intros e He. apply in_map_iff in He as ([n' f'] & <- & He). unfold entry_range. cbn [snd].
      apply (D n' f' n f); auto. intros ->. apply N2. apply in_map_iff. exists (n, f'). auto.
    - rewrite E. exact V.
    - intros _. fold (entries fs). rewrite fields_of_entries; [|exact N1|intros n' f' Hi; apply (H n' f'); auto].
      apply dmem_false. apply dget_None_notin. rewrite E. exact N2.
  Qed.

  (** One register, exported and imported. *)
  Lemma import_register k raw fs : schema_kind k = true -> k_value k raw -> NoDup (dkeys fs) ->
    (forall n f, In (n, f) fs -> fl_name f = n /\ valid_name n = true /\ all_chars lower_name_char n = true /\
       0 <= fl_index f /\ 1 <= fl_width f /\ fl_index f + fl_width f <= k_bits k /\
       enum_schema word (fl_enum f) = true) ->
    (forall n f n' f', In (n, f) fs -> In (n', f') fs -> n <> n' ->
       disjoint (fl_index f, fl_width f) (fl_index f', fl_width f')) ->
    exists s, r_import word (mkJR k (map (item_dict raw) (by_index fs)) true) = Some s /\
      r_kind s = k /\ k_value k (r_raw s) /\ r_fields s = map (fun nf => (fst nf, strip (snd nf))) fs /\
      forall n f, In (n, f) fs -> bf_read (r_raw s) (fl_index f) (fl_width f) = bf_read raw (fl_index f) (fl_width f).
  Proof.
    intros Sk V N H D. destruct (schema_unsigned k Sk) as [b Hk].
    destruct (int_kind_bits k b false Hk) as (Eb & Pb & _).
    assert (Bd : Built (k_bits k) (entries fs)).
    { apply built_entries; [exact N| |exact D]. intros n f Hi.
      destruct (H n f Hi) as (A1 & A2 & A3 & A4 & A5 & A6 & A7). auto. }
    assert (Ni : NoDup (map (fun nf => fl_index (snd nf)) fs)).
    { clear - N H D. induction fs as [|[n f] fs IH]; [constructor|]. cbn [map snd].
      cbn in N. inversion N as [|? ? N1 N2]; subst. constructor.
      - intros Hin. apply in_map_iff in Hin as ([n' f'] & E & Hi). cbn in E.
        destruct (H n f (or_introl eq_refl)) as (_ & _ & _ & _ & W & _).
        destruct (H n' f' (or_intror Hi)) as (_ & _ & _ & _ & W' & _).
        apply (D n' f' n f (or_intror Hi) (or_introl eq_refl)) with (fl_index f).
        + intros ->. apply N1. apply in_map_iff. exists (n, f'). auto.
        + unfold covers; cbn. lia.
      - apply IH; auto. + intros n' f' Hi. apply H. now right. + intros n1 f1 n2 f2 A1 A2. apply D; now right. }
    rewrite (by_index_entries fs Ni).
    assert (Pads : forall i w v, In (i, IPad w v) (entries fs) -> v = 0).
    { intros i w v Hi. apply in_map_iff in Hi as (nf & E & _). discriminate. }
    destruct (load_built k b raw (entries fs) Hk Bd Pads) as (s & L & LSs).
    assert (Raw0 : 0 <= raw).
    { apply (int_kind_value _ _ _ _ Hk) in V. unfold representable in V. lia. }
    assert (Sch : schema_ok word (mkJR k (map (item_dict raw) (entries fs)) true) = true).
    { unfold schema_ok. cbn [jr_kind jr_items]. rewrite Sk. cbn [andb].
      apply (schema_built word raw (entries fs) (k_bits k) Raw0 Bd). apply Forall_forall.
      intros e He. apply in_map_iff in He as ([n f] & <- & Hi). unfold loadable. cbn [snd].
      destruct (H n f Hi) as (A1 & A2 & A3 & A4 & A5 & A6 & A7). rewrite A1. split; [apply lower_chars; exact A3|].
      unfold enum_schema in A7. destruct (fl_enum f) as [[?|?]|]; auto. lia. }
    unfold r_import. rewrite Sch. cbn [jr_kind jr_items]. rewrite L. eexists. split; [reflexivity|]. cbn [r_kind r_raw r_fields].
    destruct LSs as [S1 S2 S3 S4 S5 S6 S7]. split; [exact S1|]. split; [exact S6|]. split.
    - rewrite S4, strip_entries. apply fields_of_entries.
      + unfold dkeys in *. rewrite map_map. exact N.
      + intros n f Hi. apply in_map_iff in Hi as ([n' f'] & E & Hi). injection E as <- <-. apply (H n' f' Hi).
    - intros n f Hi. destruct (H n f Hi) as (A1 & A2 & A3 & A4 & A5 & A6 & A7).
      apply read_ext; try lia. intros j Hj.
      assert (Hj' : 0 <= j < k_bits k) by lia. pose proof (S7 j Hj') as Q. unfold bit in Q.
      destruct (Z.testbit raw j) eqn:T; destruct (Z.testbit (r_raw s) j) eqn:T'; try reflexivity.
      + exfalso. assert (false = true); [|discriminate]. apply Q. split; [reflexivity|].
        exists (fl_index f), f. split; [apply in_map_iff; exists (n, f); auto|exact Hj].
      + exfalso. destruct (proj1 Q eq_refl). discriminate.
  Qed.
End Registers.
