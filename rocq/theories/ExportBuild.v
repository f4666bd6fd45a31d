(** Building the loaded environment, for C79. *)
From Coq Require Import QArith ZifyBool ZifyNat.
From Verif Require Import Base BaseLemmas PrimModel PrimSpec PrimProofs ScalingModel FieldModel FieldSpec FieldProofs
  FieldExportProofs RegistryModel RegistrySpec RegistryProofs EnumModel EnumSpec EnumProofs
  EnvModel EnvSpec EnvProofs EnvWf EnvLife EnvValue ExportModel ExportSpec ExportProofs ExportLoad ExportRound
  ExportApply.
Open Scope Z_scope.

Lemma opt_map_rel {A B D} (R : A -> B -> Prop) (f : B -> option D) (P : A -> D -> Prop) l l' : Forall2 R l l' ->
  (forall a b, In a l -> R a b -> exists c, f b = Some c /\ P a c) ->
  exists cs, opt_map f l' = Some cs /\ Forall2 P l cs.
Proof.
  intros F. induction F as [|a b l l' Hr F IH]; intros H; [exists []; split; [reflexivity|constructor]|].
  destruct (H a b (or_introl eq_refl) Hr) as (c & Hc & Pc). destruct IH as (cs & Hcs & Pcs).
  - intros a' b' Hi. apply H. now right.
  - exists (c :: cs). cbn. rewrite Hc, Hcs. split; [reflexivity|constructor; assumption].
Qed.
Lemma nth_combine {A B} (l : list A) (l' : list B) : forall i, nth_error (combine l l') i =
  match nth_error l i, nth_error l' i with Some a, Some b => Some (a, b) | _, _ => None end.
Proof.
  revert l'. induction l as [|a l IH]; intros [|b l'] [|i]; cbn; try reflexivity.
  - destruct (nth_error l i); reflexivity.
  - apply IH.
Qed.
Lemma nth_error_same {A} (l l' : list A) : (forall i, nth_error l i = nth_error l' i) -> l = l'.
Proof.
  revert l'. induction l as [|a l IH]; intros [|b l'] H; [reflexivity|specialize (H O); discriminate|specialize (H O); discriminate|].
  pose proof (H O) as H0. cbn in H0. injection H0 as <-. f_equal. apply IH. intros i. exact (H (S i)).
Qed.
Lemma dget_strip n (fs : list (string * field)) :
  dget n (map (fun nf => (fst nf, strip (snd nf))) fs) = option_map strip (dget n fs).
Proof. induction fs as [|[m f] fs IH]; [reflexivity|]. cbn. destruct (eq_dec n m); [reflexivity|exact IH]. Qed.

Section Build.
  Context (valid validE word : string -> bool).
  Context (int_of : string -> option Z) (float_of : string -> option flo)
    (bool_of : string -> option bool) (fround : kind -> flo -> flo).
  Context {C : Type} (cdefault : C -> option num).
  Notation same_enum := (same_enum int_of bool_of).
  Context (g : ereg) (x : xenv C) (re : bool) (d : jenv C).
  Context (D : XD valid word fround cdefault g x re d) (G : GF validE g) (P : portable word x re).
  Notation e := (x_env x).

  Lemma wf_e : EWF (enums_of g) e.
  Proof. apply (i_wf _ _ _ _ (xi_env _ _ _ _ _ _ (d_inv _ _ _ _ _ _ _ _ D))). Qed.
  Lemma nd_e : NoDup (dkeys (e_chans e)).
  Proof. apply (i_nd _ _ _ _ (xi_env _ _ _ _ _ _ (d_inv _ _ _ _ _ _ _ _ D))). Qed.
  Lemma mw_e : MWf valid (r_map (e_names e)).
  Proof. apply (i_names _ _ _ _ (xi_env _ _ _ _ _ _ (d_inv _ _ _ _ _ _ _ _ D))). Qed.
  Lemma enums_reach k m : enums_of g k = Some m -> e_reachable validE m.
  Proof.
    unfold enums_of. intros H.
    assert (R : forall n it, dget n (g_items g) = Some it -> e_reachable validE (snd (i_payload it))).
    { intros n it Hi. apply (gf_item _ _ G n it). apply dget_In. exact Hi. }
    destruct k as [n|i].
    - unfold g_get_name in H. destruct (m_name_str _ n) as [n'|]; [|discriminate].
      destruct (dget n' (g_items g)) as [it|] eqn:E; [|discriminate]. injection H as <-. eapply R; eauto.
    - unfold g_get_id in H. destruct (m_name _ i) as [n'|]; [|discriminate].
      destruct (dget n' (g_items g)) as [it|] eqn:E; [|discriminate]. injection H as <-. eapply R; eauto.
  Qed.
  Lemma name_lower n v : dget n (m_rev (r_map (e_names e))) = Some v ->
    nonempty n = true /\ all_chars lower_name_char n = true.
  Proof.
    intros H. assert (X : n <> EmptyString /\ made_of lower_alphabet n).
    { apply (p_lower _ _ _ P). unfold m_names. apply dget_In in H. apply in_map_iff. exists (n, v). auto. }
    destruct X as [X1 X2]. split; [destruct n; [elim X1; reflexivity|reflexivity]|apply lower_chars; exact X2].
  Qed.

  (** ** Channels *)
  Definition jchan_of (m : cmeta C) (c : cell) (ch : chan) : jchan C :=
    mkJC (cm_id m) (c_kind c) (ch_cmd ch) (cm_enum m) (cm_ctl m) (cm_desc m) (cm_default m).
  Lemma chan_entry n ch : In (n, ch) (e_chans e) ->
    exists m c, dget n (x_meta x) = Some m /\ e_cell e (ch_ref ch) = Some c /\
      chan_dict x (n, ch) = Some (n, jchan_of m c ch) /\
      dget n (m_rev (r_map (e_names e))) = Some (cm_id m) /\
      ch_enum ch = (match cm_enum m with Some k => enums_of g k | None => None end) /\
      chan_schema word (c_kind c) (cm_id m) (cm_enum m) = true /\
      default_fits (c_kind c) (cm_default m) = true /\
      dflt cdefault (cm_default m) (cm_ctl m) = cm_default m.
  Proof.
    intros H. apply (In_dget _ _ _ nd_e) in H.
    destruct (xi_meta _ _ _ _ _ _ (d_inv _ _ _ _ _ _ _ _ D) n ch H) as (m & c & A1 & A2 & A3 & A4 & A5 & A6 & A7).
    rewrite (xi_g _ _ _ _ _ _ (d_inv _ _ _ _ _ _ _ _ D)) in A4.
    exists m, c. repeat (split; [first [assumption | unfold chan_dict; cbn [fst snd]; rewrite A1, A2; reflexivity]|]). exact A7.
  Qed.

  Definition cell_of (nc : string * chan) (c' : cell) : Prop :=
    exists c, e_cell e (ch_ref (snd nc)) = Some c /\ c_kind c' = c_kind c /\ c_scaling c' = [] /\ cell_ok c'.
  Lemma default_set k dv : default_fits k (Some dv) = true ->
    exists c, cell_set fround (mkCell k [] (if k_is_float k then RF (FFin 0) else RI 0)) dv = Ok c.
  Proof.
    unfold default_fits, cell_set. cbn [c_kind c_scaling]. destruct dv as [z|b|f].
    - intros ->. eauto.
    - destruct (k_is_int k); [eauto|]. intros H. destruct (k_is_float k); [discriminate|eauto].
    - intros H. destruct (k_cases k) as [(_ & F & _)|[(I & F & _)|B]]; [congruence|rewrite I, F; eauto|].
      subst k. discriminate.
  Qed.
  Lemma cells_load : exists cells, opt_map (chan_load word fround cdefault) (jv_chans d) = Some cells /\
    Forall2 cell_of (e_chans e) cells.
  Proof.
    apply (opt_map_rel _ _ _ _ _ (d_chans _ _ _ _ _ _ _ _ D)). intros [n ch] nj Hi Hj.
    destruct (chan_entry n ch Hi) as (m & c & M1 & M2 & M3 & M4 & M5 & M6 & M7 & M8). rewrite M3 in Hj. injection Hj as <-.
    destruct (name_lower n _ M4) as [L1 L2].
    unfold chan_load. cbn [jc_kind jc_id jc_enum jc_default jc_ctl jchan_of].
    rewrite L1, L2, M6, M8, M7. cbn [andb].
    assert (Ok0 : cell_ok (mkCell (c_kind c) [] (if k_is_float (c_kind c) then RF (FFin 0) else RI 0))).
    { unfold cell_ok. cbn [c_raw c_kind]. destruct (k_is_float (c_kind c)) eqn:F; [reflexivity|]. split; [reflexivity|].
      destruct (k_cases (c_kind c)) as [(I & _ & _)|[(_ & F' & _)|B]]; [|congruence|].
      - destruct (int_kind_ex _ I) as (b & s & Hk). apply (int_kind_value _ _ _ _ Hk). unfold representable.
        destruct Hk; cbn; lia.
      - rewrite B. cbn. auto. }
    destruct (cm_default m) as [dv|] eqn:Dm.
    - destruct (default_set (c_kind c) dv M7) as [c' Hc']. rewrite Hc'. exists c'. split; [reflexivity|].
      apply cell_set_ok in Hc' as (O & K & S). exists c. cbn in *. auto.
    - eexists. split; [reflexivity|]. exists c. cbn. auto.
  Qed.

  (** ** Names *)
  Lemma names_load : exists names0 names,
    RegistryModel.r_new valid [] (map (fun nj => (fst nj, jc_id (snd nj))) (jv_chans d)) = Some names0 /\
    load_names valid names0 (jv_names d) = Some names /\ MInv (r_map names) /\
    (forall n, dget n (m_rev (r_map names)) = dget n (m_rev (r_map (e_names e)))) /\
    (forall k, dget k (m_fwd (r_map names)) = dget k (m_fwd (r_map (e_names e)))).
  Proof.
    destruct (new_sub valid (r_map (e_names e)) (map (fun nj => (fst nj, jc_id (snd nj))) (jv_chans d)) mw_e) as (m & Hm & I & X).
    - intros n k H. apply in_map_iff in H as ([n' j] & E & H). injection E as -> <-.
      apply In_nth_error in H as [i Hi]. destruct (Forall2_nth_r _ _ _ (d_chans _ _ _ _ _ _ _ _ D) i _ Hi) as ([n0 ch] & H0 & Hd).
      apply nth_error_In in H0. destruct (chan_entry n0 ch H0) as (m & c & M1 & M2 & M3 & M4 & _).
      rewrite M3 in Hd. injection Hd as -> <-. exact M4.
    - destruct (load_all valid (r_map (e_names e)) m mw_e I X) as (m' & L & I' & R & F).
      unfold RegistryModel.r_new. rewrite Hm. eexists. eexists. split; [reflexivity|].
      unfold load_names. rewrite (d_names _ _ _ _ _ _ _ _ D). cbn [r_map]. unfold m_asdict. rewrite L.
      split; [reflexivity|]. auto.
  Qed.

  (** ** Registers *)
  Definition reg_of (b : nat) (s : regs) : Prop :=
    exists bf c raw, nth_error (e_bfs e) b = Some bf /\ e_cell e (bf_ref bf) = Some c /\ c_raw c = RI raw /\
      r_kind s = c_kind c /\ k_value (r_kind s) (r_raw s) /\
      r_fields s = map (fun nf => (fst nf, strip (snd nf))) (bf_fields bf) /\
      forall n f, In (n, f) (bf_fields bf) ->
        bf_read (r_raw s) (fl_index f) (fl_width f) = bf_read raw (fl_index f) (fl_width f).
  Lemma regs_load : exists rs, opt_map (r_import word) (jv_fields d) = Some rs /\ Forall2 reg_of (e_mgr e) rs.
  Proof.
    apply (opt_map_rel _ _ _ _ _ (d_regs _ _ _ _ _ _ _ _ D)). intros b j Hb Hj.
    unfold regs_dict in Hj. destruct (nth_error (e_bfs e) b) as [bf|] eqn:Bf; [|discriminate].
    destruct (e_cell e (bf_ref bf)) as [[k sc [raw|]]|] eqn:Hc; [|discriminate|discriminate]. injection Hj as <-.
    destruct (w_bfs _ _ wf_e b bf Bf) as (Nd & c0 & Hc0 & Hf). rewrite Hc in Hc0. injection Hc0 as <-. cbn [c_kind] in Hf.
    destruct (p_regs _ _ _ P b bf _ Hb Bf Hc) as (K1' & K2 & K3). cbn [c_kind] in *.
    assert (K1 : schema_kind k = true) by (destruct K1' as [bits K1']; inversion K1'; reflexivity).
    destruct (d_fine _ _ _ _ _ _ _ _ D b Hb) as (bf' & Bf' & Kn). rewrite Bf in Bf'. injection Bf' as <-.
    destruct (import_register word k raw (bf_fields bf) K1) as (s & Hs & S1 & S2 & S3 & S4).
    - pose proof (w_cells _ _ wf_e _ _ Hc) as Ok. unfold cell_ok in Ok. cbn in Ok. apply Ok.
    - exact Nd.
    - intros n f Hi. destruct (Hf n f (In_dget _ _ _ Nd Hi)) as [En Fo].
      apply field_ok_spec in Fo as (O1 & O2 & O3 & O4 & O5 & O6).
      destruct (K2 n f Hi) as (Q1 & Q2 & Q3).
      assert (Lw : all_chars lower_name_char n = true).
      { destruct (Kn n f Hi) as [Kno _]. unfold known in Kno.
        destruct (dget n (m_rev (r_map (e_names e)))) as [v|] eqn:Ev; [|congruence]. apply (name_lower n v Ev). }
      repeat (split; [assumption|]). assumption.
    - exact K3.
    - exists s. split; [exact Hs|]. exists bf, (mkCell k sc (RI raw)), raw. cbn [c_kind c_raw]. rewrite S1. auto 10.
  Qed.

  (** ** The environment before its values are applied *)
  Context (cells : list cell) (names : nreg) (g' : ereg) (rs : list regs).
  Context (Hcells : Forall2 cell_of (e_chans e) cells)
    (Hnames : MInv (r_map names))
    (Hrev : forall n, dget n (m_rev (r_map names)) = dget n (m_rev (r_map (e_names e))))
    (Hfwd : forall k, dget k (m_fwd (r_map names)) = dget k (m_fwd (r_map (e_names e))))
    (Hg' : forall k, opt_rel same_enum (enums_of g k) (enums_of g' k))
    (Hrs : Forall2 reg_of (e_mgr e) rs).
  Notation e0 := (load_base d names cells rs).
  Notation N := (List.length cells).

  Lemma base_chan i : nth_error (e_chans e0) i =
    option_map (fun nj => (fst nj, mkChan i (jc_cmd (snd nj)) None)) (nth_error (jv_chans d) i).
  Proof.
    cbn [load_base e_chans]. rewrite nth_error_map, indexed_nth. destruct (nth_error (jv_chans d) i); reflexivity.
  Qed.
  Lemma base_bf i : nth_error (e_bfs e0) i = option_map (fun s => mkBf (N + i)%nat (r_fields s)) (nth_error rs i).
  Proof. cbn [load_base e_bfs]. rewrite nth_error_map, indexed_nth. destruct (nth_error rs i); reflexivity. Qed.
  Lemma base_cell_l i : (i < N)%nat -> e_cell e0 i = nth_error cells i.
  Proof. intros H. unfold e_cell. cbn [load_base e_heap]. apply nth_error_app1. exact H. Qed.
  Lemma base_cell_r i : e_cell e0 (N + i)%nat = option_map (fun s => mkCell (r_kind s) [] (RI (r_raw s))) (nth_error rs i).
  Proof.
    unfold e_cell. cbn [load_base e_heap]. rewrite nth_error_app2 by lia. replace (N + i - N)%nat with i by lia.
    apply nth_error_map.
  Qed.
  (** Channels by position: the old one, its entry, its new cell. *)
  Lemma chan_pos i n ch : nth_error (e_chans e) i = Some (n, ch) ->
    exists m c c', dget n (x_meta x) = Some m /\ e_cell e (ch_ref ch) = Some c /\
      nth_error (jv_chans d) i = Some (n, jchan_of m c ch) /\
      nth_error cells i = Some c' /\ c_kind c' = c_kind c /\ c_scaling c' = [] /\ cell_ok c' /\ (i < N)%nat /\
      ch_enum ch = (match cm_enum m with Some k => enums_of g k | None => None end) /\
      dget n (m_rev (r_map (e_names e))) = Some (cm_id m).
  Proof.
    intros H. destruct (chan_entry n ch (nth_error_In _ _ H)) as (m & c & M1 & M2 & M3 & M4 & M5 & _).
    destruct (Forall2_nth _ _ _ (d_chans _ _ _ _ _ _ _ _ D) i _ H) as (nj & J1 & J2). rewrite M3 in J2. injection J2 as <-.
    destruct (Forall2_nth _ _ _ Hcells i _ H) as (c' & C1 & (c0 & C2 & C3 & C4 & C5)). cbn [snd] in C2.
    rewrite M2 in C2. injection C2 as <-.
    exists m, c, c'. repeat (split; [assumption|]). split; [|auto]. apply nth_error_Some. congruence.
  Qed.
  Lemma len_chans : List.length (jv_chans d) = List.length (e_chans e).
  Proof. symmetry. apply (Forall2_len _ _ _ (d_chans _ _ _ _ _ _ _ _ D)). Qed.
  Lemma chan_pos_r i n v : nth_error (e_chans e0) i = Some (n, v) -> exists ch, nth_error (e_chans e) i = Some (n, ch) /\
    v = mkChan i (ch_cmd ch) None.
  Proof.
    rewrite base_chan. destruct (nth_error (jv_chans d) i) as [nj|] eqn:J; [|discriminate]. cbn. intros X; injection X as <- <-.
    destruct (Forall2_nth_r _ _ _ (d_chans _ _ _ _ _ _ _ _ D) i _ J) as ([n ch] & H & Hd). exists ch.
    destruct (chan_pos i n ch H) as (m & c & c' & M1 & M2 & M3 & _). rewrite J in M3. injection M3 as ->. auto.
  Qed.
  Lemma base_keys : dkeys (e_chans e0) = dkeys (e_chans e).
  Proof.
    unfold dkeys. apply nth_error_same. intros i. rewrite !nth_error_map.
    destruct (nth_error (e_chans e) i) as [[n ch]|] eqn:H.
    - destruct (chan_pos i n ch H) as (m & c & c' & _ & _ & J & _). rewrite base_chan, J. reflexivity.
    - destruct (nth_error (e_chans e0) i) as [[n v]|] eqn:H0; [|reflexivity].
      destruct (chan_pos_r i n v H0) as (ch & Hc & _). congruence.
  Qed.

  (** Registers by position. *)
  Lemma reg_pos i b : nth_error (e_mgr e) i = Some b ->
    exists s bf c raw, nth_error rs i = Some s /\ nth_error (e_bfs e0) i = Some (mkBf (N + i)%nat (r_fields s)) /\
      e_cell e0 (N + i)%nat = Some (mkCell (c_kind c) [] (RI (r_raw s))) /\
      nth_error (e_bfs e) b = Some bf /\ e_cell e (bf_ref bf) = Some c /\ c_raw c = RI raw /\
      k_value (c_kind c) (r_raw s) /\ r_fields s = map (fun nf => (fst nf, strip (snd nf))) (bf_fields bf) /\
      forall n f, In (n, f) (bf_fields bf) ->
        bf_read (r_raw s) (fl_index f) (fl_width f) = bf_read raw (fl_index f) (fl_width f).
  Proof.
    intros H. destruct (Forall2_nth _ _ _ Hrs i _ H) as (s & Hs & bf & c & raw & B1 & B2 & B3 & B4 & B5 & B6 & B7).
    exists s, bf, c, raw. rewrite base_bf, base_cell_r, Hs. cbn. rewrite B4 in *. auto 12.
  Qed.
  Lemma len_regs : List.length rs = List.length (e_mgr e).
  Proof. symmetry. apply (Forall2_len _ _ _ Hrs). Qed.

  Lemma base_wf : EWF (enums_of g') e0.
  Proof.
    split.
    - exact Hnames.
    - intros r c H. destruct (lt_dec r N) as [L|L].
      + rewrite base_cell_l in H by exact L.
        destruct (Forall2_nth_r _ _ _ Hcells r _ H) as (nc & _ & c0 & _ & _ & _ & Ok). exact Ok.
      + replace r with (N + (r - N))%nat in H by lia. rewrite base_cell_r in H.
        destruct (nth_error rs (r - N)) as [s|] eqn:Es; [|discriminate]. cbn in H. injection H as <-.
        destruct (Forall2_nth_r _ _ _ Hrs _ _ Es) as (b & Hb & bf & c & raw & B1 & B2 & B3 & B4 & B5 & B6 & B7).
        pose proof (w_cells _ _ wf_e _ _ B2) as Ok. unfold cell_ok in *. cbn [c_raw c_kind]. rewrite B3 in Ok.
        rewrite B4 in *. split; [apply Ok|exact B5].
    - intros n ch H. assert (Nd : NoDup (dkeys (e_chans e0))) by (rewrite base_keys; apply nd_e).
      apply (dget_nth _ _ _ Nd) in H as [i Hi].
      destruct (chan_pos_r i n ch Hi) as (ch0 & H0 & ->).
      destruct (chan_pos i n ch0 H0) as (m & c & c' & M1 & M2 & M3 & M4 & M5 & M6 & M7 & M8 & M9 & M10).
      cbn [ch_ref ch_enum]. split; [exists c'; rewrite base_cell_l by exact M8; exact M4|].
      split; [|discriminate]. unfold known. cbn [load_base e_names]. rewrite Hrev, M10. discriminate.
    - intros i bf H.
      destruct (nth_error rs i) as [s|] eqn:Es; [|rewrite base_bf, Es in H; discriminate].
      destruct (Forall2_nth_r _ _ _ Hrs _ _ Es) as (b & Hb & _).
      destruct (reg_pos i b Hb) as (s' & bf0 & c & raw & R1 & R2 & R3 & R4 & R5 & R6 & R7 & R8 & R9).
      rewrite R2 in H. injection H as <-. cbn [bf_ref bf_fields].
      destruct (w_bfs _ _ wf_e b bf0 R4) as (Nd & c0 & Hc0 & Hf). rewrite R5 in Hc0. injection Hc0 as <-.
      split.
      + rewrite R8. unfold dkeys in *. rewrite map_map. exact Nd.
      + eexists. split; [exact R3|]. intros n f Hn. rewrite R8, dget_strip in Hn.
        destruct (dget n (bf_fields bf0)) as [f0|] eqn:F0; [|discriminate]. injection Hn as <-.
        exact (Hf n f0 F0).
    - intros n i H. discriminate.
    - intros n m H. discriminate.
    - intros r b H. discriminate.
    - intros b [].
  Qed.

  Lemma base_fine : fine (enums_of g') e0 (seq 0 (List.length rs)).
  Proof.
    intros i Hi. apply in_seq in Hi. rewrite len_regs in Hi.
    destruct (nth_error (e_mgr e) i) as [b|] eqn:Hb; [|apply nth_error_None in Hb; lia].
    destruct (reg_pos i b Hb) as (s & bf & c & raw & R1 & R2 & R3 & R4 & R5 & R6 & R7 & R8 & R9).
    eexists. split; [exact R2|]. cbn [bf_fields]. intros n f Hn. rewrite R8 in Hn.
    apply in_map_iff in Hn as ([n' f'] & E & Hn). injection E as <- <-.
    destruct (d_fine _ _ _ _ _ _ _ _ D b) as (bf' & Bf' & Kn); [eapply nth_error_In; eauto|].
    rewrite R4 in Bf'. injection Bf' as <-. destruct (Kn n' f' Hn) as [K1 K2]. split.
    - unfold known in *. cbn [load_base e_names]. rewrite Hrev. exact K1.
    - intros k Hk. cbn in Hk. specialize (K2 k Hk). specialize (Hg' k). destruct (enums_of g k); [|congruence].
      destruct (enums_of g' k); [discriminate|destruct Hg'].
  Qed.

  (** ** After the registers were added and the enumerations looked up *)
  Definition link (m : cmeta C) : option renum := match cm_enum m with Some k => enums_of g' k | None => None end.
  Lemma built : exists e2 chans,
    fold_left (fun (acc : env * bool) b =>
                 let '(e, ok) := acc in if ok then mgr_add valid (enums_of g') e b else (e, false))
      (seq 0 (List.length rs)) (e0, true) = (e2, true) /\
    opt_map (enum_link g') (combine (map fst (e_chans e2))
       (combine (map snd (e_chans e2)) (map (fun nj => jc_enum (snd nj)) (jv_chans d)))) = Some chans /\
    SR validE int_of bool_of e (with_chans e2 chans) /\ apart (with_chans e2 chans) /\
    EWF (enums_of g') (with_chans e2 chans) /\
    HF e (with_chans e2 chans) /\ HC (fun _ => False) e (with_chans e2 chans) /\
    e_toadd e2 = [] /\ e_final e2 = false /\ e_bypass e2 = false /\
    e_heap e2 = e_heap e0.
  Proof.
    destruct (adds_known valid int_of float_of bool_of (enums_of g') _ _ base_wf base_fine) as (e2 & E2 & N2).
    pose proof (adds_true valid int_of float_of bool_of (enums_of g') _ _ _ base_wf E2) as
      (W2 & X2 & F2 & O2 & G2 & H2 & C2 & B2 & P2 & T2 & Fi2 & By2).
    set (L := combine (map fst (e_chans e2)) (combine (map snd (e_chans e2)) (map (fun nj => jc_enum (snd nj)) (jv_chans d)))).
    assert (Ln : forall i, nth_error L i = match nth_error (e_chans e) i with
       | Some (n, ch) => match dget n (x_meta x) with
                         | Some m => Some (n, (mkChan i (ch_cmd ch) None, cm_enum m)) | None => None end
       | None => None end).
    { intros i. unfold L. rewrite !nth_combine, !nth_error_map, C2.
      destruct (nth_error (e_chans e) i) as [[n ch]|] eqn:H.
      - destruct (chan_pos i n ch H) as (m & c & c' & M1 & M2 & M3 & _). rewrite base_chan, M3. cbn. rewrite M1. reflexivity.
      - destruct (nth_error (e_chans e0) i) as [[n v]|] eqn:H0; [|reflexivity].
        destruct (chan_pos_r i n v H0) as (ch & Hc & _). congruence. }
    destruct (opt_map_all (enum_link g')
      (fun a b => fst b = fst a /\ snd b = mkChan (ch_ref (fst (snd a))) (ch_cmd (fst (snd a)))
         (match snd (snd a) with Some k => enums_of g' k | None => None end)) L) as (chans & Hch & Fch).
    { intros [n [ch en]] Hi. apply In_nth_error in Hi as [i Hi]. rewrite Ln in Hi.
      destruct (nth_error (e_chans e) i) as [[n0 ch0]|]; [|discriminate].
      destruct (dget n0 (x_meta x)) as [m|] eqn:M; [|discriminate]. injection Hi as <- <- <-.
      unfold enum_link. cbn [fst snd ch_ref ch_cmd]. destruct (cm_enum m) as [k|] eqn:En; [|eexists; split; [reflexivity|]; auto].
      pose proof (p_enum _ _ _ P n0 m k M En) as Pe.
      rewrite (xi_g _ _ _ _ _ _ (d_inv _ _ _ _ _ _ _ _ D)) in Pe.
      specialize (Hg' k). destruct (enums_of g k); [|congruence]. destruct (enums_of g' k) as [m'|]; [|destruct Hg'].
      eexists. split; [reflexivity|]. auto. }
    assert (Cn : forall i, nth_error chans i = match nth_error (e_chans e) i with
       | Some (n, ch) => match dget n (x_meta x) with
                         | Some m => Some (n, mkChan i (ch_cmd ch) (link m)) | None => None end
       | None => None end).
    { intros i. specialize (Ln i). destruct (nth_error L i) as [a|] eqn:La.
      - destruct (Forall2_nth _ _ _ Fch i a La) as ([bn bc] & Hb & B3 & B4). rewrite Hb.
        destruct (nth_error (e_chans e) i) as [[n ch]|]; [|discriminate]. destruct (dget n (x_meta x)) as [m|]; [|discriminate].
        injection Ln as ->. cbn in *. subst bn bc. reflexivity.
      - destruct (nth_error chans i) as [b|] eqn:Hb.
        + destruct (Forall2_nth_r _ _ _ Fch i b Hb) as (a & Ha & _). congruence.
        + destruct (nth_error (e_chans e) i) as [[n ch]|]; [|reflexivity]. destruct (dget n (x_meta x)); [discriminate|reflexivity]. }
    assert (Ck : dkeys chans = dkeys (e_chans e)).
    { unfold dkeys. apply nth_error_same. intros i. rewrite !nth_error_map, Cn.
      destruct (nth_error (e_chans e) i) as [[n ch]|] eqn:H; [|reflexivity].
      destruct (chan_pos i n ch H) as (m & c & c' & M1 & _). rewrite M1. reflexivity. }
    assert (Nd : NoDup (dkeys chans)) by (rewrite Ck; apply nd_e).
    assert (Cd : forall n ch', dget n chans = Some ch' -> exists i ch m, nth_error (e_chans e) i = Some (n, ch) /\
              dget n (x_meta x) = Some m /\ ch' = mkChan i (ch_cmd ch) (link m)).
    { intros n ch' H. apply (dget_nth _ _ _ Nd) in H as [i Hi]. rewrite Cn in Hi.
      destruct (nth_error (e_chans e) i) as [[n0 ch]|] eqn:H; [|discriminate]. destruct (dget n0 (x_meta x)) as [m|] eqn:M; [|discriminate].
      injection Hi as <- <-. exists i, ch, m. auto. }
    assert (Cf : forall n ch, dget n (e_chans e) = Some ch -> exists i m, nth_error (e_chans e) i = Some (n, ch) /\
              dget n (x_meta x) = Some m /\ dget n chans = Some (mkChan i (ch_cmd ch) (link m))).
    { intros n ch H. apply (dget_nth _ _ _ nd_e) in H as [i Hi].
      destruct (chan_pos i n ch Hi) as (m & c & c' & M1 & _). exists i, m. split; [exact Hi|]. split; [exact M1|].
      apply (dget_nth _ _ _ Nd). exists i. rewrite Cn, Hi, M1. reflexivity. }
    (* owners *)
    assert (Ow : forall n, opt_rel (fun b i => nth_error (e_mgr e) i = Some b) (owner e n) (owner e2 n)).
    { intros n. rewrite O2, (d_own _ _ _ _ _ _ _ _ D).
      change (owner e0 n) with (@None nat).
      apply (last_owner_rel e e0 n (fun b i => nth_error (e_mgr e) i = Some b) (e_mgr e)); [| |exact I].
      - rewrite len_regs. assert (Q : forall (l l0 : list nat), Forall2 (fun b i => nth_error (l0 ++ l) i = Some b) l (seq (List.length l0) (List.length l))).
        { induction l as [|b l IH]; intros l0; cbn [List.length seq]; constructor.
          - rewrite nth_error_app2 by lia. rewrite Nat.sub_diag. reflexivity.
          - specialize (IH (l0 ++ [b])). rewrite app_length in IH. cbn in IH. rewrite Nat.add_1_r in IH.
            rewrite <- app_assoc in IH. exact IH. }
        apply (Q (e_mgr e) []).
      - intros b i Hb. destruct (reg_pos i b Hb) as (s & bf & c & raw & R1 & R2 & R3 & R4 & R5 & R6 & R7 & R8 & R9).
        unfold has_name. rewrite R2, R4. cbn [bf_fields]. unfold dmem. rewrite R8, dget_strip. destruct (dget n (bf_fields bf)); reflexivity. }
    assert (Of : forall n, match ofield e n with
       | Some (r, f) => exists i b bf, owner e2 n = Some i /\ nth_error (e_mgr e) i = Some b /\ nth_error (e_bfs e) b = Some bf /\
            bf_ref bf = r /\ dget n (bf_fields bf) = Some f /\ owner e n = Some b /\ ofield e2 n = Some ((N + i)%nat, strip f)
       | None => ofield e2 n = None end).
    { intros n. specialize (Ow n). unfold ofield. destruct (owner e n) as [b|] eqn:Eo.
      - destruct (owner e2 n) as [i|] eqn:Eo2; [|destruct Ow]. cbn in Ow.
        destruct (reg_pos i b Ow) as (s & bf & c & raw & R1 & R2 & R3 & R4 & R5 & R6 & R7 & R8 & R9).
        rewrite R4, B2, R2. cbn [bf_fields bf_ref]. rewrite R8, dget_strip. destruct (dget n (bf_fields bf)) as [f|] eqn:Ef; [|reflexivity].
        exists i, b, bf. auto 10.
      - destruct (owner e2 n) as [i|]; [destruct Ow|reflexivity]. }
    assert (Wf3 : EWF (enums_of g') (with_chans e2 chans)).
    { destruct W2 as [V1 V2 V3 V4 V5 V6 V7 V8]. split; cbn; auto.
      intros n ch' H. destruct (Cd n ch' H) as (i & ch & m & Hi & M & ->).
      destruct (chan_pos i n ch Hi) as (m' & c & c' & M1 & M2 & M3 & M4 & M5 & M6 & M7 & M8 & M9 & M10).
      cbn [ch_ref ch_enum]. split.
      - exists c'. unfold e_cell. cbn. rewrite H2. change (e_cell e0 i = Some c'). rewrite base_cell_l by exact M8. exact M4.
      - split; [unfold known; cbn; rewrite N2; cbn; rewrite Hrev, M10; discriminate|].
        unfold link. destruct (cm_enum m) as [k|]; [|discriminate]. intros m0 Hm. exists k. exact Hm. }
    exists e2, chans. split; [exact E2|]. split; [exact Hch|].
    assert (Cell : forall r, e_cell (with_chans e2 chans) r = e_cell e0 r) by (intros r; unfold e_cell; cbn; rewrite H2; reflexivity).
    split.
    { split.
      - intros n. cbn. rewrite N2. apply Hrev.
      - intros i. cbn. rewrite N2. apply Hfwd.
      - intros n. cbn [with_chans e_chans]. destruct (dget n (e_chans e)) as [ch|] eqn:H.
        + destruct (Cf n ch H) as (i & m & Hi & M & ->). cbn. split; [reflexivity|].
          destruct (chan_pos i n ch Hi) as (m' & c & c' & M1 & M2 & M3 & M4 & M5 & M6 & M7 & M8 & M9 & M10).
          assert (m' = m) by congruence. subst m'. rewrite M9. unfold link. destruct (cm_enum m) as [k|]; [|exact I].
          specialize (Hg' k). destruct (enums_of g k) as [a|] eqn:Ea; destruct (enums_of g' k) as [b|]; try exact Hg'.
          cbn in *. split; [exact Hg'|]. eapply enums_reach; exact Ea.
        + destruct (dget n chans) as [ch'|] eqn:H'; [|exact I]. destruct (Cd n ch' H') as (i & ch & m & Hi & _).
          exfalso. assert (Q : dget n (e_chans e) = Some ch) by (apply (dget_nth _ _ _ nd_e); exists i; exact Hi). congruence.
      - intros n. specialize (Of n). change (ofield (with_chans e2 chans) n) with (ofield e2 n).
        destruct (ofield e n) as [[r f]|]; [|rewrite Of; exact I].
        destruct Of as (i & b & bf & W1 & R1 & R2 & R3 & R4 & R5 & ->). cbn [opt_rel snd].
        destruct (w_bfs _ _ wf_e b bf R2) as (_ & c & Hc & Hf). destruct (Hf n f R4) as [Fn Fo].
        apply field_ok_spec in Fo as (U1 & U2 & _). split; [reflexivity|]. split; [exact Fn|]. split; [exact U1|]. split; [exact U2|].
        intros k Hk. destruct (d_fine _ _ _ _ _ _ _ _ D b (nth_error_In _ _ R1)) as (bf' & Bf' & Kn). rewrite R2 in Bf'. injection Bf' as <-.
        destruct (Kn n f (dget_In _ _ _ R4)) as [_ Fe]. specialize (Fe k Hk).
        destruct (enums_of g k) as [m|] eqn:Em; [|congruence]. pose proof (Hg' k) as Hk'. rewrite Em in Hk'.
        destruct (enums_of g' k) as [m'|] eqn:Em'; [|destruct Hk']. exists m, m'.
        split.
        { unfold owner in R5. destruct (dget n (e_lookup e)) as [j|] eqn:Lk; [|discriminate].
          destruct (w_lookup _ _ wf_e n j Lk) as (_ & b1 & bf1 & f1 & Q1 & Q2 & Q3 & Q4).
          assert (b1 = b) by congruence. subst b1. assert (bf1 = bf) by congruence. subst bf1. assert (f1 = f) by congruence. subst f1.
          eapply Q4; eauto. }
        split; [|split; [exact Hk'|eapply enums_reach; exact Em]].
        cbn [with_chans e_flenum]. unfold owner in W1. destruct (dget n (e_lookup e2)) as [j|] eqn:Lk; [|discriminate].
        destruct (w_lookup _ _ W2 n j Lk) as (_ & b1 & bf1 & f1 & Q1 & Q2 & Q3 & Q4).
        assert (b1 = i) by congruence. subst b1.
        destruct (reg_pos i b R1) as (s & bf' & c' & raw & S1 & S2 & S3 & S4 & S5 & S6 & S7 & S8 & S9).
        assert (bf' = bf) by congruence. subst bf'.
        rewrite B2, S2 in Q2. injection Q2 as <-. cbn [bf_fields] in Q3. rewrite S8, dget_strip, R4 in Q3. injection Q3 as <-.
        eapply Q4; [exact Hk|exact Em']. }
    split.
    { split; cbn [with_chans e_chans].
      - intros n n' ch ch' H H' E. destruct (Cd n ch H) as (i & c1 & m & Hi & _ & ->).
        destruct (Cd n' ch' H') as (i' & c1' & m' & Hi' & _ & ->). cbn in E. subst i'. congruence.
      - intros n n' ch r f H Hf. change (ofield (with_chans e2 chans) n') with (ofield e2 n') in Hf.
        destruct (Cd n ch H) as (i & c1 & m & Hi & _ & ->). cbn [ch_ref].
        destruct (chan_pos i n c1 Hi) as (m' & c & c' & M1 & M2 & M3 & M4 & M5 & M6 & M7 & M8 & _).
        specialize (Of n'). destruct (ofield e n') as [[r0 f0]|].
        + destruct Of as (i' & b & bf & _ & _ & _ & _ & _ & _ & Q). rewrite Hf in Q. injection Q as -> _. lia.
        + congruence. }
    split; [exact Wf3|].
    split.
    { intros n r f r' f' Hf Hf'. change (ofield (with_chans e2 chans) n) with (ofield e2 n) in Hf'.
      specialize (Of n). rewrite Hf in Of. destruct Of as (i & b & bf & W1 & R1 & R2 & R3 & R4 & R5 & R6).
      rewrite Hf' in R6. injection R6 as -> ->.
      destruct (reg_pos i b R1) as (s & bf' & c & raw & S1 & S2 & S3 & S4 & S5 & S6 & S7 & S8 & S9).
      assert (bf' = bf) by congruence. subst bf' r.
      destruct (w_bfs _ _ wf_e b bf R2) as (_ & c0 & Hc & Hff). rewrite S5 in Hc. injection Hc as <-.
      destruct (Hff n f R4) as [Fn Fo]. apply field_ok_spec in Fo as (_ & _ & _ & _ & _ & Ik).
      exists c, raw, (mkCell (c_kind c) [] (RI (r_raw s))), (r_raw s).
      split; [exact S5|]. split; [exact S6|]. split; [rewrite Cell; exact S3|]. split; [reflexivity|]. split; [exact Ik|].
      split; [exact S7|]. apply (S9 n f). apply dget_In. exact R4. }
    split.
    { intros n ch ch' H H'. cbn [with_chans e_chans] in H'. destruct (Cf n ch H) as (i & m & Hi & M & Hc).
      rewrite H' in Hc. injection Hc as ->. cbn [ch_ref].
      destruct (chan_pos i n ch Hi) as (m' & c & c' & M1 & M2 & M3 & M4 & M5 & M6 & M7 & M8 & _).
      exists c, c'. split; [exact M2|]. split; [rewrite Cell, base_cell_l by exact M8; exact M4|]. split; [exact M5|]. split; [exact M6|]. intros []. }
    split; [exact T2|]. split; [exact Fi2|]. split; [exact By2|]. exact H2.
  Qed.
End Build.
