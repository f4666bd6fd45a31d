(** Lemmas for C51: exporting and re-importing a register. *)
From Coq Require Import ZifyBool ZifyNat.
From Verif Require Import Base BaseLemmas PrimModel PrimSpec PrimProofs FieldModel FieldSpec
  FieldProofs.

Definition fields_of (l : list (Z * item)) : list (string * field) :=
  fold_left (fun d e => match snd e with IField f => dset (fl_name f) f d | IPad _ _ => d end)
    l [].

Lemma fields_of_snoc l e :
  fields_of (l ++ [e]) =
  match snd e with IField f => dset (fl_name f) f (fields_of l) | IPad _ _ => fields_of l end.
Proof. unfold fields_of. rewrite fold_left_app. reflexivity. Qed.

Section Built.
  Context (bits : Z).

  Definition fits (l : list (Z * item)) (a : Z * Z) : Prop :=
    1 <= snd a /\ 0 <= fst a /\ fst a + snd a <= bits /\
    forall e, In e l -> disjoint (entry_range e) a.

  Inductive Built : list (Z * item) -> Prop :=
  | B_nil : Built []
  | B_pad : forall l i w v, Built l -> fits l (i, w) -> Built (l ++ [(i, IPad w v)])
  | B_field : forall l f, Built l -> fits l (fl_index f, fl_width f) ->
      valid_name (fl_name f) = true ->
      (fl_width f <> 1 -> dmem (fl_name f) (fields_of l) = false) ->
      Built (l ++ [(fl_index f, IField f)]).

  Lemma built_entry l : Built l -> forall e, In e l ->
    fst (entry_range e) = fst e /\ 1 <= snd (entry_range e) /\
    0 <= fst e /\ fst e + snd (entry_range e) <= bits /\
    match snd e with IField f => valid_name (fl_name f) = true | IPad _ _ => True end.
  Proof.
    induction 1 as [|l i w v _ IH (A & B & C & _)|l f _ IH (A & B & C & _) Hn _]; intros e He.
    - destruct He.
    - apply in_app_iff in He as [He|[<-|[]]]; [auto|]. cbn in *. auto.
    - apply in_app_iff in He as [He|[<-|[]]]; [auto|]. cbn in *. auto.
  Qed.

  Lemma built_fresh l a : Built l -> fits l a -> dget (fst a) l = None.
  Proof.
    intros H (A & B & C & D). apply dget_None_notin. intros Hin. unfold dkeys in Hin.
    apply in_map_iff in Hin as (e & E & He).
    destruct (built_entry l H e He) as (X1 & X2 & _).
    apply (D e He (fst a)). unfold covers. lia.
  Qed.
End Built.

Record SInv (s : regs) (al : list (Z * Z)) : Prop := {
  si_r : RInv s al;
  si_b : Built (bits_of s) (r_byidx s);
  si_f : r_fields s = fields_of (r_byidx s);
  si_a : forall e, In e (r_byidx s) -> In (entry_range e) al;
  si_v : k_value (r_kind s) (r_raw s)
}.

Lemma new_SInv k b s : int_kind k b s -> SInv (r_new k) [].
Proof.
  intros H. destruct (int_kind_bits k b s H) as (E & P & _). split.
  - apply new_RInv. lia.
  - constructor.
  - reflexivity.
  - intros e [].
  - cbn. apply (int_kind_value k b s 0 H). unfold representable.
    assert (0 < 2 ^ (b - 1)) by (apply Z.pow_pos_nonneg; lia).
    assert (0 < 2 ^ b) by (apply Z.pow_pos_nonneg; lia). destruct s; lia.
Qed.

Lemma SInv_raw s al raw : SInv s al -> k_value (r_kind s) raw -> SInv (with_raw s raw) al.
Proof.
  intros [H1 H2 H3 H4 H5] Hv. split; cbn; auto.
  apply (RInv_irrel s); [reflexivity|reflexivity|exact H1].
Qed.

Lemma claim_SInv s w index s' i al :
  r_claim s w index = Some (s', i) -> SInv s al -> SInv s' al.
Proof.
  intros C [H1 H2 H3 H4 H5]. pose proof (claim_leak _ _ _ _ _ _ C H1) as L.
  apply claim_some in C as (_ & _ & _ & _ & Hk & Hr & Hf & Hb & _).
  split; unfold bits_of in *; rewrite ?Hk, ?Hr, ?Hf, ?Hb; auto.
Qed.

Lemma claim_fits s w index s' i al :
  1 <= w -> r_claim s w index = Some (s', i) -> SInv s al ->
  fits (bits_of s') (r_byidx s') (i, w) /\ RInv s' ((i, w) :: al).
Proof.
  intros Hw C H. assert (Hw0 : 0 <= w) by lia.
  pose proof (claim_alloc _ _ _ _ _ _ Hw0 C (si_r _ _ H)) as R.
  split; [|exact R]. pose proof (ri_inside _ _ R) as I. pose proof (ri_disj _ _ R) as D.
  inversion I as [|? ? I1 _]; subst. destruct I1 as [_ I1]. cbn [fst snd] in I1.
  inversion D as [|? ? D1 _]; subst.
  apply claim_some in C as (_ & _ & _ & _ & Hk & _ & _ & Hb & _).
  unfold fits; cbn [fst snd]. split; [exact Hw|]. specialize (I1 Hw). split; [lia|]. split; [lia|].
  intros e He. rewrite Hb in He. apply (si_a _ _ H) in He.
  rewrite Forall_forall in D1. intros j [X1 X2]. apply (D1 _ He j). auto.
Qed.

Lemma step_SInv s al o : SInv s al -> op_width_ge 1 o ->
  SInv (fst (r_step s o)) (match snd (r_step s o) with Some x => x :: al | None => al end).
Proof.
  intros H Hw. destruct o; cbn [r_step op_width_ge] in *.
  - unfold r_flag. destruct (r_claim s 1 index) as [[s1 i]|] eqn:C; [|exact H].
    pose proof (claim_SInv _ _ _ _ _ _ C H) as H1.
    destruct (field_ok _ _ _ _) eqn:F; [|exact H1]. cbn.
    destruct (claim_fits _ 1 _ _ _ _ ltac:(lia) C H) as [Fi R].
    apply field_ok_spec in F.
    assert (Fr : dget i (r_byidx s1) = None) by (apply (built_fresh _ _ (i, 1) (si_b _ _ H1) Fi)).
    split; cbn [with_maps r_kind r_raw r_fields r_byidx].
    + apply (RInv_irrel s1); [reflexivity|reflexivity|exact R].
    + rewrite (dset_notin _ _ _ Fr).
      apply (B_field _ _ (mkField name i 1 enum cmd desc)); cbn; [apply H1|exact Fi|tauto|congruence].
    + rewrite (dset_notin _ _ _ Fr), fields_of_snoc. cbn. rewrite (si_f _ _ H1). reflexivity.
    + intros e He. rewrite (dset_notin _ _ _ Fr) in He. apply in_app_iff in He as [He|[<-|[]]].
      * right. apply (si_a _ _ H1). exact He.
      * left. reflexivity.
    + apply H1.
  - unfold r_field. destruct (Z.eqb_spec width 1); [exact H|].
    destruct (r_claim s width index) as [[s1 i]|] eqn:C; [|exact H].
    pose proof (claim_SInv _ _ _ _ _ _ C H) as H1.
    destruct (field_ok _ _ _ _) eqn:F; [|exact H1].
    destruct (dmem name (r_fields s1)) eqn:M; [exact H1|]. cbn.
    destruct (claim_fits _ _ _ _ _ _ Hw C H) as [Fi R].
    apply field_ok_spec in F.
    assert (Fr : dget i (r_byidx s1) = None) by (apply (built_fresh _ _ (i, width) (si_b _ _ H1) Fi)).
    split; cbn [with_maps r_kind r_raw r_fields r_byidx].
    + apply (RInv_irrel s1); [reflexivity|reflexivity|exact R].
    + rewrite (dset_notin _ _ _ Fr).
      apply (B_field _ _ (mkField name i width enum cmd desc)); cbn; [apply H1|exact Fi|tauto|].
      intros _. rewrite <- (si_f _ _ H1). exact M.
    + rewrite (dset_notin _ _ _ Fr), fields_of_snoc. cbn. rewrite (si_f _ _ H1). reflexivity.
    + intros e He. rewrite (dset_notin _ _ _ Fr) in He. apply in_app_iff in He as [He|[<-|[]]].
      * right. apply (si_a _ _ H1). exact He.
      * left. reflexivity.
    + apply H1.
  - unfold r_pad. destruct (r_claim s width index) as [[s1 i]|] eqn:C; [|exact H].
    pose proof (claim_SInv _ _ _ _ _ _ C H) as H1.
    destruct (base_ok i width) eqn:F; [|exact H1]. cbn -[bf_write].
    destruct (claim_fits _ _ _ _ _ _ Hw C H) as [Fi R].
    assert (Fr : dget i (r_byidx s1) = None) by (apply (built_fresh _ _ (i, width) (si_b _ _ H1) Fi)).
    split; cbn [with_maps with_raw r_kind r_raw r_fields r_byidx].
    + apply (RInv_irrel s1); [reflexivity|reflexivity|exact R].
    + rewrite (dset_notin _ _ _ Fr). apply B_pad; [apply H1|exact Fi].
    + rewrite (dset_notin _ _ _ Fr), fields_of_snoc. cbn. apply H1.
    + intros e He. rewrite (dset_notin _ _ _ Fr) in He. apply in_app_iff in He as [He|[<-|[]]].
      * right. apply (si_a _ _ H1). exact He.
      * left. reflexivity.
    + apply write_is_value.
  - destruct (dget name (r_fields s)); [|exact H]. cbn. apply SInv_raw; [exact H|apply store_value].
  - cbn. apply SInv_raw; [exact H|apply store_value].
  - cbn. destruct H as [H1 H2 H3 H4 H5]. split; auto.
    apply (RInv_irrel s); [reflexivity|reflexivity|exact H1].
Qed.

Lemma run_SInv ops : forall s al, SInv s al -> Forall (op_width_ge 1) ops ->
  SInv (fst (r_run s al ops)) (snd (r_run s al ops)).
Proof.
  induction ops as [|o r IH]; intros s al H Hw; cbn [r_run]; [exact H|].
  inversion Hw as [|? ? Hw1 Hw2]; subst. pose proof (step_SInv s al o H Hw1) as G.
  destruct (r_step s o) as [s1 a]. apply IH; assumption.
Qed.

(** ** Import *)
Lemma fields_of_strip l n :
  dmem n (fields_of (map strip_item l)) = dmem n (fields_of l) /\
  fields_of (map strip_item l) = map (fun p => (fst p, strip (snd p))) (fields_of l).
Proof.
  assert (G : fields_of (map strip_item l) = map (fun p => (fst p, strip (snd p))) (fields_of l)).
  { induction l as [|e l IH] using rev_ind; [reflexivity|].
    rewrite map_app. cbn [map]. rewrite !fields_of_snoc, IH.
    destruct e as [i [f|w v]]; cbn; [|reflexivity].
    clear IH. induction (fields_of l) as [|[n0 g] d IHd]; cbn; [reflexivity|].
    destruct (eq_dec (fl_name f) n0); cbn; [reflexivity|]. rewrite IHd. reflexivity. }
  split; [|exact G]. rewrite G. unfold dmem. clear G.
  assert (dget n (map (fun p : string * field => (fst p, strip (snd p))) (fields_of l)) =
          option_map strip (dget n (fields_of l))) as ->.
  { induction (fields_of l) as [|[n0 g] d IHd]; cbn; [reflexivity|].
    destruct (eq_dec n n0); [reflexivity|exact IHd]. }
  destruct (dget n (fields_of l)); reflexivity.
Qed.

Lemma load_items_app a : forall s b,
  load_items s (a ++ b) =
  match load_items s a with Some s' => load_items s' b | None => None end.
Proof.
  induction a as [|j a IH]; intros s b; cbn; [reflexivity|].
  destruct (load_item s j); [apply IH|reflexivity].
Qed.

Record LS (k : kind) (raw : Z) (l : list (Z * item)) (s : regs) : Prop := {
  ls_k : r_kind s = k;
  ls_fin : r_final s = false;
  ls_b : r_byidx s = map strip_item l;
  ls_f : r_fields s = fields_of (map strip_item l);
  ls_a : forall b, In b (r_avail s) <->
           0 <= b < k_bits k /\ forall e, In e l -> ~ covers (entry_range e) b;
  ls_v : k_value k (r_raw s);
  ls_raw : forall j, 0 <= j < k_bits k ->
     (bit (r_raw s) j = true <->
      bit raw j = true /\ exists i f, In (i, IField f) l /\ covers (fl_index f, fl_width f) j)
}.

Lemma ls_claim k raw l s w i : 
  LS k raw l s -> fits (k_bits k) l (i, w) ->
  exists s', r_claim s w (Some i) = Some (s', i).
Proof.
  intros H (A & B & C & D). cbn [fst snd] in A, B, C.
  destruct (r_claim s w (Some i)) as [[s' i']|] eqn:E.
  - pose proof (claim_some _ _ _ _ _ E) as (X & _). cbn in X. subst. eauto.
  - apply claim_none in E as [E|(b & Hb & Hn)].
    + rewrite (ls_fin _ _ _ _ H) in E. discriminate.
    + exfalso. apply Hn. apply (ls_a _ _ _ _ H). cbn [idx_of] in Hb. split; [lia|].
      intros e He Hc. apply (D e He b). split; [exact Hc|]. unfold covers; cbn. lia.
Qed.

Lemma dkeys_strip l : dkeys (map strip_item l) = dkeys l.
Proof.
  unfold dkeys. rewrite map_map. apply map_ext. intros [i [f|w v]]; reflexivity.
Qed.

Lemma fresh_strip l i : dget i l = None -> dget i (map strip_item l) = None.
Proof. rewrite !dget_None_notin, dkeys_strip. auto. Qed.

Lemma load_pad k b raw l s i w :
  int_kind k b false -> Built (k_bits k) l -> LS k raw l s -> fits (k_bits k) l (i, w) ->
  exists s', load_item s (item_dict raw (i, IPad w 0)) = Some s' /\
    LS k raw (l ++ [(i, IPad w 0)]) s'.
Proof.
  intros Hk HB H F. destruct (ls_claim _ _ _ _ _ _ H F) as [s1 C].
  destruct (int_kind_bits k b false Hk) as (Ebits & _ & _).
  pose proof F as (F1 & F2 & F3 & F4). cbn [fst snd] in F1, F2, F3.
  cbn [item_dict snd fst load_item j_name j_value j_enum j_width j_index].
  rewrite Z.eqb_refl. unfold r_pad. rewrite C.
  pose proof (claim_some _ _ _ _ _ C) as (_ & _ & Hbits & Ha & Ck & Cr & Cf & Cb & Cfin & _).
  unfold base_ok. replace ((0 <=? i) && (0 <=? w)) with true by lia.
  eexists. split; [reflexivity|].
  split; cbn [with_maps with_raw r_kind r_raw r_fields r_byidx r_avail r_final].
  - rewrite Ck. apply H.
  - rewrite Cfin. apply H.
  - rewrite Cb, (ls_b _ _ _ _ H), dset_notin, map_app; [reflexivity|].
    apply fresh_strip, (built_fresh _ _ (i, w) HB F).
  - rewrite Cf, map_app. cbn [map]. rewrite fields_of_snoc. cbn. apply H.
  - intros x. rewrite Ha, (ls_a _ _ _ _ H x). split.
    + intros [[A B] D]. split; [exact A|]. intros e He. apply in_app_iff in He as [He|[<-|[]]]; auto.
    + intros [A B]. split; [split; [exact A|]|].
      * intros e He. apply B, in_app_iff. auto.
      * apply (B (i, IPad w 0)), in_app_iff. right. left. reflexivity.
  - rewrite Ck, (ls_k _ _ _ _ H). apply write_is_value.
  - intros j Hj. unfold bit. rewrite Ck, (ls_k _ _ _ _ H), Cr.
    rewrite (write_bit k b false) by (assumption || lia).
    pose proof (ls_raw _ _ _ _ H j Hj) as G. unfold bit in G.
    destruct (Z.leb_spec i j); destruct (Z.ltb_spec j (i + w)); cbn [andb].
    + rewrite Z.bits_0. split; [discriminate|]. intros (_ & i0 & f & Hin & Hc). exfalso.
      apply in_app_iff in Hin as [Hin|[Hin|[]]]; [|discriminate].
      apply (F4 _ Hin j). split; [exact Hc|]. unfold covers; cbn. lia.
    + rewrite G. split; intros (X & i0 & f & Hin & Hc); (split; [exact X|]); exists i0, f;
        (split; [|exact Hc]); [apply in_app_iff; auto|].
      apply in_app_iff in Hin as [Hin|[Hin|[]]]; [exact Hin|discriminate].
    + rewrite G. split; intros (X & i0 & f & Hin & Hc); (split; [exact X|]); exists i0, f;
        (split; [|exact Hc]); [apply in_app_iff; auto|].
      apply in_app_iff in Hin as [Hin|[Hin|[]]]; [exact Hin|discriminate].
    + rewrite G. split; intros (X & i0 & f & Hin & Hc); (split; [exact X|]); exists i0, f;
        (split; [|exact Hc]); [apply in_app_iff; auto|].
      apply in_app_iff in Hin as [Hin|[Hin|[]]]; [exact Hin|discriminate].
Qed.

Lemma load_field k b raw l s f :
  int_kind k b false -> Built (k_bits k) l -> LS k raw l s ->
  fits (k_bits k) l (fl_index f, fl_width f) ->
  valid_name (fl_name f) = true ->
  (fl_width f <> 1 -> dmem (fl_name f) (fields_of l) = false) ->
  exists s', load_item s (item_dict raw (fl_index f, IField f)) = Some s' /\
    LS k raw (l ++ [(fl_index f, IField f)]) s'.
Proof.
  intros Hk HB H F Hn Hd. set (i := fl_index f) in *. set (w := fl_width f) in *.
  destruct (ls_claim _ _ _ _ _ _ H F) as [s1 C].
  destruct (int_kind_bits k b false Hk) as (Ebits & _ & Hint).
  pose proof F as (F1 & F2 & F3 & F4). cbn [fst snd] in F1, F2, F3.
  pose proof (claim_some _ _ _ _ _ C) as (_ & _ & Hbits & Ha & Ck & Cr & Cf & Cb & Cfin & _).
  assert (FO : field_ok (r_kind s1) (fl_name f) i w = true).
  { unfold field_ok, base_ok. rewrite Ck, (ls_k _ _ _ _ H), Hint, Hn. lia. }
  set (g := mkField (fl_name f) i w (fl_enum f) (fl_cmd f) None).
  set (s2 := with_maps s1 (dset (fl_name f) g (r_fields s1)) (dset i (IField g) (r_byidx s1))).
  assert (L : load_item s (item_dict raw (i, IField f)) =
              Some (r_write s2 g (bf_read raw i w))).
  { cbn [item_dict snd fst load_item j_name j_value j_enum j_width j_index j_cmd j_desc].
    fold i w. destruct (fl_name f) as [|c0 n0] eqn:En; [discriminate|].
    destruct (Z.eqb_spec w 1) as [E1|E1].
    - unfold r_flag. rewrite E1 in *. rewrite C.
      rewrite FO.
      change (dget (String c0 n0) (r_fields (with_maps s1 (dset (String c0 n0) (mkField (String c0 n0) i 1 (fl_enum f) (fl_cmd f) None) (r_fields s1)) (dset i (IField (mkField (String c0 n0) i 1 (fl_enum f) (fl_cmd f) None)) (r_byidx s1)))))
        with (dget (String c0 n0) (dset (String c0 n0) (mkField (String c0 n0) i 1 (fl_enum f) (fl_cmd f) None) (r_fields s1))).
      rewrite dget_dset_eq. unfold s2, g. rewrite E1. reflexivity.
    - unfold r_field. destruct (Z.eqb_spec w 1); [congruence|]. rewrite C.
      rewrite FO.
      rewrite Cf, (ls_f _ _ _ _ H). rewrite (proj1 (fields_of_strip l (String c0 n0))), (Hd E1).
      cbn [with_maps r_fields]. rewrite dget_dset_eq. unfold s2, g.
      rewrite Cf, (ls_f _ _ _ _ H). reflexivity. }
  exists (r_write s2 g (bf_read raw i w)). split; [exact L|].
  split; unfold r_write, s2; cbn [with_maps with_raw r_kind r_raw r_fields r_byidx r_avail r_final].
  - rewrite Ck. apply H.
  - rewrite Cfin. apply H.
  - rewrite Cb, (ls_b _ _ _ _ H), dset_notin, map_app; [reflexivity|].
    apply fresh_strip, (built_fresh _ _ (i, w) HB F).
  - rewrite Cf, map_app. cbn [map]. rewrite fields_of_snoc. cbn. rewrite (ls_f _ _ _ _ H). reflexivity.
  - intros x. rewrite Ha, (ls_a _ _ _ _ H x). split.
    + intros [[A B] D]. split; [exact A|]. intros e He. apply in_app_iff in He as [He|[<-|[]]]; auto.
    + intros [A B]. split; [split; [exact A|]|].
      * intros e He. apply B, in_app_iff. auto.
      * apply (B (i, IField f)), in_app_iff. right. left. reflexivity.
  - rewrite Ck, (ls_k _ _ _ _ H). apply write_is_value.
  - intros j Hj. unfold bit. rewrite Ck, (ls_k _ _ _ _ H), Cr. cbn [g fl_index fl_width].
    rewrite (write_bit k b false) by (assumption || lia).
    pose proof (ls_raw _ _ _ _ H j Hj) as G. unfold bit in G.
    destruct ((i <=? j) && (j <? i + w)) eqn:E.
    + rewrite read_bit by lia. replace (j - i <? w) with true by lia. cbn [andb].
      replace (j - i + i) with j by lia. split; [|tauto]. intros X. split; [exact X|].
      exists i, f. split; [apply in_app_iff; right; left; reflexivity|].
      unfold covers; cbn [fst snd]. fold i w. lia.
    + rewrite G. split; intros (X & i0 & f0 & Hin & Hc); (split; [exact X|]); exists i0, f0;
        (split; [|exact Hc]); [apply in_app_iff; auto|].
      apply in_app_iff in Hin as [Hin|[Hin|[]]]; [exact Hin|].
      injection Hin as _ <-. unfold covers in Hc; cbn [fst snd] in Hc. fold i w in Hc. lia.
Qed.

Lemma load_built k b raw l :
  int_kind k b false -> Built (k_bits k) l ->
  (forall i w v, In (i, IPad w v) l -> v = 0) ->
  exists s, load_items (r_new k) (map (item_dict raw) l) = Some s /\ LS k raw l s.
Proof.
  intros Hk. induction 1 as [|l i w v HB IH F|l f HB IH F Hn Hd]; intros Hz.
  - exists (r_new k). split; [reflexivity|]. split; cbn; try reflexivity.
    + intros x. rewrite zseq_In. destruct (int_kind_bits k b false Hk) as (E & P & _).
      split; [intros X; split; [lia|intros ? []]|lia].
    + apply (int_kind_value k b false 0 Hk). cbn. pose proof (Z.pow_pos_nonneg 2 b).
      destruct (int_kind_bits k b false Hk). lia.
    + intros j Hj. unfold bit. rewrite Z.bits_0. split; [discriminate|]. intros (_ & ? & ? & [] & _).
  - destruct IH as (s & E & L). { intros i0 w0 v0 Hin. eapply Hz, in_app_iff. eauto. }
    assert (v = 0) as -> by (eapply Hz, in_app_iff; right; left; reflexivity).
    destruct (load_pad k b raw l s i w Hk HB L F) as (s' & E' & L').
    exists s'. split; [|exact L']. rewrite map_app, load_items_app, E. cbn [map load_items]. rewrite E'. reflexivity.
  - destruct IH as (s & E & L). { intros i0 w0 v0 Hin. eapply Hz, in_app_iff. eauto. }
    destruct (load_field k b raw l s f Hk HB L F Hn Hd) as (s' & E' & L').
    exists s'. split; [|exact L']. rewrite map_app, load_items_app, E. cbn [map load_items]. rewrite E'. reflexivity.
Qed.

Lemma load_bad_pad raw l : forall s i w v,
  In (i, IPad w v) l -> v <> 0 -> load_items s (map (item_dict raw) l) = None.
Proof.
  induction l as [|e l IH]; intros s i w v Hin Hv; [destruct Hin|]. cbn [map load_items].
  destruct Hin as [->|Hin].
  - cbn. destruct (Z.eqb_spec v 0); [congruence|reflexivity].
  - destruct (load_item s (item_dict raw e)); [eapply IH; eauto|reflexivity].
Qed.

Lemma schema_built word raw l bits : 0 <= raw -> Built bits l ->
  (forallb (schema_item word) (map (item_dict raw) l) = true /\
   (forall i w v, In (i, IPad w v) l -> v = 0)) <->
  Forall (loadable word) l.
Proof.
  intros Hraw HB. rewrite forallb_forall, Forall_forall. split.
  - intros [A B] e He. specialize (A (item_dict raw e) (in_map _ _ _ He)).
    destruct e as [i [f|w v]]; cbn.
    + unfold schema_item in A. cbn in A. rewrite !Bool.andb_true_iff in A.
      destruct A as ((((A1 & A2) & A3) & A4) & A5). split; [apply lower_chars; tauto|].
      destruct (fl_enum f) as [[n|z]|]; [exact A5|lia|exact I].
    + eapply B; exact He.
  - intros A. split.
    + intros j Hj. apply in_map_iff in Hj as (e & <- & He). specialize (A e He).
      destruct (built_entry _ _ HB e He) as (X1 & X2 & X3 & X4 & X5).
      destruct e as [i [f|w v]]; cbn in *.
      * unfold schema_item. cbn. destruct A as [A1 A2]. apply lower_chars in A1.
        unfold valid_name in X5. apply Bool.andb_true_iff in X5 as [X5 _]. rewrite X5, A1. cbn.
        rewrite (proj2 (Z.leb_le 0 (fl_index f))) by lia.
        rewrite (proj2 (Z.leb_le 1 (fl_width f))) by lia.
        assert (0 <= bf_read raw (fl_index f) (fl_width f)).
        { rewrite read_value by lia. apply Z.mod_pos_bound, Z.pow_pos_nonneg; lia. }
        rewrite (proj2 (Z.leb_le 0 _)) by assumption. cbn.
        destruct (fl_enum f) as [[n|z]|]; [exact A2|lia|reflexivity].
      * unfold schema_item. cbn. lia.
    + intros i w v Hin. apply (A _ Hin).
Qed.
