(** Lemmas for C33 and C34: what set and toggle do to values. *)
From Coq Require Import QArith Qround ZifyBool ZifyNat.
From Verif Require Import Base BaseLemmas PrimModel PrimSpec PrimProofs ScalingModel
  FieldModel FieldSpec FieldProofs
  RegistryModel RegistrySpec RegistryProofs EnumModel EnumSpec EnumProofs EnvModel EnvSpec EnvProofs EnvWf.
Open Scope Z_scope.

Lemma bounds_of k bits sg : int_kind k bits sg ->
  k_bounds k = Some (if sg then (- 2 ^ (bits - 1), 2 ^ (bits - 1) - 1) else (0, 2 ^ bits - 1)).
Proof. destruct 1; reflexivity. Qed.

Lemma clamp_nearest k bits sg b z : int_kind k bits sg -> k_bounds k = Some b ->
  nearest bits sg z (b_clamp b z).
Proof.
  intros Hk Hb. rewrite (bounds_of _ _ _ Hk) in Hb. injection Hb as <-.
  assert (P : 0 < 2 ^ (bits - 1) /\ 0 < 2 ^ bits).
  { destruct Hk; cbn; lia. }
  unfold nearest, b_clamp, representable. destruct sg; cbn [fst snd]; split; lia.
Qed.

Lemma nearest_id bits sg z w : nearest bits sg z w -> representable bits sg z -> w = z.
Proof. intros [R N] Hz. specialize (N z Hz). lia. Qed.

Lemma py_round_Z z : py_round (inject_Z z) = z.
Proof.
  unfold py_round. rewrite Qfloor_Z.
  assert (E : Qcompare (inject_Z z - inject_Z z) (1 # 2) = Lt).
  { apply -> Qlt_alt. unfold Qminus. rewrite Qplus_opp_r. reflexivity. }
  rewrite E. reflexivity.
Qed.

Section Value.
  Context (int_of : string -> option Z) (float_of : string -> option flo)
    (bool_of : string -> option bool) (fround : kind -> flo -> flo).
  Notation e_set := (e_set int_of float_of bool_of fround).
  Notation resolve := (resolve int_of float_of bool_of).

  (** ** Channels *)
  Lemma set_channel e k ch c v (sc : bool) n c' :
    e_has_field e k = false -> e_get e k = Some ch -> e_cell e (ch_ref ch) = Some c ->
    resolve c (ch_enum ch) v = Ok n ->
    (if sc : bool then cell_set_scaled fround c n else cell_set fround c n) = Ok c' ->
    e_set e k v sc = Ok (e_put e (ch_ref ch) c').
  Proof. intros H1 H2 H3 H4 H5. unfold EnvModel.e_set. rewrite H1, H2, H3, H4, H5. reflexivity. Qed.

  Lemma value_channel e k ch c c' re (sc : bool) :
    e_has_field e k = false -> e_get e k = Some ch -> e_cell e (ch_ref ch) = Some c ->
    e_value (e_put e (ch_ref ch) c') k re sc =
    let n := if sc then cell_get_scaled c' else cell_get c' in
    match ch_enum ch, re with
    | Some en, true => match enum_name en n with Some s => Ok (CStr s) | None => Err XKey end
    | _, _ => Ok (CNum n)
    end.
  Proof.
    intros H1 H2 H3. unfold e_value.
    rewrite (shape_has _ _ (same_shape_put _ _ _)), (shape_get _ _ (same_shape_put _ _ _)), H1, H2.
    rewrite (put_cell_same _ _ _ _ H3). reflexivity.
  Qed.

  Lemma cell_set_int c bits sg z : int_kind (c_kind c) bits sg ->
    cell_set fround c (NInt z) = Ok (mkCell (c_kind c) (c_scaling c) (RI (k_store (c_kind c) z))).
  Proof. intros H. unfold cell_set. destruct (int_kind_bits _ _ _ H) as (_ & _ & ->). reflexivity. Qed.

  Lemma cell_get_int k sc z bits sg : int_kind k bits sg -> cell_get (mkCell k sc (RI z)) = NInt z.
  Proof. destruct 1; reflexivity. Qed.

  Lemma cell_set_scaled_int c bits sg z : int_kind (c_kind c) bits sg -> c_scaling c = [] ->
    exists w, nearest bits sg z w /\
      cell_set_scaled fround c (NInt z) = Ok (mkCell (c_kind c) [] (RI w)).
  Proof.
    intros H S. unfold cell_set_scaled. destruct (int_kind_bits _ _ _ H) as (_ & _ & ->). rewrite S.
    pose proof (bounds_of _ _ _ H) as B. rewrite B.
    set (b := if sg then _ else _) in *. pose proof (clamp_nearest _ _ _ _ z H B) as N.
    exists (b_clamp b z). split; [exact N|]. rewrite (cell_set_int c bits sg) by exact H. rewrite S.
    rewrite store_id; [reflexivity|]. apply (int_kind_value _ _ _ _ H). apply N.
  Qed.

  Lemma cell_set_bool c b sc : c_kind c = KBool -> c_scaling c = [] ->
    (if sc : bool then cell_set_scaled fround c (NBool b) else cell_set fround c (NBool b)) =
    Ok (mkCell KBool [] (RI (z_of_bool b))).
  Proof.
    intros H S. unfold cell_set_scaled, cell_set. rewrite H, S. cbn. destruct sc; reflexivity.
  Qed.

  Lemma kind_not_bool k bits sg : int_kind k bits sg -> k <> KBool.
  Proof. destruct 1; discriminate. Qed.

  Lemma resolve_int c bits sg v z : int_kind (c_kind c) bits sg -> c_scaling c = [] ->
    v = CNum (NInt z) \/ (exists s, v = CStr s /\ int_of s = Some z) ->
    resolve c None v = Ok (NInt z).
  Proof.
    intros H S [->|(s & -> & E)]; [reflexivity|]. unfold EnvModel.resolve.
    destruct (int_kind_bits _ _ _ H) as (_ & _ & ->). rewrite S, E. reflexivity.
  Qed.

  Lemma resolve_bool c v b : c_kind c = KBool ->
    v = CNum (NBool b) \/ (exists s, v = CStr s /\ bool_of s = Some b) ->
    resolve c None v = Ok (NBool b).
  Proof.
    intros H [->|(s & -> & E)]; [reflexivity|]. unfold EnvModel.resolve. rewrite H, E. reflexivity.
  Qed.

  (** ** Fields *)
  Lemma set_field_num e k r f v z :
    e_has_field e k = true -> e_get_field e k = Some (r, f) ->
    v = CNum (NInt z) ->
    e_set e k v true = e_field_write e r f z /\ e_set e k v false = e_field_write e r f z.
  Proof.
    intros H G ->. unfold EnvModel.e_set. rewrite H. unfold e_set_field. rewrite G. auto.
  Qed.

  Lemma field_write_get e k r f z c raw :
    e_get_field e k = Some (r, f) -> e_cell e r = Some c -> c_raw c = RI raw ->
    e_field_write e r f z =
    Ok (e_put e r (mkCell (c_kind c) (c_scaling c)
          (RI (fst (bf_write (c_kind c) raw (fl_index f) (fl_width f) z))))).
  Proof.
    intros G Hc R. unfold e_field_write, cell_field_write. rewrite Hc, R. reflexivity.
  Qed.

  Lemma value_field e k r f c c' re sc :
    e_has_field e k = true -> e_get_field e k = Some (r, f) -> e_cell e r = Some c ->
    e_value (e_put e r c') k re sc =
    let v := cell_field_read c' f in
    match fl_enum f, re with
    | Some _, true =>
        match e_name e k with
        | None => Err XOther
        | Some n =>
            match dget n (e_flenum e) with
            | None => Err XKey
            | Some en =>
                match enum_name en (NInt v) with Some s => Ok (CStr s) | None => Err XKey end
            end
        end
    | _, _ => if fl_width f =? 1 then Ok (CNum (NBool (negb (v =? 0)))) else Ok (CNum (NInt v))
    end.
  Proof.
    intros H G Hc. unfold e_value. pose proof (same_shape_put e r c') as S.
    rewrite (shape_has _ _ S), (shape_field _ _ S), (shape_name _ _ S), (shape_flenum _ _ S), H, G.
    rewrite (put_cell_same _ _ _ _ Hc). reflexivity.
  Qed.

  (** ** Other keys *)
  Lemma value_other e r c k' re sc : set_ref e k' <> Some r ->
    e_value (e_put e r c) k' re sc = e_value e k' re sc.
  Proof.
    intros H. unfold e_value, set_ref in *. pose proof (same_shape_put e r c) as S.
    rewrite (shape_has _ _ S), (shape_field _ _ S), (shape_name _ _ S), (shape_flenum _ _ S), (shape_get _ _ S).
    destruct (e_has_field e k').
    - destruct (e_get_field e k') as [[p f]|]; [|reflexivity]. cbn in H.
      rewrite put_cell_other by congruence. reflexivity.
    - destruct (e_get e k') as [ch|]; [|reflexivity]. cbn in H.
      rewrite put_cell_other by congruence. reflexivity.
  Qed.

  Lemma value_disjoint e r f c raw z k' f' re sc bits sg :
    int_kind (c_kind c) bits sg -> e_cell e r = Some c -> c_raw c = RI raw ->
    0 <= fl_index f -> 0 <= fl_width f -> 0 <= fl_index f' -> 0 <= fl_width f' ->
    fl_index f' + fl_width f' <= bits ->
    e_has_field e k' = true -> e_get_field e k' = Some (r, f') ->
    disjoint (fl_index f, fl_width f) (fl_index f', fl_width f') ->
    e_value (e_put e r (mkCell (c_kind c) (c_scaling c)
          (RI (fst (bf_write (c_kind c) raw (fl_index f) (fl_width f) z))))) k' re sc = e_value e k' re sc.
  Proof.
    intros Hk Hc R I1 I2 I3 I4 I5 H G D.
    set (c' := mkCell _ _ _).
    assert (Q : cell_field_read c' f' = cell_field_read c f').
    { unfold cell_field_read. rewrite R. unfold c'. cbn [c_raw].
      apply read_ext; try assumption. intros j Hj.
      rewrite (write_bit _ bits sg) by (assumption || lia).
      destruct ((fl_index f <=? j) && (j <? fl_index f + fl_width f)) eqn:E; [|reflexivity].
      exfalso. apply (D j). unfold covers; cbn. lia. }
    rewrite (value_field e k' r f' c c') by assumption.
    unfold e_value. rewrite H, G, Hc. cbv zeta. rewrite Q. reflexivity.
  Qed.
End Value.

Section Enums.
  Context (valid : string -> bool) (int_of : string -> option Z) (bool_of : string -> option bool).
  (** A name the enumeration gives for a number leads back to the number. *)
  Lemma enum_back m z s : e_reachable valid m -> e_get_str m (VInt z) = Some s ->
    In (s, z) (e_pairs m).
  Proof.
    intros R. apply (e_reachable_wf valid int_of bool_of) in R. destruct m as [r|b]; cbn [EWf e_get_str e_as_str e_pairs] in *.
    - destruct R as (I & _). unfold m_name. intros H. apply I in H. apply dget_In in H. exact H.
    - destruct R as (I & _). destruct (bool_key z) as [b'|] eqn:B; [|discriminate]. unfold m_name.
      intros H. apply I in H. apply dget_In in H. apply in_map_iff. exists (s, b'). split; [|exact H].
      cbn. f_equal. unfold bool_key in B. destruct (Z.eqb_spec z 0); [injection B as <-; subst; reflexivity|].
      destruct (Z.eqb_spec z 1); [injection B as <-; subst; reflexivity|discriminate].
  Qed.
  Lemma enum_pair_bool m b s : e_reachable valid (EBool m) -> In (s, z_of_bool b) (e_pairs (EBool m)) ->
    e_get_bool bool_of (EBool m) (VStr s) = Some b.
  Proof.
    intros R H. apply (e_reachable_wf valid int_of bool_of) in R. cbn in *. destruct R as (I & _ & Nd).
    apply in_map_iff in H as ([n b'] & E & H). cbn in E. injection E as -> E.
    unfold m_identifier. unfold m_asdict in H. rewrite (In_dget _ _ _ Nd H).
    destruct b, b'; cbn in E; congruence.
  Qed.
  Lemma enum_num m z : enum_name m (NInt z) = e_get_str m (VInt z).
  Proof. reflexivity. Qed.
  Lemma enum_bool_num m b : enum_name m (NBool b) = e_get_str m (VInt (z_of_bool b)).
  Proof. destruct m; cbn; [reflexivity|]. rewrite bool_key_z. reflexivity. Qed.
End Enums.
