(** Applying exported values to a loaded environment, for C79. *)
From Coq Require Import QArith ZifyBool ZifyNat.
From Verif Require Import Base BaseLemmas PrimModel PrimSpec PrimProofs ScalingModel FieldModel FieldSpec FieldProofs
  FieldExportProofs RegistryModel RegistrySpec RegistryProofs EnumModel EnumSpec EnumProofs
  EnvModel EnvSpec EnvProofs EnvWf EnvLife EnvValue ExportModel ExportSpec ExportProofs ExportLoad ExportRound.
Open Scope Z_scope.

(** The field a name denotes. *)
Definition ofield (e : env) (n : string) : option (nat * field) :=
  match owner e n with
  | None => None
  | Some b => match nth_error (e_bfs e) b with
              | None => None
              | Some bf => match dget n (bf_fields bf) with
                           | Some f => Some (bf_ref bf, f) | None => None end
              end
  end.
Lemma get_ofield e k : e_get_field e k = match e_name e k with Some n => ofield e n | None => None end.
Proof. rewrite get_field_owner. destruct (e_name e k); reflexivity. Qed.
Lemma has_ofield enums e k : EWF enums e -> e_has_field e k =
  match e_name e k with Some n => match ofield e n with Some _ => true | None => false end | None => false end.
Proof.
  intros W. unfold e_has_field. destruct (e_name e k) as [n|]; [|reflexivity].
  unfold dmem, ofield, owner. destruct (dget n (e_lookup e)) as [i|] eqn:L; [|reflexivity].
  destruct (w_lookup _ e W n i L) as (_ & b & bf & f & H1 & H2 & H3 & _). rewrite H1, H2, H3. reflexivity.
Qed.

Lemma int_kind_ex k : k_is_int k = true -> exists b s, int_kind k b s.
Proof. destruct k; try discriminate; intros _; do 2 eexists; constructor. Qed.

(** Writing back what a field reads changes nothing. *)
Lemma write_back k raw i w z : k_is_int k = true -> k_value k raw -> 0 <= i -> 0 <= w ->
  (forall j, 0 <= j < w -> Z.testbit z j = Z.testbit raw (j + i)) ->
  fst (bf_write k raw i w z) = raw.
Proof.
  intros Hi V I W H. destruct (int_kind_ex k Hi) as (b & s & Hk).
  apply (value_bits_inj k b s); [exact Hk|apply write_is_value|exact V|].
  intros j Hj. rewrite (write_bit k b s) by (assumption || lia).
  destruct (Z.leb_spec i j), (Z.ltb_spec j (i + w)); cbn; try reflexivity.
  rewrite H by lia. f_equal. lia.
Qed.
Lemma write_read k raw i w : k_is_int k = true -> k_value k raw -> 0 <= i -> 0 <= w ->
  fst (bf_write k raw i w (bf_read raw i w)) = raw.
Proof.
  intros Hi V I W. apply write_back; auto. intros j Hj. rewrite read_bit by lia.
  replace (j <? w) with true by lia. reflexivity.
Qed.
Lemma write_read_bool k raw i : k_is_int k = true -> k_value k raw -> 0 <= i ->
  fst (bf_write k raw i 1 (z_of_bool (negb (bf_read raw i 1 =? 0)))) = raw.
Proof.
  intros Hi V I. replace (z_of_bool (negb (bf_read raw i 1 =? 0))) with (bf_read raw i 1).
  - apply write_read; auto; lia.
  - rewrite read_value by lia. pose proof (Z.mod_pos_bound (raw / 2 ^ i) (2 ^ 1) ltac:(lia)).
    change (2 ^ 1) with 2 in *. destruct (Z.eqb_spec ((raw / 2 ^ i) mod 2) 0); cbn; lia.
Qed.

Section Apply.
  Context (validE : string -> bool).
  Context (int_of : string -> option Z) (float_of : string -> option flo)
    (bool_of : string -> option bool) (fround : kind -> flo -> flo).
  Notation same_enum := (same_enum int_of bool_of).
  Notation e_set := (e_set int_of float_of bool_of fround).
  Notation apply_values := (apply_values int_of float_of bool_of fround).

  (** The loaded environment [e'] looks like [e], primitives aside. *)
  Record SR (e e' : env) : Prop := {
    s_rev : forall n, dget n (m_rev (r_map (e_names e'))) = dget n (m_rev (r_map (e_names e)));
    s_fwd : forall i, dget i (m_fwd (r_map (e_names e'))) = dget i (m_fwd (r_map (e_names e)));
    s_chan : forall n, opt_rel (fun ch ch' => ch_cmd ch' = ch_cmd ch /\
                opt_rel (fun m m' => same_enum m m' /\ e_reachable validE m) (ch_enum ch) (ch_enum ch'))
              (dget n (e_chans e)) (dget n (e_chans e'));
    s_field : forall n, opt_rel (fun rf rf' => snd rf' = strip (snd rf) /\ fl_name (snd rf) = n /\
                0 <= fl_index (snd rf) /\ 0 <= fl_width (snd rf) /\
                (forall k, fl_enum (snd rf) = Some k -> exists m m', dget n (e_flenum e) = Some m /\
                   dget n (e_flenum e') = Some m' /\ same_enum m m' /\ e_reachable validE m))
              (ofield e n) (ofield e' n)
  }.
  (** Fields read the same. *)
  Definition HF (e e' : env) : Prop :=
    forall n r f r' f', ofield e n = Some (r, f) -> ofield e' n = Some (r', f') ->
      exists c raw c' raw', e_cell e r = Some c /\ c_raw c = RI raw /\
        e_cell e' r' = Some c' /\ c_raw c' = RI raw' /\
        k_is_int (c_kind c') = true /\ k_value (c_kind c') raw' /\
        bf_read raw' (fl_index f) (fl_width f) = bf_read raw (fl_index f) (fl_width f).
  (** Channels are of the same type, and those that are done hold the same. *)
  Definition HC (done : string -> Prop) (e e' : env) : Prop :=
    forall n ch ch', dget n (e_chans e) = Some ch -> dget n (e_chans e') = Some ch' ->
      exists c c', e_cell e (ch_ref ch) = Some c /\ e_cell e' (ch_ref ch') = Some c' /\
        c_kind c' = c_kind c /\ c_scaling c' = [] /\ (done n -> c_raw c' = c_raw c).
  (** Nothing is shared in the loaded environment. *)
  Record apart (e' : env) : Prop := {
    a_chan : forall n n' ch ch', dget n (e_chans e') = Some ch -> dget n' (e_chans e') = Some ch' ->
      ch_ref ch = ch_ref ch' -> n = n';
    a_field : forall n n' ch r f, dget n (e_chans e') = Some ch -> ofield e' n' = Some (r, f) -> ch_ref ch <> r
  }.
  (** What the values come from. *)
  Record SRC (e : env) (re : bool) : Prop := {
    c_apart : forall n ch, dget n (e_chans e) = Some ch -> ofield e n = None;
    c_plain : forall n ch c, dget n (e_chans e) = Some ch -> e_cell e (ch_ref ch) = Some c ->
      c_scaling c = [] /\ cell_ok c /\ fixed fround c;
    c_suit : re = true -> forall n ch c en, dget n (e_chans e) = Some ch ->
      e_cell e (ch_ref ch) = Some c -> ch_enum ch = Some en ->
      k_is_float (c_kind c) = false /\ (c_kind c = KBool -> exists m, en = EBool m)
  }.

  Lemma sr_name e e' k : SR e e' -> e_name e' k = e_name e k.
  Proof.
    intros S. destruct k as [n|i]; cbn.
    - unfold m_name_str, dmem. rewrite (s_rev _ _ S). reflexivity.
    - unfold m_name. apply S.
  Qed.
  Lemma name_inl e n m : e_name e (inl n) = Some m -> m = n.
  Proof. cbn. unfold m_name_str. destruct (dmem n _); congruence. Qed.

  (** What setting a channel to its own value does. *)
  Lemma set_own c ch c' ch' re v : c_scaling c = [] -> cell_ok c -> fixed fround c ->
    c_kind c' = c_kind c -> c_scaling c' = [] ->
    opt_rel (fun m m' => same_enum m m' /\ e_reachable validE m) (ch_enum ch) (ch_enum ch') ->
    (re = true -> forall en, ch_enum ch = Some en ->
       k_is_float (c_kind c) = false /\ (c_kind c = KBool -> exists m, en = EBool m)) ->
    match ch_enum ch, re with
    | Some en, true => match enum_name en (cell_get_scaled c) with Some s => Ok (CStr s) | None => Err XKey end
    | _, _ => Ok (CNum (cell_get_scaled c))
    end = Ok v ->
    exists n, resolve int_of float_of bool_of c' (ch_enum ch') v = Ok n /\
      cell_set_scaled fround c' n = Ok (mkCell (c_kind c) [] (c_raw c)).
  Proof.
    intros Sc Ok0 Fx Kc Sc' En Su Hv.
    assert (Num : forall n, n = cell_get c -> cell_set_scaled fround c' n = Ok (mkCell (c_kind c) [] (c_raw c))).
    { intros n ->. unfold cell_get, cell_ok, fixed in *. destruct (c_raw c) as [z|f] eqn:R.
      - destruct Ok0 as [F V]. destruct (k_cases (c_kind c)) as [(Hi & _ & Nb)|[(_ & Hf & _)|Hb]]; [|congruence|].
        + destruct (int_kind_ex _ Hi) as (b & s & Hk).
          replace (match c_kind c with KBool => NBool (negb (z =? 0)) | _ => NInt z end) with (NInt z) by (destruct (c_kind c); congruence).
          rewrite <- Kc in Hk. destruct (cell_set_scaled_int fround c' b s z Hk Sc') as (w & Nw & ->).
          rewrite Kc in Hk. apply (int_kind_value _ _ _ _ Hk) in V. rewrite (nearest_id b s z w Nw V), Kc. reflexivity.
        + rewrite Hb in *. rewrite (cell_set_bool fround c' _ true Kc Sc'). cbn in V.
          assert (E : z_of_bool (negb (z =? 0)) = z) by (destruct V as [->| ->]; reflexivity). rewrite E. reflexivity.
      - destruct (k_cases (c_kind c)) as [(_ & Hf & _)|[(Hi & _ & _)|Hb]]; [congruence| |rewrite Hb in Ok0; discriminate].
        unfold cell_set_scaled, cell_set. rewrite Kc, Hi, Sc', Ok0. cbn [to_flo]. rewrite Fx. reflexivity. }
    assert (G : cell_get_scaled c = cell_get c) by (unfold cell_get_scaled; rewrite Sc; reflexivity).
    rewrite G in Hv.
    assert (Plain : Ok (CNum (cell_get c)) = Ok v -> exists n, resolve int_of float_of bool_of c' (ch_enum ch') v = Ok n /\
      cell_set_scaled fround c' n = Ok (mkCell (c_kind c) [] (c_raw c))).
    { intros X; injection X as <-. exists (cell_get c). split; [reflexivity|apply Num; reflexivity]. }
    destruct (ch_enum ch) as [en|] eqn:Ec; [|destruct re; apply Plain; exact Hv].
    destruct re; [|apply Plain; exact Hv]. clear Plain.
    destruct (ch_enum ch') as [en'|] eqn:Ec'; [|destruct En]. destruct En as [(Con & Pa & S1 & S2 & S3) Re].
    destruct (Su eq_refl en eq_refl) as [Fl Bo].
    destruct (enum_name en (cell_get c)) as [s|] eqn:Hs; [|discriminate]. injection Hv as <-.
    cbn [resolve].
    unfold cell_get, cell_ok in *. destruct (c_raw c) as [z|f] eqn:R; [|congruence]. destruct Ok0 as [_ V].
    destruct (k_cases (c_kind c)) as [(Hi & _ & Nb)|[(_ & Hf & _)|Hb]]; [|congruence|].
    - assert (Nz : match c_kind c with KBool => NBool (negb (z =? 0)) | _ => NInt z end = NInt z) by (destruct (c_kind c); congruence).
      rewrite Nz in *. rewrite enum_num in Hs.
      apply (enum_back validE int_of bool_of) in Hs; [|exact Re].
      destruct (enum_translates validE int_of bool_of en Re s z Hs) as (_ & _ & T & _).
      rewrite S2 in T. exists (NInt z). rewrite T. split; [|apply Num; reflexivity].
      rewrite Kc. destruct (c_kind c); try reflexivity. congruence.
    - rewrite Hb in *. destruct (Bo eq_refl) as [m ->]. rewrite enum_bool_num in Hs.
      apply (enum_back validE int_of bool_of) in Hs; [|exact Re].
      apply (enum_pair_bool validE int_of bool_of) in Hs; [|exact Re]. rewrite S3 in Hs.
      exists (NBool (negb (z =? 0))). rewrite Kc. destruct en' as [|m']; [destruct Con|]. rewrite Hs.
      split; [reflexivity|apply Num; reflexivity].
  Qed.

  Lemma apply_own enums enums' e e' re : SR e e' -> apart e' -> SRC e re -> EWF enums e -> EWF enums' e' ->
    forall vs e1, same_shape e' e1 -> HF e e1 -> HC (fun n => ~ In n (map fst vs)) e e1 ->
    (forall n v, In (n, v) vs -> e_value e (inl n) re true = Ok v) ->
    exists e2, apply_values e1 vs = Some e2 /\ same_shape e' e2 /\ HF e e2 /\ HC (fun _ => True) e e2 /\
      forall r, (forall n ch, dget n (e_chans e') = Some ch -> ch_ref ch <> r) -> e_cell e2 r = e_cell e1 r.
  Proof.
    intros S A Src W W'. induction vs as [|[n v] vs IH]; intros e1 Sh Hf Hc Hv.
    { exists e1. split; [reflexivity|]. split; [exact Sh|]. split; [exact Hf|]. split; [|reflexivity].
      intros n ch ch' H1 H2. destruct (Hc n ch ch' H1 H2) as (c & c' & A1 & A2 & A3 & A4 & A5).
      exists c, c'. repeat (split; [assumption|]). intros _. apply A5. intros []. }
    cbn [ExportModel.apply_values].
    pose proof (Hv n v (or_introl eq_refl)) as Ev.
    assert (Nm1 : e_name e1 (inl n) = e_name e (inl n)).
    { rewrite (shape_name e' e1 Sh). apply sr_name. exact S. }
    unfold e_value in Ev. rewrite (has_ofield enums e _ W), get_ofield in Ev.
    destruct (e_name e (inl n)) as [n0|] eqn:Nm.
    2:{ unfold e_get in Ev. rewrite Nm in Ev. discriminate. }
    pose proof (name_inl _ _ _ Nm) as ->.
    assert (Hh : e_has_field e1 (inl n) = match ofield e' n with Some _ => true | None => false end).
    { rewrite (shape_has e' e1 Sh), (has_ofield enums' e' _ W'), (sr_name e e' _ S), Nm. reflexivity. }
    assert (Hg : e_get_field e1 (inl n) = ofield e' n).
    { rewrite (shape_field e' e1 Sh), get_ofield, (sr_name e e' _ S), Nm. reflexivity. }
    pose proof (s_field e e' S n) as Sf.
    assert (Of : forall m, ofield e1 m = ofield e' m) by (intros m; rewrite Sh; reflexivity).
    assert (Oc : e_chans e1 = e_chans e') by (rewrite Sh; reflexivity).
    destruct (ofield e n) as [[r f]|] eqn:O.
    - (* a field *)
      destruct (ofield e' n) as [[r' f']|] eqn:O'; [|destruct Sf].
      cbn [opt_rel fst snd] in Sf. destruct Sf as (-> & Fn & Fi & Fw & Fe).
      destruct (Hf n r f r' (strip f) O) as (c & raw & c' & raw' & C1 & C2 & C3 & C4 & C5 & C6 & C7); [rewrite Of; exact O'|].
      rewrite C1 in Ev. cbn [cell_field_read] in Ev. unfold cell_field_read in Ev. rewrite C2, <- C7 in Ev.
      assert (Back : forall z, fst (bf_write (c_kind c') raw' (fl_index f) (fl_width f) z) = raw' ->
                e_field_write e1 r' (strip f) z = Ok e1).
      { intros z Hz. unfold e_field_write, cell_field_write. rewrite C3, C4. cbn [strip fl_index fl_width]. rewrite Hz.
        f_equal. unfold e_put. rewrite upd_same; [apply with_heap_same|]. unfold e_cell in C3. rewrite C3.
        f_equal. destruct c' as [k0 s0 r0]. cbn in *. congruence. }
      assert (Stay : e_set e1 (inl n) v true = Ok e1).
      { unfold EnvModel.e_set. rewrite Hh. unfold e_set_field. rewrite Hg.
        destruct (fl_enum f) as [k|] eqn:En; [destruct re|].
        - destruct (Fe k eq_refl) as (m & m' & M1 & M2 & (Con & Pa & E1 & E2 & E3) & Re).
          rewrite M1 in Ev. cbn [enum_name] in Ev.
          destruct (e_get_str m (VInt (bf_read raw' (fl_index f) (fl_width f)))) as [s|] eqn:Es; [|discriminate].
          injection Ev as <-. cbn [strip fl_name]. rewrite Fn. rewrite Sh. cbn [with_heap e_flenum]. rewrite M2.
          apply (enum_back validE int_of bool_of) in Es; [|exact Re].
          destruct (enum_translates validE int_of bool_of m Re _ _ Es) as (_ & _ & T & _). rewrite <- E2, T.
          rewrite <- Sh. apply Back. apply write_read; assumption.
        - destruct (fl_width f =? 1) eqn:W1; injection Ev as <-.
          + apply Back. replace (fl_width f) with 1 by lia. apply write_read_bool; assumption.
          + apply Back. apply write_read; assumption.
        - destruct (fl_width f =? 1) eqn:W1; injection Ev as <-.
          + apply Back. replace (fl_width f) with 1 by lia. apply write_read_bool; assumption.
          + apply Back. apply write_read; assumption. }
      rewrite Stay. apply IH; [exact Sh|exact Hf| |].
      + intros m ch ch' H1 H2. destruct (Hc m ch ch' H1 H2) as (d & d' & A1 & A2 & A3 & A4 & A5).
        exists d, d'. repeat (split; [assumption|]). intros Hm. apply A5. cbn. intros [<-|Hi]; [|contradiction].
        rewrite (c_apart e re Src n ch H1) in O. discriminate.
      + intros m w Hi. apply Hv. now right.
    - (* a channel *)
      destruct (ofield e' n) as [[r' f']|] eqn:O'; [destruct Sf|].
      unfold e_get in Ev. rewrite Nm in Ev. destruct (dget n (e_chans e)) as [ch|] eqn:Ch; [|discriminate].
      pose proof (s_chan e e' S n) as Scn. rewrite Ch in Scn.
      destruct (dget n (e_chans e')) as [ch'|] eqn:Ch'; [|destruct Scn]. destruct Scn as [Cm Ce].
      destruct (Hc n ch ch' Ch) as (c & c' & C1 & C2 & C3 & C4 & _); [rewrite Oc; exact Ch'|].
      rewrite C1 in Ev. destruct (c_plain e re Src n ch c Ch C1) as (P1 & P2 & P3).
      destruct (set_own c ch c' ch' re v P1 P2 P3 C3 C4 Ce) as (x & R1 & R2).
      { intros Hre en He. eapply c_suit; eauto. }
      { exact Ev. }
      assert (G : e_get e1 (inl n) = Some ch') by (unfold e_get; rewrite Nm1, Oc; exact Ch').
      rewrite (set_channel int_of float_of bool_of fround e1 (inl n) ch' c' v true x _ Hh G C2 R1 R2).
      set (c2 := mkCell (c_kind c) [] (c_raw c)).
      destruct (IH (e_put e1 (ch_ref ch') c2)) as (e2 & Q1 & Q2 & Q3 & Q4 & Q5).
      + eapply same_shape_trans; [exact Sh|apply same_shape_put].
      + intros m r f r' f' H1 H2. change (ofield (e_put e1 (ch_ref ch') c2) m) with (ofield e1 m) in H2.
        destruct (Hf m r f r' f' H1 H2) as (d & raw & d' & raw' & D1 & D2 & D3 & D4).
        exists d, raw, d', raw'. split; [exact D1|]. split; [exact D2|]. split; [|exact D4].
        rewrite put_cell_other; [exact D3|]. rewrite Of in H2. intros Eq. symmetry in Eq. eapply a_field; eauto.
      + intros m ch1 ch1' H1 H2. change (e_chans (e_put e1 (ch_ref ch') c2)) with (e_chans e1) in H2.
        destruct (Hc m ch1 ch1' H1 H2) as (d & d' & A1 & A2 & A3 & A4 & A5).
        destruct (string_dec m n) as [->|Hne].
        * rewrite Oc in H2. assert (ch1' = ch') by congruence. assert (ch1 = ch) by congruence. subst ch1 ch1'.
          exists c, c2. split; [exact C1|]. split; [eapply put_cell_same; exact C2|]. cbn. auto.
        * exists d, d'. split; [exact A1|]. split.
          { rewrite put_cell_other; [exact A2|]. rewrite Oc in H2. intros Eq. apply Hne. eapply a_chan; eauto. }
          split; [exact A3|]. split; [exact A4|]. intros Hm. apply A5. cbn. intros [Eq|Hi]; [congruence|contradiction].
      + intros m w Hi. apply Hv. now right.
      + exists e2. split; [exact Q1|]. split; [exact Q2|]. split; [exact Q3|]. split; [exact Q4|].
        intros r Hr. rewrite Q5 by exact Hr. apply put_cell_other. intros ->. exact (Hr n ch' Ch' eq_refl).
  Qed.

  (** Environments related like this give the same answers. *)
  Lemma sr_value enums enums' e e' k re sc : SR e e' -> EWF enums e -> EWF enums' e' ->
    HF e e' -> HC (fun _ => True) e e' ->
    (forall n ch c, dget n (e_chans e) = Some ch -> e_cell e (ch_ref ch) = Some c -> c_scaling c = []) ->
    e_value e' k re sc = e_value e k re sc.
  Proof.
    intros S W W' Hf Hc Pl. unfold e_value.
    rewrite (has_ofield enums e k W), (has_ofield enums' e' k W'), !get_ofield.
    unfold e_get. rewrite (sr_name e e' k S). destruct (e_name e k) as [n|]; [|reflexivity].
    pose proof (s_field e e' S n) as Sf.
    destruct (ofield e n) as [[r f]|] eqn:O; destruct (ofield e' n) as [[r' f']|] eqn:O'; try destruct Sf.
    - cbn [fst snd] in *. destruct H0 as (Fn & Fi & Fw & Fe). subst f'.
      destruct (Hf n r f r' (strip f) O O') as (c & raw & c' & raw' & C1 & C2 & C3 & C4 & C5 & C6 & C7).
      rewrite C1, C3. unfold cell_field_read. rewrite C2, C4. cbn [strip fl_index fl_width fl_enum]. rewrite C7.
      destruct (fl_enum f) as [k'|] eqn:En; [|reflexivity]. destruct re; [|reflexivity].
      destruct (Fe k' eq_refl) as (m & m' & M1 & M2 & (Con & Pa & E1 & E2 & E3) & Re). rewrite M1, M2.
      cbn [enum_name]. rewrite E1. reflexivity.
    - pose proof (s_chan e e' S n) as Scn.
      destruct (dget n (e_chans e)) as [ch|] eqn:Ch; destruct (dget n (e_chans e')) as [ch'|] eqn:Ch'; try destruct Scn; [|reflexivity].
      destruct (Hc n ch ch' Ch Ch') as (c & c' & C1 & C2 & C3 & C4 & C5). rewrite C1, C2.
      assert (Eq : c' = c).
      { destruct c as [k1 s1 r1], c' as [k2 s2 r2]. cbn in *. specialize (C5 I). pose proof (Pl n ch _ Ch C1) as P. cbn in P. congruence. }
      rewrite Eq. destruct (ch_enum ch) as [m|], (ch_enum ch') as [m'|]; try destruct H0; try reflexivity.
      destruct re; [|reflexivity]. destruct H0 as (_ & _ & E1 & _).
      assert (En : forall x, enum_name m' x = enum_name m x).
      { intros [z|b|[q| |]]; cbn; try rewrite E1; reflexivity. }
      rewrite En. reflexivity.
  Qed.
End Apply.
