(** Invariants of reachable environments. *)
From Coq Require Import QArith ZifyBool ZifyNat.
From Verif Require Import Base BaseLemmas PrimModel PrimSpec PrimProofs ScalingModel
  FieldModel FieldSpec FieldProofs
  RegistryModel RegistrySpec RegistryProofs EnumModel EnumSpec EnumProofs EnvModel EnvSpec EnvProofs.
Open Scope Z_scope.

Definition cell_ok (c : cell) : Prop :=
  match c_raw c with
  | RI z => k_is_float (c_kind c) = false /\ k_value (c_kind c) z
  | RF _ => k_is_float (c_kind c) = true
  end.

Lemma k_cases k : (k_is_int k = true /\ k_is_float k = false /\ k <> KBool) \/
  (k_is_int k = false /\ k_is_float k = true /\ k <> KBool) \/ k = KBool.
Proof.
  destruct k; try (right; right; reflexivity);
    (left; split; [reflexivity|split; [reflexivity|discriminate]]) ||
    (right; left; split; [reflexivity|split; [reflexivity|discriminate]]).
Qed.

Lemma cell_set_ok fround c n c' : cell_set fround c n = Ok c' ->
  cell_ok c' /\ c_kind c' = c_kind c /\ c_scaling c' = c_scaling c.
Proof.
  unfold cell_set, cell_ok.
  destruct (k_cases (c_kind c)) as [(I & F & _)|[(I & F & _)|B]].
  - rewrite I. destruct n as [z|b|f]; [| |discriminate]; intros X; injection X as <-; cbn [c_raw c_kind c_scaling];
      split; [split; [exact F|apply store_value]|split; reflexivity|split; [exact F|apply store_value]|split; reflexivity].
  - rewrite I, F. intros X; injection X as <-. cbn. auto.
  - rewrite B. cbn [k_is_int k_is_float]. intros X; injection X as <-. cbn [c_raw c_kind c_scaling].
    split; [|split; [congruence|reflexivity]]. split; [reflexivity|]. cbn [k_value].
    destruct n as [z|b|[q| |]]; [destruct (z =? 0)|destruct b|destruct (Qeq_bool q 0)| |]; cbn; auto.
Qed.

Lemma cell_set_scaled_ok fround c n c' : cell_set_scaled fround c n = Ok c' ->
  cell_ok c' /\ c_kind c' = c_kind c /\ c_scaling c' = c_scaling c.
Proof.
  unfold cell_set_scaled. destruct (k_is_int (c_kind c)).
  - match goal with |- context [match ?m with Ok _ => _ | Err _ => _ end] => destruct m as [z|] end; [|discriminate].
    apply cell_set_ok.
  - destruct (c_scaling c) eqn:S; [rewrite <- S; apply cell_set_ok|].
    rewrite <- S. destruct (f_invert (to_flo n) _); [|discriminate]. apply cell_set_ok.
Qed.

Lemma field_write_ok c f v c' : k_is_int (c_kind c) = true -> cell_field_write c f v = Ok c' ->
  cell_ok c' /\ c_kind c' = c_kind c /\ c_scaling c' = c_scaling c.
Proof.
  unfold cell_field_write, cell_ok. intros I. destruct (c_raw c); [|discriminate].
  intros X; injection X as <-. cbn [c_raw c_kind c_scaling].
  destruct (k_cases (c_kind c)) as [(_ & F & _)|[(I' & _)|B]]; [|congruence|rewrite B in I; discriminate].
  split; [|auto]. split; [exact F|]. apply write_is_value.
Qed.

Definition known (e : env) (n : string) : Prop := dget n (m_rev (r_map (e_names e))) <> None.

Section Wf.
  Context (valid : string -> bool) (int_of : string -> option Z)
    (float_of : string -> option flo) (bool_of : string -> option bool)
    (fround : kind -> flo -> flo) (enums : string + Z -> option renum).

  Record EWF (e : env) : Prop := {
    w_names : MInv (r_map (e_names e));
    w_cells : forall r c, e_cell e r = Some c -> cell_ok c;
    w_chans : forall n ch, dget n (e_chans e) = Some ch ->
      (exists c, e_cell e (ch_ref ch) = Some c) /\ known e n /\
      (forall m, ch_enum ch = Some m -> exists k, enums k = Some m);
    w_bfs : forall b bf, nth_error (e_bfs e) b = Some bf ->
      NoDup (dkeys (bf_fields bf)) /\
      exists c, e_cell e (bf_ref bf) = Some c /\
        forall n f, dget n (bf_fields bf) = Some f ->
          fl_name f = n /\ field_ok (c_kind c) n (fl_index f) (fl_width f) = true;
    w_lookup : forall n i, dget n (e_lookup e) = Some i ->
      known e n /\
      exists b bf f, nth_error (e_mgr e) i = Some b /\ nth_error (e_bfs e) b = Some bf /\
        dget n (bf_fields bf) = Some f /\
        (forall k m, fl_enum f = Some k -> enums k = Some m -> dget n (e_flenum e) = Some m);
    w_flenum : forall n m, dget n (e_flenum e) = Some m -> exists k, enums k = Some m;
    w_byprim : forall r b, dget r (e_byprim e) = Some b ->
      exists bf, nth_error (e_bfs e) b = Some bf /\ bf_ref bf = r;
    w_toadd : forall b, In b (e_toadd e) -> (b < List.length (e_bfs e))%nat
  }.

  Lemma wf_new : EWF e_new.
  Proof.
    split; cbn; try (intros; discriminate); try (intros; contradiction).
    - intros n k; cbn; split; discriminate.
    - intros r c. unfold e_cell; cbn. destruct r; discriminate.
    - intros [|b]; discriminate.
  Qed.

  Lemma wf_heap e h : EWF e ->
    (forall r c, nth_error h r = Some c -> cell_ok c) ->
    (forall r c, e_cell e r = Some c -> exists c', nth_error h r = Some c' /\ c_kind c' = c_kind c) ->
    EWF (with_heap e h).
  Proof.
    intros W O K. destruct W as [W1 W2 W3 W4 W5 W6 W7 W8]. split; cbn; auto.
    - intros n ch H. destruct (W3 n ch H) as ((c & Hc) & Kn & En). split; [|split; auto].
      destruct (K _ _ Hc) as (c' & Hc' & _). exists c'. exact Hc'.
    - intros b bf H. destruct (W4 b bf H) as (Nd & c & Hc & F). split; [exact Nd|].
      destruct (K _ _ Hc) as (c' & Hc' & Kc). exists c'. split; [exact Hc'|].
      intros n f Hf. destruct (F n f Hf) as [-> Fo]. split; [reflexivity|]. rewrite Kc. exact Fo.
  Qed.

  Lemma wf_put e r c0 c : EWF e -> e_cell e r = Some c0 -> cell_ok c -> c_kind c = c_kind c0 ->
    EWF (e_put e r c).
  Proof.
    intros W H0 O K. apply wf_heap; [exact W| |].
    - intros p d Hd. destruct (Nat.eq_dec p r) as [->|Hne].
      + rewrite (upd_eq _ _ _ _ H0) in Hd. injection Hd as <-. exact O.
      + rewrite upd_ne in Hd by congruence. eapply w_cells; eauto.
    - intros p d Hd. destruct (Nat.eq_dec p r) as [->|Hne].
      + rewrite (upd_eq _ _ _ _ H0). exists c. split; [reflexivity|]. congruence.
      + rewrite upd_ne by congruence. exists d. auto.
  Qed.

  Lemma get_chan e k ch : EWF e -> e_get e k = Some ch ->
    exists c, e_cell e (ch_ref ch) = Some c /\ cell_ok c.
  Proof.
    intros W. unfold e_get. destruct (e_name e k) as [n|]; [|discriminate]. intros H.
    destruct (w_chans e W n ch H) as ((c & Hc) & _). exists c. split; [exact Hc|]. eapply w_cells; eauto.
  Qed.

  Lemma get_field_ok e k r f : EWF e -> e_get_field e k = Some (r, f) ->
    exists c raw, e_cell e r = Some c /\ c_raw c = RI raw /\ k_value (c_kind c) raw /\
      k_is_int (c_kind c) = true /\ 0 <= fl_index f /\ 0 <= fl_width f /\
      fl_index f < k_bits (c_kind c) /\ fl_width f <= k_bits (c_kind c) /\
      e_has_field e k = true /\ e_name e k = Some (fl_name f).
  Proof.
    intros W. unfold e_get_field, e_has_field. destruct (e_name e k) as [n|]; [|discriminate].
    unfold dmem. destruct (dget n (e_lookup e)) as [i|] eqn:L; [|discriminate].
    destruct (nth_error (e_mgr e) i) as [b|]; [|discriminate].
    destruct (nth_error (e_bfs e) b) as [bf|] eqn:B; [|discriminate].
    destruct (dget n (bf_fields bf)) as [f'|] eqn:F; [|discriminate].
    intros X; injection X as <- <-. destruct (w_bfs e W b bf B) as (_ & c & Hc & Hf).
    destruct (Hf n f' F) as [E O]. apply field_ok_spec in O as (O1 & O2 & O3 & O4 & _ & O5).
    pose proof (w_cells e W _ _ Hc) as Ok. unfold cell_ok in Ok.
    assert (Fl : k_is_float (c_kind c) = false) by (destruct (c_kind c); cbn in *; congruence).
    destruct (c_raw c) as [raw|] eqn:R; [|congruence].
    exists c, raw. repeat split; auto; try apply Ok. congruence.
  Qed.

  Lemma has_field_get e k : EWF e -> e_has_field e k = true ->
    exists r f, e_get_field e k = Some (r, f).
  Proof.
    intros W. unfold e_has_field, e_get_field. destruct (e_name e k) as [n|]; [|discriminate].
    unfold dmem. destruct (dget n (e_lookup e)) as [i|] eqn:L; [|discriminate]. intros _.
    destruct (w_lookup e W n i L) as (_ & b & bf & f & Hb & Hbf & Hf & _).
    rewrite Hb, Hbf, Hf. eauto.
  Qed.

  Lemma wf_field_write e k r f v e' : EWF e -> e_get_field e k = Some (r, f) ->
    e_field_write e r f v = Ok e' -> EWF e'.
  Proof.
    intros W G H. apply field_write_shape in H as (c & c' & Hc & Hw & ->).
    destruct (get_field_ok e k r f W G) as (c1 & raw & Hc1 & _ & _ & I & _).
    assert (c1 = c) by congruence. subst c1.
    destruct (field_write_ok c f v c' I Hw) as (O & K & _). eapply wf_put; eauto.
  Qed.

  Lemma wf_set e k v sc e' : EWF e -> e_set int_of float_of bool_of fround e k v sc = Ok e' -> EWF e'.
  Proof.
    intros W. unfold e_set. destruct (e_has_field e k) eqn:Hf.
    - unfold e_set_field. destruct (e_get_field e k) as [[r f]|] eqn:G; [|destruct v as [|[]]; discriminate].
      assert (forall z, e_field_write e r f z = Ok e' -> EWF e') as Q
        by (intros z Hz; eapply wf_field_write; eauto).
      destruct v as [s|[z|b|fl]]; try discriminate; eauto.
      destruct (dget (fl_name f) (e_flenum e)) as [m|].
      + destruct (e_get_int int_of bool_of m (VStr s)); [eauto|discriminate].
      + destruct (bool_of s); [eauto|]. destruct (int_of s); [eauto|discriminate].
    - destruct (e_get e k) as [ch|] eqn:G; [|discriminate].
      destruct (e_cell e (ch_ref ch)) as [c|] eqn:Hc; [|discriminate].
      destruct (resolve _ _ _ c _ v) as [n|]; [|discriminate].
      destruct (if sc then _ else _) as [c'|] eqn:S; [|discriminate].
      intros X; injection X as <-.
      assert (cell_ok c' /\ c_kind c' = c_kind c) as [O K].
      { destruct sc; [apply cell_set_scaled_ok in S as (A & B & _)|apply cell_set_ok in S as (A & B & _)]; auto. }
      eapply wf_put; eauto.
  Qed.

  Lemma target_field e k r f : e_target e k = Some (TField r f) -> e_get_field e k = Some (r, f).
  Proof.
    unfold e_target. destruct (e_get e k); [discriminate|].
    destruct (e_get_field e k) as [[r' f']|]; [|discriminate]. congruence.
  Qed.

  Lemma wf_toggle e k t e' rp : EWF e -> e_target e k = Some t -> do_toggle e t = (e', rp) -> EWF e'.
  Proof.
    intros W T. unfold do_toggle. destruct t as [ch|r f].
    - destruct (e_cell e (ch_ref ch)) as [c|] eqn:Hc; [|intros X; injection X as <- _; exact W].
      destruct (c_kind c) eqn:K; try (intros X; injection X as <- _; exact W).
      destruct (c_raw c) as [z|] eqn:R; intros X; injection X as <- _; [|exact W].
      eapply wf_put; [exact W|exact Hc| |cbn; congruence].
      unfold cell_ok; cbn. split; [reflexivity|]. destruct (z =? 0); auto.
    - apply target_field in T. destruct (e_cell e r) as [c|]; [|intros X; injection X as <- _; exact W].
      destruct (e_field_write e r f _) as [e1|] eqn:Hw; intros X; injection X as <- _; [|exact W].
      eapply wf_field_write; eauto.
  Qed.

  Lemma wf_handle hooks e a e' rp calls : EWF e ->
    handle int_of float_of bool_of fround hooks e a = (e', rp, calls) -> EWF e'.
  Proof.
    intros W. unfold handle. destruct (_ || _); [intros X; injection X as <- _ _; exact W|].
    assert (G : forall v, (let '(e1, r1) := match v with
                            | VSet => do_set int_of float_of bool_of fround e a
                            | VToggle => match e_target e (inl (a_chan a)) with
                                         | Some t => do_toggle e t | None => (e, CFailure) end
                            | _ => (e, CSuccess) end in EWF e1)).
    { intros []; try exact W.
      - unfold do_set. destruct (a_extra a) as [|s ?]; [exact W|].
        destruct (e_set _ _ _ _ e _ _ true) as [e1|[]] eqn:S; try exact W. eapply wf_set; eauto.
      - destruct (e_target e (inl (a_chan a))) as [t|] eqn:T; [|exact W].
        destruct (do_toggle e t) as [e1 r1] eqn:D. eapply wf_toggle; eauto. }
    assert (G2 : forall v, match e_target e (inl (a_chan a)) with
      | Some t =>
          if negb (t_cmd t) && negb (a_force a) then (e, CFailure, [])
          else
            let '(e', r) := match v with
                            | VSet => do_set int_of float_of bool_of fround e a
                            | VToggle => do_toggle e t
                            | _ => (e, CSuccess)
                            end in
            (e', r, if accepted r then call_hooks hooks (Some t) else [])
      | None => (e, CFailure, [])
      end = (e', rp, calls) -> EWF e').
    { intros v. specialize (G v). destruct (e_target e (inl (a_chan a))) as [t|]; [|intros X; injection X as <- _ _; exact W].
      destruct (negb (t_cmd t) && negb (a_force a)); [intros X; injection X as <- _ _; exact W|].
      destruct v; try (intros X; injection X as <- _ _; exact W).
      - destruct (do_set _ _ _ _ e a) as [e1 r1]. intros X; injection X as <- _ _. exact G.
      - destruct (do_toggle e t) as [e1 r1]. intros X; injection X as <- _ _. exact G. }
    destruct (a_verb a) eqn:V.
    - apply (G2 VSet).
    - apply (G2 VToggle).
    - destruct (e_exists e _); [|apply (G2 VGet)].
      destruct (e_value e _ true true); intros X; injection X as <- _ _; exact W.
    - apply (G2 VCustom).
  Qed.

  Lemma wf_prim e k sc : EWF e -> EWF (e_prim e k sc).
  Proof.
    intros W. unfold e_prim. apply wf_heap; [exact W| |].
    - intros r c H. destruct (lt_dec r (List.length (e_heap e))) as [L|L].
      + rewrite nth_error_app1 in H by exact L. eapply w_cells; [exact W|exact H].
      + rewrite nth_error_app2 in H by lia. destruct (r - List.length (e_heap e))%nat as [|j] eqn:J; cbn in H.
        * injection H as <-. unfold cell_ok. destruct k; cbn; try split; try reflexivity; try lia; auto.
        * destruct j; discriminate.
    - intros r c H. exists c. split; [|reflexivity]. rewrite nth_error_app1; [exact H|].
      unfold e_cell in H. apply nth_error_Some. congruence.
  Qed.

  (** Registering a name only adds knowledge. *)
  Lemma register_known e name n' out : MInv (r_map (e_names e)) ->
    r_register valid (e_names e) name None = (n', out) ->
    MInv (r_map n') /\ MExt (r_map (e_names e)) (r_map n') /\
    (forall i, out = Ret (Some i) -> dget name (m_rev (r_map n')) = Some i).
  Proof.
    intros M H. pose proof (r_register_inv valid (e_names e) name None M) as [A B].
    pose proof (r_register_spec valid (e_names e) name None M) as S. rewrite H in A, B, S. cbn [fst] in A, B.
    split; [exact A|]. split; [exact B|]. intros i ->.
    destruct (dget name (m_rev (r_map (e_names e)))) as [curr|] eqn:D.
    - destruct S as [-> S]. cbn in S. injection S as ->. exact D.
    - destruct (negb (valid name)); [destruct S as [_ S]; discriminate|].
      destruct S as (j & Ej & _ & Sm). injection Ej as <-. apply m_set_ok in Sm as (_ & _ & Sm & _); [exact Sm|exact M].
  Qed.

  Lemma ext_known e n' n : MExt (r_map (e_names e)) (r_map n') -> known e n ->
    dget n (m_rev (r_map n')) <> None.
  Proof.
    unfold known. intros [X _] K. destruct (dget n (m_rev (r_map (e_names e)))) as [k|] eqn:D; [|congruence].
    rewrite (X n k D). discriminate.
  Qed.

  Lemma wf_names e n' : EWF e -> MInv (r_map n') -> MExt (r_map (e_names e)) (r_map n') ->
    EWF (with_names e n').
  Proof.
    intros [W1 W2 W3 W4 W5 W6 W7 W8] M X. split; cbn; auto.
    - intros n ch H. destruct (W3 n ch H) as (A & B & C). split; [exact A|]. split; [|exact C].
      eapply ext_known; eauto.
    - intros n i H. destruct (W5 n i H) as (A & B). split; [|exact B]. eapply ext_known; eauto.
  Qed.

  Lemma wf_chan_add e n ch : EWF e -> dget n (e_chans e) = None -> known e n ->
    (exists c, e_cell e (ch_ref ch) = Some c) ->
    (forall m, ch_enum ch = Some m -> exists k, enums k = Some m) ->
    EWF (with_chans e (dset n ch (e_chans e))).
  Proof.
    intros [W1 W2 W3 W4 W5 W6 W7 W8] D K C En. split; cbn; auto.
    intros n' ch' H. rewrite dget_dset in H. destruct (eq_dec n' n) as [->|].
    - injection H as <-. auto.
    - apply W3. exact H.
  Qed.

  Lemma wf_channel e name r cmd en : EWF e -> EWF (fst (e_channel valid enums e name r cmd en)).
  Proof.
    intros W. unfold e_channel. destruct (e_finalized e); [exact W|].
    destruct (Nat.ltb r (List.length (e_heap e))) eqn:L; cbn [negb]; [|exact W].
    destruct (r_register valid (e_names e) name None) as [n' out] eqn:R.
    destruct (register_known e name n' out (w_names e W) R) as (M & X & I).
    pose proof (wf_names e n' W M X) as W'.
    destruct out as [[i|]| |]; try exact W'.
    destruct (dmem name (e_chans (with_names e n'))) eqn:D; [exact W'|].
    apply dmem_false in D.
    assert (C : exists c, e_cell (with_names e n') r = Some c).
    { unfold e_cell; cbn. apply Nat.ltb_lt in L. destruct (nth_error (e_heap e) r) eqn:Q; [eauto|].
      apply nth_error_None in Q. lia. }
    assert (K : known (with_names e n') name) by (unfold known; cbn; rewrite (I i eq_refl); discriminate).
    destruct en as [k|]; [destruct (enums k) as [m|] eqn:En|]; cbn [fst];
      apply wf_chan_add; auto; cbn; try (intros; discriminate).
    intros m' Hm; injection Hm as <-. eauto.
  Qed.

  (** Adding one field to an existing register. *)
  Lemma bfs_field_add e b bf f c :
    EWF e -> nth_error (e_bfs e) b = Some bf -> e_cell e (bf_ref bf) = Some c ->
    field_ok (c_kind c) (fl_name f) (fl_index f) (fl_width f) = true ->
    dget (fl_name f) (bf_fields bf) = None ->
    EWF (mkEnv (e_heap e) (e_names e) (e_chans e)
           (upd (e_bfs e) b (mkBf (bf_ref bf) (dset (fl_name f) f (bf_fields bf))))
           (e_mgr e) (e_lookup e) (e_flenum e) (e_byprim e) (e_toadd e) (e_final e) (e_bypass e)).
  Proof.
    intros [W1 W2 W3 W4 W5 W6 W7 W8] B Hc O D. split; cbn; auto.
    - intros b' bf' H. destruct (Nat.eq_dec b b') as [<-|Hne].
      + rewrite (upd_eq _ _ _ _ B) in H. injection H as <-. cbn.
        destruct (W4 b bf B) as (Nd & c' & Hc' & F). assert (c' = c) by congruence. subst c'.
        split; [apply NoDup_dset; exact Nd|]. exists c. split; [exact Hc|].
        intros n f' Hf. rewrite dget_dset in Hf. destruct (eq_dec n (fl_name f)) as [->|].
        * injection Hf as <-. auto.
        * apply F. exact Hf.
      + rewrite upd_ne in H by exact Hne. apply (W4 b' bf' H).
    - intros n i H. destruct (W5 n i H) as (K & b' & bf' & f' & Hb & Hbf & Hf & En). split; [exact K|].
      destruct (Nat.eq_dec b b') as [<-|Hne].
      + assert (bf' = bf) by congruence. subst bf'.
        exists b, (mkBf (bf_ref bf) (dset (fl_name f) f (bf_fields bf))), f'.
        split; [exact Hb|]. split; [eapply upd_eq; eauto|]. split; [|exact En]. cbn.
        rewrite dget_dset_ne; [exact Hf|]. intros ->. congruence.
      + exists b', bf', f'. split; [exact Hb|]. split; [rewrite upd_ne by exact Hne; exact Hbf|auto].
    - intros r b' H. destruct (W7 r b' H) as (bf' & Hbf & Hr). destruct (Nat.eq_dec b b') as [<-|Hne].
      + exists (mkBf (bf_ref bf) (dset (fl_name f) f (bf_fields bf))). split; [eapply upd_eq; eauto|]. cbn.
        congruence.
      + exists bf'. split; [rewrite upd_ne by exact Hne; exact Hbf|exact Hr].
    - intros b' H. rewrite upd_length. auto.
  Qed.

  Lemma bfs_new e r c : EWF e -> e_cell e r = Some c ->
    EWF (mkEnv (e_heap e) (e_names e) (e_chans e) (e_bfs e ++ [mkBf r []]) (e_mgr e)
           (e_lookup e) (e_flenum e) (dset r (List.length (e_bfs e)) (e_byprim e))
           (e_toadd e ++ [List.length (e_bfs e)]) (e_final e) (e_bypass e)).
  Proof.
    intros [W1 W2 W3 W4 W5 W6 W7 W8] Hc.
    assert (Old : forall b bf, nth_error (e_bfs e) b = Some bf ->
              nth_error (e_bfs e ++ [mkBf r []]) b = Some bf).
    { intros b bf H. rewrite nth_error_app1; [exact H|]. apply nth_error_Some. congruence. }
    assert (New : nth_error (e_bfs e ++ [mkBf r []]) (List.length (e_bfs e)) = Some (mkBf r [])).
    { rewrite nth_error_app2 by lia. rewrite Nat.sub_diag. reflexivity. }
    split; cbn; auto.
    - intros b bf H. destruct (lt_dec b (List.length (e_bfs e))) as [L|L].
      + rewrite nth_error_app1 in H by exact L. apply (W4 b bf H).
      + rewrite nth_error_app2 in H by lia. destruct (b - List.length (e_bfs e))%nat as [|[|]]; try discriminate.
        injection H as <-. cbn. split; [constructor|]. exists c. split; [exact Hc|]. discriminate.
    - intros n i H. destruct (W5 n i H) as (K & b' & bf' & f' & Hb & Hbf & Hf & En). split; [exact K|].
      exists b', bf', f'. auto.
    - intros r' b H. rewrite dget_dset in H. destruct (eq_dec r' r) as [->|].
      + injection H as <-. eexists. split; [exact New|reflexivity].
      + destruct (W7 r' b H) as (bf & Hbf & Hr). eauto.
    - intros b H. rewrite app_length; cbn. apply in_app_iff in H as [H|[<-|[]]]; [apply W8 in H|]; lia.
  Qed.

  Lemma wf_add_field e r f : EWF e -> EWF (fst (e_add_field e r f)).
  Proof.
    intros W. unfold e_add_field. destruct (e_cell e r) as [c|] eqn:Hc; [|exact W].
    destruct (field_ok _ _ _ _) eqn:O; cbn [negb]; [|exact W].
    destruct (dget r (e_byprim e)) as [b|] eqn:B.
    - destruct (w_byprim e W r b B) as (bf & Hbf & Hr). rewrite Hbf.
      destruct (dmem (fl_name f) (bf_fields bf)) eqn:D; [exact W|]. apply dmem_false in D.
      cbn [fst]. eapply bfs_field_add; eauto. rewrite Hr. exact Hc.
    - pose proof (bfs_new e r c W Hc) as W'. cbn [e_bfs].
      rewrite nth_error_app2 by lia. rewrite Nat.sub_diag. cbn [nth_error bf_fields bf_ref dmem dget].
      cbn [fst]. eapply (bfs_field_add _ (List.length (e_bfs e)) (mkBf r []) f c W'); cbn; auto.
      rewrite nth_error_app2 by lia. rewrite Nat.sub_diag. reflexivity.
  Qed.

  (** Registering one field of register [b], the newest entry of the manager. *)
  Lemma wf_mgr_field e ok b bf i nf : EWF e ->
    nth_error (e_mgr e) i = Some b -> nth_error (e_bfs e) b = Some bf ->
    dget (fst nf) (bf_fields bf) = Some (snd nf) ->
    EWF (fst (mgr_field valid enums i (e, ok) nf)) /\
    e_mgr (fst (mgr_field valid enums i (e, ok) nf)) = e_mgr e /\
    e_bfs (fst (mgr_field valid enums i (e, ok) nf)) = e_bfs e.
  Proof.
    intros W Hb Hbf Hf. unfold mgr_field. destruct ok; cbn [negb]; [|auto].
    destruct (r_register valid (e_names e) (fst nf) None) as [n' out] eqn:R.
    destruct (register_known e (fst nf) n' out (w_names e W) R) as (M & X & I).
    pose proof (wf_names e n' W M X) as W'.
    destruct out as [[id|]| |]; try (split; [exact W'|split; reflexivity]).
    specialize (I id eq_refl).
    destruct W' as [W1 W2 W3 W4 W5 W6 W7 W8]. cbn in W1, W3, W4, W5, W6, W7, W8.
    destruct (fl_enum (snd nf)) as [k|] eqn:En; [destruct (enums k) as [m|] eqn:Em|];
      cbn [fst e_mgr e_bfs with_names]; (split; [|split; reflexivity]); split; cbn; auto.
    - intros n j H. rewrite dget_dset in H. destruct (eq_dec n (fst nf)) as [->|Hne].
      + injection H as <-. split; [unfold known; cbn; rewrite I; discriminate|].
        exists b, bf, (snd nf). repeat split; auto. intros k' m' Hk Hm.
        rewrite En in Hk. injection Hk as <-. rewrite Em in Hm. injection Hm as <-. apply dget_dset_eq.
      + destruct (W5 n j H) as (K & b' & bf' & f' & A1 & A2 & A3 & A4). split; [exact K|].
        exists b', bf', f'. repeat split; auto. intros k' m' Hk Hm.
        rewrite dget_dset_ne by exact Hne. eauto.
    - intros n m' H. rewrite dget_dset in H. destruct (eq_dec n (fst nf)); [injection H as <-|]; eauto.
    - intros n j H. rewrite dget_dset in H. destruct (eq_dec n (fst nf)) as [->|Hne].
      + injection H as <-. split; [unfold known; cbn; rewrite I; discriminate|].
        exists b, bf, (snd nf). repeat split; auto. intros k' m' Hk Hm. congruence.
      + apply (W5 n j H).
    - intros n j H. rewrite dget_dset in H. destruct (eq_dec n (fst nf)) as [->|Hne].
      + injection H as <-. split; [unfold known; cbn; rewrite I; discriminate|].
        exists b, bf, (snd nf). repeat split; auto. intros k' m' Hk Hm. congruence.
      + apply (W5 n j H).
  Qed.

  Lemma wf_mgr_fields b bf i l : forall e ok, EWF e ->
    nth_error (e_mgr e) i = Some b -> nth_error (e_bfs e) b = Some bf ->
    (forall nf, In nf l -> dget (fst nf) (bf_fields bf) = Some (snd nf)) ->
    let r := fold_left (mgr_field valid enums i) l (e, ok) in
    EWF (fst r) /\ e_mgr (fst r) = e_mgr e /\ e_bfs (fst r) = e_bfs e.
  Proof.
    induction l as [|nf l IH]; intros e ok W Hb Hbf Hin; [cbn; auto|]. cbn [fold_left].
    destruct (wf_mgr_field e ok b bf i nf W Hb Hbf) as (W' & Em & Eb); [apply Hin; now left|].
    destruct (mgr_field valid enums i (e, ok) nf) as [e1 ok1]. cbn [fst] in W', Em, Eb.
    destruct (IH e1 ok1 W') as (A & B & C); try congruence.
    - intros x Hx. apply Hin. now right.
    - split; [exact A|]. split; congruence.
  Qed.

  Lemma wf_mgr_add e b : EWF e -> EWF (fst (mgr_add valid enums e b)) /\
    e_bfs (fst (mgr_add valid enums e b)) = e_bfs e.
  Proof.
    intros W. unfold mgr_add. destruct (nth_error (e_bfs e) b) as [bf|] eqn:B; [|auto].
    match goal with |- context [fold_left _ _ (?x, true)] => set (e1 := x) end.
    assert (W1 : EWF e1).
    { destruct W as [A1 A2 A3 A4 A5 A6 A7 A8]. split; cbn; auto.
      intros n i H. destruct (A5 n i H) as (K & b' & bf' & f' & Hb & R). split; [exact K|].
      exists b', bf', f'. split; [|exact R]. rewrite nth_error_app1; [exact Hb|].
      apply nth_error_Some. congruence. }
    destruct (wf_mgr_fields b bf (List.length (e_mgr e)) (bf_fields bf) e1 true W1) as (A & _ & C).
    - cbn. rewrite nth_error_app2 by lia. rewrite Nat.sub_diag. reflexivity.
    - exact B.
    - intros [n f] Hin. apply In_dget; [|exact Hin]. apply (w_bfs e W b bf B).
    - split; [exact A|exact C].
  Qed.

  Lemma wf_adds l : forall e ok, EWF e ->
    EWF (fst (fold_left (fun (acc : env * bool) b =>
                   let '(e, ok) := acc in if ok then mgr_add valid enums e b else (e, false)) l (e, ok))).
  Proof.
    induction l as [|b l IH]; intros e ok W; [exact W|]. cbn [fold_left]. destruct ok.
    - destruct (wf_mgr_add e b W) as (A & _). destruct (mgr_add valid enums e b) as [e1 ok1].
      apply IH. exact A.
    - apply IH. exact W.
  Qed.

  Lemma wf_flags e fin byp : EWF e ->
    EWF (mkEnv (e_heap e) (e_names e) (e_chans e) (e_bfs e) (e_mgr e) (e_lookup e) (e_flenum e)
         (e_byprim e) (e_toadd e) fin byp).
  Proof. intros [A1 A2 A3 A4 A5 A6 A7 A8]. split; cbn; auto. Qed.

  Lemma wf_finalize e strict : EWF e -> EWF (fst (e_finalize valid enums e strict)).
  Proof.
    intros W. unfold e_finalize. pose proof (wf_adds (e_toadd e) e true W) as A.
    destruct (fold_left _ (e_toadd e) (e, true)) as [e1 ok]. cbn [fst] in A.
    destruct ok; cbn [negb]; [|exact A]. destruct (strict && e_finalized e1); [exact A|].
    cbn [fst]. apply wf_flags. exact A.
  Qed.

  Lemma wf_step e o : EWF e ->
    EWF (fst (step valid int_of float_of bool_of fround enums e o)).
  Proof.
    intros W. destruct o; cbn [step].
    - apply wf_prim; exact W.
    - apply wf_channel; exact W.
    - apply wf_add_field; exact W.
    - apply wf_finalize; exact W.
    - unfold e_set_bypass. destruct (on && e_bypass e); [exact W|]. apply wf_flags. exact W.
    - destruct (e_set _ _ _ _ e k v scaled) as [e1|] eqn:S; [|exact W]. eapply wf_set; eauto.
    - destruct (handle _ _ _ _ hooks e a) as [[e1 r] calls] eqn:H. eapply wf_handle; eauto.
  Qed.

  Lemma wf_run ops : forall e, EWF e -> EWF (run valid int_of float_of bool_of fround enums e ops).
  Proof.
    unfold run. induction ops as [|o ops IH]; intros e W; [exact W|]. cbn [fold_left].
    apply IH. apply wf_step. exact W.
  Qed.

  Lemma reachable_wf e : env_reachable valid int_of float_of bool_of fround enums e -> EWF e.
  Proof. intros [ops <-]. apply wf_run. apply wf_new. Qed.
End Wf.
