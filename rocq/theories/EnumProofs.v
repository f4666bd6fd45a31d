(** Lemmas for C06. *)
From Verif Require Import Base BaseLemmas RegistryModel RegistrySpec RegistryProofs
  EnumModel EnumSpec.

Section MapWf.
  Context {K : Type} {KD : EqDec K}.
  Context (valid : string -> bool).

  (** Consistent, names valid, each name listed once. *)
  Definition MWf (m : nmap K) : Prop :=
    MInv m /\ (forall n k, dget n (m_rev m) = Some k -> valid n = true) /\
    NoDup (dkeys (m_rev m)).

  Lemma MWf_empty : MWf m_empty.
  Proof. split; [apply MInv_empty|split; [cbn; discriminate|constructor]]. Qed.

  Lemma m_set_wf m k n m' : MWf m -> m_set valid m k n = (m', true) -> MWf m'.
  Proof.
    intros (HI & Hv & Hd) H. split; [|split].
    - eapply m_set_ok in H; tauto.
    - intros n' k' Hn'. unfold m_set in H.
      destruct (valid n) eqn:En; cbn [negb] in H; [|congruence].
      destruct (match dget k (m_fwd m) with
                | None => Some (dset k n (m_fwd m))
                | Some c => if eq_dec c n then Some (m_fwd m) else None
                end); [|congruence].
      destruct (dget n (m_rev m)) as [ck|] eqn:E.
      + destruct (eq_dec ck k); [|congruence]. injection H as <-. eauto.
      + injection H as <-. cbn in Hn'. rewrite dget_dset in Hn'.
        destruct (eq_dec n' n) as [->|]; eauto.
    - unfold m_set in H.
      destruct (valid n) eqn:En; cbn [negb] in H; [|congruence].
      destruct (match dget k (m_fwd m) with
                | None => Some (dset k n (m_fwd m))
                | Some c => if eq_dec c n then Some (m_fwd m) else None
                end); [|congruence].
      destruct (dget n (m_rev m)) as [ck|] eqn:E.
      + destruct (eq_dec ck k); [|congruence]. injection H as <-. exact Hd.
      + injection H as <-. cbn. apply NoDup_dset; exact Hd.
  Qed.

  Lemma m_load_wf kvs : forall m m', MWf m -> m_load valid m kvs = (m', true) -> MWf m'.
  Proof.
    induction kvs as [|[k n] kvs IH]; cbn; intros m m' HI H.
    - injection H as <-; exact HI.
    - destruct (m_set valid m k n) as [m1 [|]] eqn:E; [|congruence].
      eapply IH; [|exact H]. eapply m_set_wf; eauto.
  Qed.

  Lemma m_new_wf mp rv m : m_new valid mp rv = Some m -> MWf m.
  Proof.
    unfold m_new, m_load_rev. destruct (m_load valid m_empty mp) as [m1 [|]] eqn:E1; [|congruence].
    destruct (m_load valid m1 _) as [m2 [|]] eqn:E2; [|congruence].
    intros H; injection H as <-. eapply m_load_wf; [|exact E2].
    eapply m_load_wf; [|exact E1]. apply MWf_empty.
  Qed.

  (** Loading pairs that are jointly consistent succeeds and yields exactly
      them. *)
  Lemma m_load_pairs l : forall m,
    MInv m ->
    NoDup (map fst l) -> NoDup (map snd l) ->
    (forall k n, In (k, n) l -> valid n = true) ->
    (forall k n, In (k, n) l -> dget k (m_fwd m) = None /\ dget n (m_rev m) = None) ->
    exists m', m_load valid m l = (m', true) /\
      m_rev m' = m_rev m ++ map (fun kn => (snd kn, fst kn)) l.
  Proof.
    induction l as [|[k n] l IH]; cbn; intros m HI Hk Hn Hv Hf.
    - exists m. rewrite app_nil_r. auto.
    - inversion Hk as [|? ? Hk1 Hk2]; inversion Hn as [|? ? Hn1 Hn2]; subst.
      destruct (Hf k n (or_introl eq_refl)) as [Fk Fn].
      destruct (m_set_fresh valid m k n (Hv k n (or_introl eq_refl)) Fk Fn) as [m1 E1].
      rewrite E1. pose proof (m_set_ok valid m k n m1 HI E1) as (HI1 & _ & _ & Hn' & Hk').
      assert (Hrev1 : m_rev m1 = m_rev m ++ [(n, k)]).
      { unfold m_set in E1. rewrite (Hv k n (or_introl eq_refl)) in E1. cbn [negb] in E1.
        rewrite Fk, Fn in E1. injection E1 as <-. cbn. apply dset_notin; exact Fn. }
      destruct (IH m1 HI1 Hk2 Hn2) as (m' & E' & Hr').
      + intros; eapply Hv; eauto.
      + intros k0 n0 Hin. destruct (Hf k0 n0 (or_intror Hin)) as [A B].
        rewrite Hk', Hn'; auto.
        * intros ->. apply Hn1. change n with (snd (k0, n)). apply in_map; exact Hin.
        * intros ->. apply Hk1. change k with (fst (k, n0)). apply in_map; exact Hin.
      + exists m'. split; [exact E'|]. rewrite Hr', Hrev1, <- app_assoc. reflexivity.
  Qed.

  Lemma rev_values_nodup (m : nmap K) : MWf m -> NoDup (map snd (m_rev m)).
  Proof.
    intros (HI & _ & Hd).
    assert (G : forall l, NoDup (dkeys l) ->
              (forall n k, In (n, k) l -> dget n (m_rev m) = Some k) ->
              NoDup (map snd l)).
    { induction l as [|[n k] l IH]; cbn; intros Hnd Hin; [constructor|].
      inversion Hnd as [|? ? Hni Hnd']; subst. constructor.
      - intros Hc. apply in_map_iff in Hc as ([n' k'] & Hk & Hin'). cbn in Hk; subst.
        pose proof (Hin n k (or_introl eq_refl)) as A.
        pose proof (Hin n' k (or_intror Hin')) as B.
        apply HI in A. apply HI in B. assert (n = n') by congruence. subst.
        apply Hni. change n' with (fst (n', k)). apply in_map; exact Hin'.
      - apply IH; auto. }
    apply G; [exact Hd|]. intros; apply In_dget; auto.
  Qed.

  Lemma m_new_of_rev (m : nmap K) :
    MWf m -> exists m', m_new valid [] (m_rev m) = Some m' /\ m_rev m' = m_rev m.
  Proof.
    intros Hw. pose proof (rev_values_nodup m Hw) as Hs.
    destruct Hw as (HI & Hv & Hd). unfold m_new, m_load_rev. cbn [m_load].
    destruct (m_load_pairs (map (fun nk => (snd nk, fst nk)) (m_rev m)) m_empty)
      as (m' & E & Hr).
    - apply MInv_empty.
    - rewrite map_map. cbn. exact Hs.
    - rewrite map_map. cbn. exact Hd.
    - intros k n Hin. apply in_map_iff in Hin as ([n' k'] & Heq & Hin).
      injection Heq as <- <-. eapply Hv. apply In_dget; eauto.
    - intros; cbn; auto.
    - rewrite E. exists m'. split; [reflexivity|]. rewrite Hr. cbn.
      rewrite map_map. cbn. erewrite map_ext; [apply map_id|]. intros []; reflexivity.
  Qed.
End MapWf.

Section EnumProofs.
  Context (valid : string -> bool).
  Context (int_of : string -> option Z).
  Context (bool_of : string -> option bool).

  Definition EWf (e : renum) : Prop :=
    match e with EInt r => MWf valid (r_map r) | EBool m => MWf valid m end.

  Lemma r_register_wf r n i :
    MWf valid (r_map r) -> MWf valid (r_map (fst (r_register valid r n i))).
  Proof.
    intros Hw. pose proof Hw as (HI & _).
    pose proof (r_register_spec valid r n i HI) as H.
    destruct (r_register valid r n i) as [r' out]. cbn.
    destruct (dget n (m_rev (r_map r))); [destruct H as [-> _]; exact Hw|].
    destruct (negb (valid n)); [destruct H as [-> _]; exact Hw|].
    destruct i as [i|].
    - destruct (dget i (m_fwd (r_map r))); [destruct H as [-> _]; exact Hw|].
      destruct H as [_ H]. eapply m_set_wf; eauto.
    - destruct H as (i & _ & _ & H). eapply m_set_wf; eauto.
  Qed.

  Lemma b_register_wf m n b :
    MWf valid m -> MWf valid (fst (b_register valid m n b)).
  Proof.
    intros (HI & Hv & Hd). unfold b_register.
    destruct (valid n) eqn:En; cbn [negb orb]; [|repeat split; auto; apply HI].
    destruct (dmem n (m_rev m)) eqn:E1; cbn [orb]; [repeat split; auto; apply HI|].
    destruct (dmem b (m_fwd m)) eqn:E2; [repeat split; auto; apply HI|].
    apply dmem_false in E1. apply dmem_false in E2. cbn. split; [|split]; cbn.
    - intros n' k'; cbn. rewrite !dget_dset.
      destruct (eq_dec n' n) as [->|Hnn]; destruct (eq_dec k' b) as [->|Hkk].
      + tauto.
      + split; [congruence|]. intros E. apply HI in E. congruence.
      + split; [intros E; apply HI in E; congruence|congruence].
      + apply HI.
    - intros n' k'. rewrite dget_dset. destruct (eq_dec n' n) as [->|]; eauto.
    - apply NoDup_dset; exact Hd.
  Qed.

  Lemma e_reachable_wf e : e_reachable valid e -> EWf e.
  Proof.
    intros (e0 & ops & Hnew & <-).
    assert (H0 : EWf e0).
    { destruct Hnew as [[items H]|[items H]].
      - unfold e_new_int, r_new in H.
        destruct (m_new valid _ _) as [m|] eqn:E; [|discriminate].
        injection H as <-. cbn. eapply m_new_wf; eauto.
      - unfold e_new_bool in H.
        destruct (m_new valid _ _) as [m|] eqn:E; [|discriminate].
        injection H as <-. cbn. eapply m_new_wf; eauto. }
    clear Hnew. revert e0 H0. unfold e_run.
    induction ops as [|o ops IH]; cbn; intros e0 H0; [exact H0|].
    apply IH. destruct o, e0; cbn; auto.
    - apply r_register_wf; exact H0.
    - apply b_register_wf; exact H0.
  Qed.

  Lemma bool_key_z b : bool_key (z_of_bool b) = Some b.
  Proof. destruct b; reflexivity. Qed.

  Lemma enum_translates e :
    e_reachable valid e ->
    forall n v, In (n, v) (e_pairs e) ->
      e_get_str e (VInt v) = Some n /\
      e_get_str e (VStr n) = Some n /\
      e_get_int int_of bool_of e (VStr n) = Some v /\
      e_get_int int_of bool_of e (VInt v) = Some v.
  Proof.
    intros He n v Hin. apply e_reachable_wf in He.
    unfold e_get_str. destruct e as [r|m]; cbn in *.
    - destruct He as (HI & _ & Hd). pose proof (In_dget _ _ _ Hd Hin) as Hg.
      unfold m_identifier, m_identifier_key, m_name_str, m_name, dmem.
      rewrite Hg. pose proof (proj1 (HI n v) Hg) as Hf. rewrite Hf. auto.
    - apply in_map_iff in Hin as ([n' b] & Heq & Hin). injection Heq as <- <-.
      destruct He as (HI & _ & Hd). pose proof (In_dget _ _ _ Hd Hin) as Hg.
      unfold m_identifier, m_identifier_key, m_name_str, m_name, dmem. cbn.
      rewrite Hg, bool_key_z. pose proof (proj1 (HI n' b) Hg) as Hf. rewrite Hf. auto.
  Qed.

  Lemma enum_unknown e :
    e_reachable valid e ->
    (forall v, ~ In v (map snd (e_pairs e)) ->
       e_get_str e (VInt v) = None /\ e_get_int int_of bool_of e (VInt v) = None) /\
    (forall n, ~ In n (map fst (e_pairs e)) -> e_get_str e (VStr n) = None).
  Proof.
    intros He. apply e_reachable_wf in He. unfold e_get_str.
    destruct e as [r|m]; cbn in *; destruct He as (HI & _ & Hd);
      unfold m_identifier_key, m_name_str, m_name, dmem.
    - split.
      + intros v Hv. destruct (dget v (m_fwd (r_map r))) as [n|] eqn:E; [|auto].
        exfalso; apply Hv. apply HI in E. apply dget_In in E.
        change v with (snd (n, v)). apply in_map; exact E.
      + intros n Hn. destruct (dget n (m_rev (r_map r))) as [v|] eqn:E; [|auto].
        exfalso; apply Hn. apply dget_Some_in in E. exact E.
    - rewrite !map_map; cbn. split.
      + intros v Hv. unfold bool_key.
        assert (G : forall b, z_of_bool b = v -> dget b (m_fwd m) = None).
        { intros b Hb. destruct (dget b (m_fwd m)) as [n|] eqn:E; [|auto].
          exfalso; apply Hv. apply HI in E. apply dget_In in E.
          apply in_map_iff. exists (n, b). cbn; auto. }
        destruct (Z.eqb_spec v 0) as [->|]; [rewrite (G false eq_refl); auto|].
        destruct (Z.eqb_spec v 1) as [->|]; [rewrite (G true eq_refl); auto|auto].
      + intros n Hn. destruct (dget n (m_rev m)) as [v|] eqn:E; [|auto].
        exfalso; apply Hn. apply dget_Some_in in E. exact E.
  Qed.

  Lemma by_key_names {K} (l : list (string * K)) :
    by_key (map (fun nk => ByName (fst nk) (snd nk)) l) = [].
  Proof. induction l as [|[n k] l IH]; cbn; auto. Qed.
  Lemma by_name_names {K} (l : list (string * K)) :
    by_name (map (fun nk => ByName (fst nk) (snd nk)) l) = l.
  Proof. induction l as [|[n k] l IH]; cbn; [auto|f_equal; auto]. Qed.

  Lemma MInv_fwd_eq {K} {KD : EqDec K} (m m' : nmap K) :
    MInv m -> MInv m' -> m_rev m = m_rev m' ->
    forall k, dget k (m_fwd m) = dget k (m_fwd m').
  Proof.
    intros HI HI' He k. destruct (dget k (m_fwd m)) as [n|] eqn:E.
    - apply HI in E. rewrite He in E. apply HI' in E. auto.
    - destruct (dget k (m_fwd m')) as [n|] eqn:E'; [|auto].
      apply HI' in E'. rewrite <- He in E'. apply HI in E'. congruence.
  Qed.

  Lemma enum_reload e :
    e_reachable valid e ->
    exists e', e_reload valid e = Some e' /\ e_pairs e' = e_pairs e /\
      (forall v, e_get_str e' v = e_get_str e v) /\
      (forall v, e_get_int int_of bool_of e' v = e_get_int int_of bool_of e v) /\
      (forall v, e_get_bool bool_of e' v = e_get_bool bool_of e v).
  Proof.
    intros He. apply e_reachable_wf in He. destruct e as [r|m]; cbn in *.
    - unfold e_new_int, r_new, e_items_int, m_asdict.
      rewrite by_key_names, by_name_names.
      destruct (m_new_of_rev valid (r_map r) He) as (m' & Hm' & Hr). rewrite Hm'.
      pose proof (m_new_inv valid _ _ _ Hm') as HI'.
      eexists. split; [reflexivity|]. cbn. destruct He as (HI & _ & _).
      pose proof (MInv_fwd_eq _ _ HI' HI Hr) as Hf.
      split; [exact Hr|].
      unfold e_get_str, e_as_str, e_as_int, m_name_str, m_name, m_identifier,
        m_identifier_key, dmem; cbn.
      repeat split; intros [s|z|b]; try reflexivity; rewrite ?Hr, ?Hf; try reflexivity.
      destruct (dget s (m_rev (r_map r))); [reflexivity|].
      destruct (int_of s); [rewrite Hf|]; reflexivity.
    - unfold e_new_bool, e_items_bool, m_asdict.
      rewrite by_key_names, by_name_names.
      destruct (m_new_of_rev valid m He) as (m' & Hm' & Hr). rewrite Hm'.
      pose proof (m_new_inv valid _ _ _ Hm') as HI'.
      eexists. split; [reflexivity|]. cbn. destruct He as (HI & _ & _).
      pose proof (MInv_fwd_eq _ _ HI' HI Hr) as Hf.
      split; [unfold m_asdict; rewrite Hr; reflexivity|].
      unfold e_get_str, e_as_str, e_as_bool, m_name_str, m_name, m_identifier,
        m_identifier_key, dmem; cbn.
      repeat split; intros [s|z|b]; rewrite ?Hr, ?Hf; try reflexivity;
        destruct (bool_key z); rewrite ?Hf; reflexivity.
  Qed.
End EnumProofs.
