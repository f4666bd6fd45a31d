(** Lemmas for the registry properties (C01-C05). *)
From Coq Require FinFun.
From Verif Require Import Base BaseLemmas RegistryModel RegistrySpec.

(** ** The two-way mapping *)
Section MappingProofs.
  Context {K : Type} {KD : EqDec K}.
  Context (valid : string -> bool).

  (** Both directions agree. *)
  Definition MInv (m : nmap K) : Prop :=
    forall n k, dget n (m_rev m) = Some k <-> dget k (m_fwd m) = Some n.

  (** Everything [m] knows, [m'] knows. *)
  Definition MExt (m m' : nmap K) : Prop :=
    (forall n k, dget n (m_rev m) = Some k -> dget n (m_rev m') = Some k) /\
    (forall n k, dget k (m_fwd m) = Some n -> dget k (m_fwd m') = Some n).

  Lemma MExt_refl m : MExt m m.
  Proof. split; auto. Qed.

  Lemma MExt_trans a b c : MExt a b -> MExt b c -> MExt a c.
  Proof. intros [A B] [C D]; split; auto. Qed.

  Lemma MInv_empty : MInv m_empty.
  Proof. intros n k; cbn; split; discriminate. Qed.

  (** A successful [_set] keeps the mapping consistent, adds the pair and
      changes nothing else. *)
  Lemma m_set_ok m k n m' :
    MInv m -> m_set valid m k n = (m', true) ->
    MInv m' /\ MExt m m' /\ dget n (m_rev m') = Some k /\
    (forall n', n' <> n -> dget n' (m_rev m') = dget n' (m_rev m)) /\
    (forall k', k' <> k -> dget k' (m_fwd m') = dget k' (m_fwd m)).
  Proof.
    intros HI H. unfold m_set in H.
    destruct (valid n) eqn:Hv; cbn [negb] in H; [|congruence].
    destruct (dget k (m_fwd m)) as [cn|] eqn:Hk.
    - destruct (eq_dec cn n) as [->|]; [|congruence].
      pose proof (proj2 (HI n k) Hk) as Hr. rewrite Hr in H.
      destruct (eq_dec k k); [|congruence].
      injection H as <-. destruct m as [f r o]; cbn in *.
      repeat split; auto; apply HI.
    - destruct (dget n (m_rev m)) as [ck|] eqn:Hn.
      + apply HI in Hn. destruct (eq_dec ck k) as [->|]; congruence.
      + injection H as <-. cbn.
        split; [|split; [|split; [|split]]].
        * intros n' k'; cbn. rewrite !dget_dset.
          destruct (eq_dec n' n) as [->|Hnn]; destruct (eq_dec k' k) as [->|Hkk].
          -- tauto.
          -- split; [congruence|]. intros E. apply HI in E. congruence.
          -- split; [intros E; apply HI in E; congruence|congruence].
          -- apply HI.
        * split; cbn; intros; rewrite dget_dset;
            match goal with |- context [eq_dec ?a ?b] => destruct (eq_dec a b) end;
            congruence.
        * apply dget_dset_eq.
        * intros; apply dget_dset_ne; auto.
        * intros; apply dget_dset_ne; auto.
  Qed.

  Lemma m_set_fresh m k n :
    valid n = true -> dget k (m_fwd m) = None -> dget n (m_rev m) = None ->
    exists m', m_set valid m k n = (m', true).
  Proof.
    intros Hv Hk Hn. unfold m_set. rewrite Hv, Hk, Hn. cbn. eauto.
  Qed.

  (** Exactly when a failing [_set] leaves something behind. *)
  Lemma m_set_fail_changed m k n m' :
    m_set valid m k n = (m', false) ->
    (m' <> m <->
     valid n = true /\ dget k (m_fwd m) = None /\
     exists k', dget n (m_rev m) = Some k' /\ k' <> k).
  Proof.
    unfold m_set. destruct (valid n) eqn:Hv; cbn [negb].
    2:{ intros H; injection H as <-. split; [congruence|]. intros [E _]. congruence. }
    destruct (dget k (m_fwd m)) as [cn|] eqn:Hk.
    - destruct (eq_dec cn n) as [->|Hne].
      + destruct (dget n (m_rev m)) as [ck|] eqn:Hn.
        * destruct (eq_dec ck k) as [->|Hck]; intros H; [congruence|].
          injection H as <-. destruct m as [f r o]; cbn in *.
          split; [congruence|]. intros (_ & E & _); congruence.
        * congruence.
      + intros H; injection H as <-. split; [congruence|].
        intros (_ & E & _); congruence.
    - destruct (dget n (m_rev m)) as [ck|] eqn:Hn; [|congruence].
      destruct (eq_dec ck k) as [->|Hck]; intros H; [congruence|].
      injection H as <-. split.
      + intros _. repeat split; auto. exists ck; auto.
      + intros _ E. destruct m as [f r o]; cbn in *.
        assert (E' : f = dset k n f) by congruence.
        rewrite dset_notin in E' by exact Hk.
        apply (f_equal (@List.length _)) in E'. rewrite app_length in E'.
        cbn in E'. lia.
  Qed.

  Lemma m_load_ok kvs : forall m m',
    MInv m -> m_load valid m kvs = (m', true) ->
    MInv m' /\ MExt m m' /\
    (forall k n, In (k, n) kvs -> dget n (m_rev m') = Some k).
  Proof.
    induction kvs as [|[k n] kvs IH]; cbn; intros m m' HI H.
    - injection H as <-. split; [exact HI|split; [apply MExt_refl|intros ? ? []]].
    - destruct (m_set valid m k n) as [m1 [|]] eqn:E; [|congruence].
      apply m_set_ok in E; [|exact HI]. destruct E as (HI1 & HE1 & Hg & _).
      apply IH in H; [|exact HI1]. destruct H as (HI' & HE' & Hin).
      split; [exact HI'|split; [eapply MExt_trans; eauto|]].
      intros k0 n0 [Heq|Hin0]; [|auto].
      injection Heq as <- <-. apply HE'; exact Hg.
  Qed.

  Lemma m_load_rev_ok nks m m' :
    MInv m -> m_load_rev valid m nks = (m', true) -> MInv m' /\ MExt m m'.
  Proof.
    unfold m_load_rev; intros HI H. apply m_load_ok in H; tauto.
  Qed.

  Lemma m_new_inv mp rv m : m_new valid mp rv = Some m -> MInv m.
  Proof.
    unfold m_new. destruct (m_load valid m_empty mp) as [m1 [|]] eqn:E1; [|congruence].
    destruct (m_load_rev valid m1 rv) as [m2 [|]] eqn:E2; [|congruence].
    intros H; injection H as <-.
    apply m_load_ok in E1; [|apply MInv_empty].
    apply m_load_rev_ok in E2; tauto.
  Qed.

  Lemma m_new_loaded mp rv m :
    m_new valid mp rv = Some m ->
    (forall k n, In (k, n) mp -> dget n (m_rev m) = Some k) /\
    (forall k n, In (n, k) rv -> dget n (m_rev m) = Some k).
  Proof.
    unfold m_new. destruct (m_load valid m_empty mp) as [m1 [|]] eqn:E1; [|congruence].
    destruct (m_load_rev valid m1 rv) as [m2 [|]] eqn:E2; [|congruence].
    intros H; injection H as <-.
    apply m_load_ok in E1; [|apply MInv_empty]. destruct E1 as (I1 & X1 & L1).
    unfold m_load_rev in E2. apply m_load_ok in E2; [|exact I1].
    destruct E2 as (I2 & X2 & L2). split.
    - intros k n Hin. apply X2. auto.
    - intros k n Hin. apply L2. apply in_map_iff. exists (n, k); auto.
  Qed.
End MappingProofs.

(** ** The name registry *)
Section NameRegistryProofs.
  Context (valid : string -> bool).

  Definition RInv (r : nreg) : Prop := MInv (r_map r).

  Lemma r_scan_spec fuel : forall cur fwd c,
    r_scan fuel cur fwd = Some c -> dget c fwd = None /\ cur <= c.
  Proof.
    induction fuel as [|f IH]; cbn; [discriminate|].
    intros cur fwd c. destruct (dmem cur fwd) eqn:E.
    - intros H. apply IH in H. split; [tauto|lia].
    - intros H; injection H as <-. apply dmem_false in E. split; [exact E|lia].
  Qed.

  Lemma r_scan_none fuel : forall cur fwd,
    r_scan fuel cur fwd = None ->
    forall j, (j < fuel)%nat -> In (cur + Z.of_nat j) (dkeys fwd).
  Proof.
    induction fuel as [|f IH]; cbn; [lia|].
    intros cur fwd. destruct (dmem cur fwd) eqn:E; [|discriminate].
    intros H j Hj. destruct j as [|j].
    - apply dmem_true in E as [v E]. apply dget_Some_in in E.
      replace (cur + Z.of_nat 0) with cur by lia. exact E.
    - specialize (IH _ _ H j ltac:(lia)).
      replace (cur + Z.of_nat (S j)) with (cur + 1 + Z.of_nat j) by lia. exact IH.
  Qed.

  Lemma r_scan_total cur fwd :
    exists c, r_scan (S (List.length fwd)) cur fwd = Some c.
  Proof.
    destruct (r_scan (S (List.length fwd)) cur fwd) as [c|] eqn:E; [eauto|].
    exfalso. pose proof (r_scan_none _ _ _ E) as H.
    set (l := map (fun j => cur + Z.of_nat j) (seq 0 (S (List.length fwd)))).
    assert (Hnd : NoDup l).
    { apply FinFun.Injective_map_NoDup; [intros a b Hab; lia|apply seq_NoDup]. }
    assert (Hincl : incl l (dkeys fwd)).
    { intros z Hz. apply in_map_iff in Hz as (j & <- & Hj).
      apply in_seq in Hj. apply H. lia. }
    apply NoDup_incl_length in Hincl; [|exact Hnd].
    unfold l, dkeys in Hincl. rewrite !map_length, seq_length in Hincl. lia.
  Qed.

  (** One [register_name] call, completely characterised. *)
  Lemma r_register_spec r name ident :
    RInv r ->
    let '(r', out) := r_register valid r name ident in
    match dget name (m_rev (r_map r)) with
    | Some curr =>
        r' = r /\
        out = (match ident with
               | None => Ret (Some curr)
               | Some i => if curr =? i then Ret (Some curr) else Raise
               end)
    | None =>
        if negb (valid name) then r' = r /\ out = Ret None
        else
          match ident with
          | Some i =>
              match dget i (m_fwd (r_map r)) with
              | Some _ => r' = r /\ out = Ret None
              | None => out = Ret (Some i) /\ m_set valid (r_map r) i name = (r_map r', true)
              end
          | None =>
              exists i, out = Ret (Some i) /\ dget i (m_fwd (r_map r)) = None /\
                        m_set valid (r_map r) i name = (r_map r', true)
          end
    end.
  Proof.
    intros HI. unfold r_register, m_identifier.
    destruct (dget name (m_rev (r_map r))) as [curr|] eqn:En.
    { destruct ident as [i|]; [|auto]. destruct (curr =? i); auto. }
    destruct (valid name) eqn:Hv; cbn [negb]; [|auto].
    destruct ident as [i|].
    - destruct (dget i (m_fwd (r_map r))) as [x|] eqn:Ei.
      + unfold dmem; rewrite Ei. destruct r; auto.
      + unfold dmem; rewrite Ei.
        destruct (m_set_fresh valid _ _ _ Hv Ei En) as [m' E]. rewrite E. auto.
    - destruct (r_scan_total (r_cur r) (m_fwd (r_map r))) as [c Hc].
      rewrite Hc. apply r_scan_spec in Hc as [Hc _].
      unfold dmem; rewrite Hc.
      destruct (m_set_fresh valid _ _ _ Hv Hc En) as [m' E]. rewrite E. cbn.
      exists c; auto.
  Qed.

  Lemma r_register_inv r name ident :
    RInv r -> RInv (fst (r_register valid r name ident)) /\
              MExt (r_map r) (r_map (fst (r_register valid r name ident))).
  Proof.
    intros HI. pose proof (r_register_spec r name ident HI) as H.
    destruct (r_register valid r name ident) as [r' out]. cbn.
    destruct (dget name (m_rev (r_map r))).
    { destruct H as [-> _]. split; [exact HI|apply MExt_refl]. }
    destruct (negb (valid name)).
    { destruct H as [-> _]. split; [exact HI|apply MExt_refl]. }
    destruct ident as [i|].
    - destruct (dget i (m_fwd (r_map r))).
      { destruct H as [-> _]. split; [exact HI|apply MExt_refl]. }
      destruct H as [_ H]. apply m_set_ok in H; [|exact HI]. unfold RInv; tauto.
    - destruct H as (i & _ & _ & H). apply m_set_ok in H; [|exact HI].
      unfold RInv; tauto.
  Qed.

  Lemma r_step_inv r o :
    RInv r -> load_ok o (snd (r_step valid r o)) ->
    RInv (fst (r_step valid r o)) /\
    MExt (r_map r) (r_map (fst (r_step valid r o))).
  Proof.
    intros HI Hl. destruct o as [n i|kvs|nks]; cbn in *.
    - apply r_register_inv; exact HI.
    - destruct (m_load valid (r_map r) kvs) as [m' [|]] eqn:E; cbn in *; [|congruence].
      apply m_load_ok in E; [|exact HI]. unfold RInv; cbn; tauto.
    - destruct (m_load_rev valid (r_map r) nks) as [m' [|]] eqn:E; cbn in *; [|congruence].
      apply m_load_rev_ok in E; [|exact HI]. unfold RInv; cbn; tauto.
  Qed.

  Lemma r_run_inv ops : forall r,
    RInv r -> Forall2 load_ok ops (snd (r_run valid r ops)) ->
    RInv (fst (r_run valid r ops)) /\
    MExt (r_map r) (r_map (fst (r_run valid r ops))).
  Proof.
    induction ops as [|o ops IH]; cbn; intros r HI Hok.
    - split; [exact HI|apply MExt_refl].
    - destruct (r_step valid r o) as [r1 out] eqn:E1.
      destruct (r_run valid r1 ops) as [r2 outs] eqn:E2. cbn in *.
      inversion Hok as [|? ? ? ? Ho Hos]; subst.
      pose proof (r_step_inv r o HI) as H1. rewrite E1 in H1. cbn in H1.
      destruct (H1 Ho) as [HI1 HE1].
      specialize (IH r1 HI1). rewrite E2 in IH. cbn in IH.
      destruct (IH Hos) as [HI2 HE2].
      split; [exact HI2|eapply MExt_trans; eauto].
  Qed.

  Lemma r_new_inv mp rv r : r_new valid mp rv = Some r -> RInv r.
  Proof.
    unfold r_new. destruct (m_new valid mp rv) as [m|] eqn:E; [|discriminate].
    intros H; injection H as <-. apply m_new_inv in E. exact E.
  Qed.

  Lemma r_reachable_inv r : r_reachable valid r -> RInv r.
  Proof.
    intros (mp & rv & r0 & ops & Hn & Hok & <-).
    apply r_run_inv; [eapply r_new_inv; eauto|exact Hok].
  Qed.

  Lemma registry_bijection r :
    r_reachable valid r ->
    forall n i, m_identifier (r_map r) n = Some i <-> m_name (r_map r) i = Some n.
  Proof. intros H. apply r_reachable_inv in H. exact H. Qed.

  Lemma registry_permanent r ops :
    r_reachable valid r ->
    Forall2 load_ok ops (snd (r_run valid r ops)) ->
    let r' := fst (r_run valid r ops) in
    (forall n i, m_identifier (r_map r) n = Some i ->
       m_identifier (r_map r') n = Some i /\ m_name (r_map r') i = Some n) /\
    (forall n i, m_identifier (r_map r) n = Some i ->
       snd (r_register valid r' n None) = Ret (Some i)).
  Proof.
    intros Hr Hok r'. apply r_reachable_inv in Hr.
    destruct (r_run_inv ops r Hr Hok) as [HI [Hrev Hfwd]]. fold r' in HI, Hrev, Hfwd.
    split.
    - intros n i H. pose proof (Hrev _ _ H) as H'. split; [exact H'|].
      apply HI; exact H'.
    - intros n i H. apply Hrev in H. unfold r_register, m_identifier.
      rewrite H. reflexivity.
  Qed.

  Lemma registry_auto_fresh r name :
    r_reachable valid r ->
    valid name = true -> m_identifier (r_map r) name = None ->
    exists i r',
      r_register valid r name None = (r', Ret (Some i)) /\
      m_name (r_map r) i = None /\
      m_name (r_map r') i = Some name /\
      m_identifier (r_map r') name = Some i /\
      (forall n, n <> name -> m_identifier (r_map r') n = m_identifier (r_map r) n) /\
      (forall j, j <> i -> m_name (r_map r') j = m_name (r_map r) j).
  Proof.
    intros Hr Hv Hn. apply r_reachable_inv in Hr.
    pose proof (r_register_spec r name None Hr) as H.
    destruct (r_register valid r name None) as [r' out].
    unfold m_identifier in Hn. rewrite Hn, Hv in H. cbn in H.
    destruct H as (i & -> & Hi & Hs).
    apply m_set_ok in Hs; [|exact Hr]. destruct Hs as (HI' & _ & Hg & Ho & Ho').
    exists i, r'. repeat split; auto. apply HI'. exact Hg.
  Qed.

  Lemma registry_explicit r name i :
    r_reachable valid r -> m_identifier (r_map r) name = None ->
    (valid name = false -> r_register valid r name (Some i) = (r, Ret None)) /\
    (forall n, m_name (r_map r) i = Some n ->
       r_register valid r name (Some i) = (r, Ret None)) /\
    (valid name = true -> m_name (r_map r) i = None ->
       exists r', r_register valid r name (Some i) = (r', Ret (Some i)) /\
         m_identifier (r_map r') name = Some i /\ m_name (r_map r') i = Some name /\
         (forall n, n <> name -> m_identifier (r_map r') n = m_identifier (r_map r) n) /\
         (forall j, j <> i -> m_name (r_map r') j = m_name (r_map r) j)).
  Proof.
    intros Hr Hn. apply r_reachable_inv in Hr.
    pose proof (r_register_spec r name (Some i) Hr) as H.
    destruct (r_register valid r name (Some i)) as [r' out].
    unfold m_identifier, m_name in *. rewrite Hn in H.
    destruct (valid name) eqn:Hv; cbn [negb] in H.
    - split; [discriminate|]. destruct (dget i (m_fwd (r_map r))) as [x|] eqn:Hi.
      + split; [|discriminate]. intros n _. destruct H as [-> ->]. reflexivity.
      + split; [discriminate|]. intros _ _. destruct H as [-> Hs].
        apply m_set_ok in Hs; [|exact Hr]. destruct Hs as (HI' & _ & Hg & Ho & Ho').
        exists r'. repeat split; auto. apply HI'; exact Hg.
    - destruct H as [-> ->]. repeat split; auto. discriminate.
  Qed.

  (** A call for a name that is already known: exactly two outcomes, never a
      change. *)
  Lemma registry_known r name i ident :
    m_identifier (r_map r) name = Some i ->
    r_register valid r name ident =
      (r, match ident with
          | None => Ret (Some i)
          | Some j => if i =? j then Ret (Some i) else Raise
          end).
  Proof.
    intros H. unfold r_register. rewrite H.
    destruct ident as [j|]; [|reflexivity]. destruct (i =? j); reflexivity.
  Qed.
End NameRegistryProofs.

(** ** The object registry *)
Section RegistryProofs.
  Context (valid : string -> bool).
  Context (D P : Type).
  Context (construct : D -> option P).

  Definition GInv (g : registry P) : Prop :=
    RInv (g_names g) /\
    forall n it, dget n (g_items g) = Some it ->
      dget n (m_rev (r_map (g_names g))) = Some (i_id it).

  Lemma g_register_inv g name it :
    GInv g ->
    let '(g', out) := g_register valid g name it in
    GInv g' /\
    (out = Ret true ->
       dget name (g_items g) = None /\ g_items g' = dset name it (g_items g) /\
       dget name (g_items g') = Some it) /\
    (out <> Ret true -> g_items g' = g_items g).
  Proof.
    intros [HR HG]. unfold g_register.
    pose proof (r_register_spec valid (g_names g) name (Some (i_id it)) HR) as Hs.
    pose proof (r_register_inv valid (g_names g) name (Some (i_id it)) HR) as Hv.
    destruct (r_register valid (g_names g) name (Some (i_id it))) as [n' out].
    cbn in Hv. destruct Hv as [HR' [HE _]].
    assert (Hkeep : GInv (mkRegistry (g_items g) n')).
    { split; [exact HR'|]. cbn. intros n it0 H. apply HE. apply HG; exact H. }
    destruct out as [[i|]| |]; try (split; [exact Hkeep|split; [congruence|reflexivity]]).
    destruct (dmem name (g_items g)) eqn:Em.
    { split; [exact Hkeep|split; [congruence|reflexivity]]. }
    apply dmem_false in Em. split; [|split].
    - split; [exact HR'|]. cbn. intros n it0. rewrite dget_dset.
      destruct (eq_dec n name) as [->|Hn].
      + intros H; injection H as <-.
        destruct (dget name (m_rev (r_map (g_names g)))) as [curr|] eqn:Ec.
        * destruct Hs as [-> Ho].
          destruct (Z.eqb_spec curr (i_id it)) as [->|]; [exact Ec|congruence].
        * destruct (negb (valid name)); [destruct Hs; congruence|].
          destruct (dget (i_id it) (m_fwd (r_map (g_names g)))) eqn:Ef.
          -- destruct Hs; congruence.
          -- destruct Hs as [_ Hs]. apply m_set_ok in Hs; [|exact HR]. tauto.
      + intros H. apply HE. apply HG; exact H.
    - intros _. cbn. repeat split; auto. apply dget_dset_eq.
    - congruence.
  Qed.

  Lemma g_step_inv g o :
    GInv g ->
    let '(g', out) := g_step valid construct g o in
    GInv g' /\
    match out with
    | Ret (Some it) =>
        exists name, dget name (g_items g) = None /\
          g_items g' = dset name it (g_items g) /\
          (match o with GRegisterDict n _ => n | GRegister n _ => n end) = name
    | _ => g_items g' = g_items g
    end.
  Proof.
    intros HI. destruct o as [name d|name it]; cbn.
    - unfold g_register_dict.
      assert (Hfin : forall g0 i, GInv g0 -> g_items g0 = g_items g ->
        let '(g', out) := g_finish valid _ _ construct g0 name i (d_rest d) in
        GInv g' /\
        match out with
        | Ret (Some it) =>
            exists nm, dget nm (g_items g) = None /\
              g_items g' = dset nm it (g_items g) /\ name = nm
        | _ => g_items g' = g_items g
        end).
      { intros g0 i H0 He. unfold g_finish.
        destruct (g_kind D P construct i (d_rest d)) as [it|]; [|split; auto].
        pose proof (g_register_inv g0 name it H0) as Hr.
        destruct (g_register valid g0 name it) as [g' out].
        destruct Hr as (HI' & Hy & Hn).
        destruct out as [[|]| |]; (split; [exact HI'|]).
        - destruct (Hy eq_refl) as (A & B & _). exists name.
          rewrite <- He. auto.
        - rewrite <- He. apply Hn. congruence.
        - rewrite <- He. apply Hn. congruence.
        - rewrite <- He. apply Hn. congruence. }
      destruct (d_id d) as [i|].
      + apply Hfin; auto.
      + destruct HI as [HR HG].
        pose proof (r_register_inv valid (g_names g) name None HR) as Hv.
        destruct (r_register valid (g_names g) name None) as [n' out].
        cbn in Hv. destruct Hv as [HR' [HE _]].
        assert (Hkeep : GInv (mkRegistry (g_items g) n')).
        { split; [exact HR'|]. cbn. intros n it0 H. apply HE. apply HG; exact H. }
        destruct out as [[i|]| |]; [|split; auto..].
        apply Hfin; auto.
    - pose proof (g_register_inv g name it HI) as Hr.
      destruct (g_register valid g name it) as [g' out].
      destruct Hr as (HI' & Hy & Hn).
      destruct out as [[|]| |]; (split; [exact HI'|]).
      + destruct (Hy eq_refl) as (A & B & _). exists name. auto.
      + apply Hn; congruence.
      + apply Hn; congruence.
      + apply Hn; congruence.
  Qed.

  Lemma g_new_inv items g : NoDup (dkeys items) -> g_new valid items = Some g -> GInv g.
  Proof.
    intros Hnd. unfold g_new. destruct (r_new valid [] _) as [n|] eqn:E; [|discriminate].
    intros H; injection H as <-. split; [eapply r_new_inv; eauto|]. cbn.
    unfold r_new in E. destruct (m_new valid [] _) as [m|] eqn:Em; [|discriminate].
    injection E as <-. cbn. apply m_new_loaded in Em as [_ Hl].
    intros nm it Hit. apply dget_In in Hit. apply Hl.
    apply in_map_iff. exists (nm, it); auto.
  Qed.

  Lemma g_run_inv ops : forall g, GInv g ->
    GInv (g_run valid construct g ops) /\
    forall n it, dget n (g_items g) = Some it ->
      dget n (g_items (g_run valid construct g ops)) = Some it.
  Proof.
    unfold g_run. induction ops as [|o ops IH]; cbn; intros g HI; [auto|].
    pose proof (g_step_inv g o HI) as Hs.
    destruct (g_step valid construct g o) as [g' out]. cbn.
    destruct Hs as [HI' Hout]. destruct (IH g' HI') as [HI2 Hk].
    split; [exact HI2|]. intros n it H. apply Hk.
    destruct out as [[it'|]| |]; try (rewrite Hout; exact H).
    destruct Hout as (nm & Hno & -> & _). rewrite dget_dset.
    destruct (eq_dec n nm) as [->|]; [congruence|exact H].
  Qed.

  Lemma g_reachable_inv g : g_reachable valid construct g -> GInv g.
  Proof.
    intros (items & g0 & ops & Hnd & Hn & <-).
    apply g_run_inv. eapply g_new_inv; eauto.
  Qed.

  Lemma g_get_name_items g n : GInv g -> g_get_name g n = dget n (g_items g).
  Proof.
    intros [HR HG]. unfold g_get_name, m_name_str, dmem.
    destruct (dget n (m_rev (r_map (g_names g)))) as [i|] eqn:E; [reflexivity|].
    destruct (dget n (g_items g)) as [it|] eqn:Ei; [|reflexivity].
    apply HG in Ei. congruence.
  Qed.

  Lemma g_get_id_items g i it : GInv g ->
    g_get_id g i = Some it <-> exists n, dget n (g_items g) = Some it /\ i_id it = i.
  Proof.
    intros [HR HG]. unfold g_get_id, m_name.
    split.
    - destruct (dget i (m_fwd (r_map (g_names g)))) as [n|] eqn:E; [|discriminate].
      intros H. exists n. split; [exact H|]. apply HG in H. apply HR in H. apply HR in E.
      apply HR in H. congruence.
    - intros (n & H & <-). pose proof (HG _ _ H) as Hr. apply HR in Hr. rewrite Hr.
      exact H.
  Qed.

  Lemma registry_items_agree g :
    g_reachable valid construct g ->
    (forall n it, g_get_name g n = Some it -> g_get_id g (i_id it) = Some it) /\
    (forall i it, g_get_id g i = Some it ->
       i_id it = i /\ exists n, g_get_name g n = Some it) /\
    (forall n1 n2 it1 it2, g_get_name g n1 = Some it1 -> g_get_name g n2 = Some it2 ->
       i_id it1 = i_id it2 -> n1 = n2 /\ it1 = it2).
  Proof.
    intros Hg. apply g_reachable_inv in Hg. split; [|split].
    - intros n it H. rewrite g_get_name_items in H by exact Hg.
      apply g_get_id_items; [exact Hg|]. eauto.
    - intros i it H. apply g_get_id_items in H; [|exact Hg].
      destruct H as (n & H & <-). split; [reflexivity|]. exists n.
      rewrite g_get_name_items by exact Hg. exact H.
    - intros n1 n2 it1 it2. rewrite !g_get_name_items by exact Hg.
      intros H1 H2 He. assert (n1 = n2) as ->; [|split; congruence].
      destruct Hg as [HR HG]. apply HG in H1. apply HG in H2.
      apply HR in H1. apply HR in H2. congruence.
  Qed.

  Lemma registry_items_permanent g ops n it :
    g_reachable valid construct g -> g_get_name g n = Some it ->
    g_get_name (g_run valid construct g ops) n = Some it /\
    g_get_id (g_run valid construct g ops) (i_id it) = Some it.
  Proof.
    intros Hg H. apply g_reachable_inv in Hg.
    rewrite g_get_name_items in H by exact Hg.
    destruct (g_run_inv ops g Hg) as [HI Hk]. apply Hk in H. split.
    - rewrite g_get_name_items by exact HI. exact H.
    - apply g_get_id_items; [exact HI|]. eauto.
  Qed.

  Lemma registry_step_effect g o :
    g_reachable valid construct g ->
    let '(g', out) := g_step valid construct g o in
    let name := match o with GRegisterDict n _ => n | GRegister n _ => n end in
    match out with
    | Ret (Some it) =>
        g_get_name g name = None /\ g_get_name g' name = Some it /\
        g_get_id g' (i_id it) = Some it /\
        (forall n, n <> name -> g_get_name g' n = g_get_name g n)
    | _ =>
        (forall n, g_get_name g' n = g_get_name g n) /\
        (forall i, g_get_id g' i = g_get_id g i)
    end.
  Proof.
    intros Hg. apply g_reachable_inv in Hg.
    pose proof (g_step_inv g o Hg) as Hs.
    destruct (g_step valid construct g o) as [g' out].
    destruct Hs as [HI' Hout]. cbn.
    assert (Hsame : g_items g' = g_items g ->
      (forall n, g_get_name g' n = g_get_name g n) /\
      (forall i, g_get_id g' i = g_get_id g i)).
    { intros He. split.
      - intros n. rewrite !g_get_name_items by assumption. rewrite He. reflexivity.
      - intros i. destruct (g_get_id g i) as [it|] eqn:E.
        + apply g_get_id_items in E; [|exact Hg]. apply g_get_id_items; [exact HI'|].
          rewrite He. exact E.
        + destruct (g_get_id g' i) as [it|] eqn:E'; [|reflexivity].
          apply g_get_id_items in E'; [|exact HI']. rewrite He in E'.
          apply g_get_id_items in E'; [|exact Hg]. congruence. }
    destruct out as [[it|]| |]; auto.
    destruct Hout as (nm & Hno & Hit & Hnm). rewrite Hnm.
    rewrite !g_get_name_items by assumption.
    assert (Hgot : dget nm (g_items g') = Some it) by (rewrite Hit; apply dget_dset_eq).
    split; [exact Hno|split; [exact Hgot|split]].
    - apply g_get_id_items; [exact HI'|]. eauto.
    - intros n Hn. rewrite !g_get_name_items by assumption. rewrite Hit.
      apply dget_dset_ne; exact Hn.
  Qed.
End RegistryProofs.
