(** Proofs about type systems. *)
From Coq Require Import ZifyBool ZifyNat Lia.
From Verif Require Import Base BaseLemmas PrimModel PrimSpec PrimProofs StringModel ArrayModel ArraySpec ArrayProofs
  ChainModel ChainSpec ChainProofs RegistryModel EnumModel FieldModel ProtoModel ProtoProofs ProtoReplayProofs ProtoSizeProofs TypeModel TypeSpec.

(** ** resolve_name *)
Lemma by_length_spec l : forall done s d,
  (s = -1 <-> done = []) -> (forall x, In x done -> s <= Z.of_nat (String.length x)) ->
  (done <> [] -> exists x, In x done /\ Z.of_nat (String.length x) = s) ->
  (forall n, match dget n d with Some xs => xs | None => [] end =
             filter (fun x => Z.of_nat (String.length x) =? n) done) ->
  let '(s', d') := by_length l s d in
  (s' = -1 <-> done ++ l = []) /\ (forall x, In x (done ++ l) -> s' <= Z.of_nat (String.length x)) /\
  (done ++ l <> [] -> exists x, In x (done ++ l) /\ Z.of_nat (String.length x) = s') /\
  (forall n, match dget n d' with Some xs => xs | None => [] end =
             filter (fun x => Z.of_nat (String.length x) =? n) (done ++ l)).
Proof.
  induction l as [|x l IH]; intros done s d H1 H2 H3 H4; cbn [by_length].
  - rewrite app_nil_r. auto.
  - set (n := Z.of_nat (String.length x)). set (s1 := if (s =? -1) || (n <? s) then n else s).
    assert (Hn : 0 <= n) by (unfold n; lia).
    specialize (IH (done ++ [x]) s1 (dset n (match dget n d with Some xs => xs | None => [] end ++ [x]) d)).
    rewrite <- app_assoc in IH. cbn [app] in IH. apply IH.
    + split; [|intros A; destruct done; discriminate]. intros E. exfalso. unfold s1 in E.
      destruct (Z.eqb_spec s (-1)); [cbn in E; lia|]. destruct (Z.ltb_spec n s); cbn in E; lia.
    + intros y Hy. apply in_app_or in Hy as [Hy|[<-|[]]].
      * specialize (H2 y Hy). unfold s1. destruct (Z.eqb_spec s (-1)) as [E|E].
        { apply H1 in E. subst. destruct Hy. }
        destruct (Z.ltb_spec n s); cbn; lia.
      * unfold s1. fold n. destruct (Z.eqb_spec s (-1)); [cbn; lia|]. destruct (Z.ltb_spec n s); cbn; lia.
    + intros _. unfold s1. destruct (Z.eqb_spec s (-1)) as [E|E]; cbn.
      { exists x. split; [apply in_or_app; right; left; reflexivity|reflexivity]. }
      destruct (Z.ltb_spec n s).
      { exists x. split; [apply in_or_app; right; left; reflexivity|reflexivity]. }
      destruct H3 as (y & Hy & Ey).
      { intros A. apply H1 in A. congruence. }
      exists y. split; [apply in_or_app; left; exact Hy|exact Ey].
    + intros m. rewrite dget_dset, filter_app. cbn [filter]. fold n. destruct (eq_dec m n) as [->|Ne].
      * rewrite H4, Z.eqb_refl. reflexivity.
      * destruct (Z.eqb_spec n m); [congruence|]. rewrite app_nil_r. apply H4.
Qed.

Lemma resolve_spec l r : resolve_name l = Some r <->
  filter (fun x => Z.of_nat (String.length x) =? Z.of_nat (String.length r)) l = [r] /\
  forall x, In x l -> (String.length r <= String.length x)%nat.
Proof.
  unfold resolve_name. pose proof (by_length_spec l [] (-1) []) as H. cbn [app] in H.
  specialize (H ltac:(tauto) ltac:(cbn; tauto) ltac:(congruence) ltac:(reflexivity)).
  destruct (by_length l (-1) []) as [s d]. destruct H as (H1 & H2 & H3 & H4). specialize (H4 s). split.
  - intros E. destruct (dget s d) as [[|x [|y t]]|]; try discriminate. injection E as ->.
    assert (Hr : Z.of_nat (String.length r) = s).
    { assert (I : In r (filter (fun x => Z.of_nat (String.length x) =? s) l)) by (rewrite <- H4; left; reflexivity).
      apply filter_In in I as [_ I]. apply Z.eqb_eq in I. exact I. }
    rewrite Hr. split; [symmetry; exact H4|]. intros x Hx. specialize (H2 x Hx). lia.
  - intros [F M]. assert (Ir : In r l).
    { assert (I : In r [r]) by (left; reflexivity). rewrite <- F in I. apply filter_In in I. tauto. }
    destruct H3 as (y & Hy & Ey); [intros A; subst; destruct Ir|].
    pose proof (M y Hy). pose proof (H2 r Ir). assert (Hr : Z.of_nat (String.length r) = s) by lia.
    rewrite Hr in F. rewrite F in H4. destruct (dget s d) as [xs|]; [subst; reflexivity|discriminate].
Qed.

Section Types.
  Context (valid : string -> bool) (byte_orders : renum) (root : list string)
          (search : list string -> list string -> string -> list string).
  Notation full := (full root).
  Notation ts_find := (ts_find root search).
  Notation ts_strict := (ts_strict root search).
  Notation ts_name := (ts_name root search).
  Notation ts_register := (ts_register byte_orders root search).
  Notation ts_enum := (ts_enum valid root search).
  Notation ts_add := (ts_add valid root search).
  Notation ts_step := (ts_step valid byte_orders root search).
  Notation ts_run := (ts_run valid byte_orders root search).
  Notation ts_new := (ts_new byte_orders).

  Lemma full_join ns n : full ns n = ns_join ((root ++ ns) ++ [n]).
  Proof. unfold TypeModel.full. rewrite app_assoc. reflexivity. Qed.

  Lemma filter_eq l c : NoDup l ->
    filter (fun x => negb true || String.eqb x c) l = if smem c l then [c] else [].
  Proof.
    intros ND. cbn [negb orb]. induction ND as [|x l Nx ND IH]; [reflexivity|]. cbn [filter smem existsb].
    rewrite (String.eqb_sym c x). destruct (String.eqb_spec x c) as [->|Ne]; cbn [orb].
    - rewrite IH. destruct (smem c l) eqn:E; [|reflexivity]. exfalso. apply Nx.
      unfold smem in E. apply existsb_exists in E as (y & Hy & E). apply String.eqb_eq in E. subst. exact Hy.
    - exact IH.
  Qed.

  Lemma smem_spec c l : smem c l = true <-> In c l.
  Proof.
    unfold smem. rewrite existsb_exists. split.
    - intros (y & Hy & E). apply String.eqb_eq in E. subst. exact Hy.
    - intros H. exists c. split; [exact H|apply String.eqb_refl].
  Qed.

  Context (SO : search_ok search).

  (** What an exact lookup finds. *)
  Lemma find_exact s n ns : NoDup (ts_names s) ->
    (forall x, dmem x (ts_custom s) = true -> In x (ts_names s)) ->
    ts_find s n ns true =
      Some (if dmem n (ts_prims s) then Some n
            else if smem (full ns n) (ts_names s) then Some (full ns n) else None).
  Proof.
    intros ND C. unfold TypeModel.ts_find. destruct (dmem n (ts_prims s)); [reflexivity|].
    destruct (dmem (full ns n) (ts_custom s)) eqn:Dc.
    - rewrite (proj2 (smem_spec _ _) (C _ Dc)). reflexivity.
    - destruct (SO (ts_names s) (root ++ ns) n) as (S1 & S2 & S3).
      rewrite (filter_eq _ _ (S2 ND)). rewrite <- full_join in S3.
      destruct (smem (full ns n) (ts_names s)) eqn:E.
      + apply smem_spec in E. rewrite (proj2 (smem_spec _ _) (S3 E)). reflexivity.
      + destruct (smem (full ns n) (search _ _ _)) eqn:E2; [|reflexivity]. apply smem_spec, S1, smem_spec in E2. congruence.
  Qed.

  Lemma resolve_in l r : resolve_name l = Some r -> In r l.
  Proof.
    intros H. apply resolve_spec in H as [F _]. assert (I : In r [r]) by (left; reflexivity).
    rewrite <- F in I. apply filter_In in I. tauto.
  Qed.

  Lemma find_in s n ns exact x :
    (forall x, dmem x (ts_custom s) = true -> In x (ts_names s)) ->
    (forall x, dmem x (ts_prims s) = true -> In x (ts_names s)) ->
    ts_find s n ns exact = Some (Some x) -> In x (ts_names s).
  Proof.
    intros C P. unfold TypeModel.ts_find. destruct (dmem n (ts_prims s)) eqn:Dp.
    - intros H. injection H as <-. apply P. exact Dp.
    - destruct (dmem (full ns n) (ts_custom s)) eqn:Dc.
      + intros H. injection H as <-. apply C. exact Dc.
      + destruct (SO (ts_names s) (root ++ ns) n) as (S1 & _ & _).
        set (l := search (ts_names s) (root ++ ns) n) in *.
        destruct (filter _ l) as [|y [|z t]] eqn:F; [discriminate| |].
        * intros H. injection H as <-. apply S1. assert (I : In y [y]) by (left; reflexivity).
          rewrite <- F in I. apply filter_In in I. tauto.
        * intros H. destruct (resolve_name _) as [r|] eqn:R; [|discriminate]. injection H as <-.
          apply resolve_in in R. rewrite <- F in R. apply filter_In in R. apply S1. tauto.
  Qed.

  (** ** The invariant *)
  Record TI (aliases : list string) (ops : list top) (evs : list tev) (s : tsys) : Prop := {
    ti_nd : NoDup (ts_names s);
    ti_names : forall x, In x (ts_names s) <-> In x (predefined ++ attempted root ops);
    ti_prims : forall x, dmem x (ts_prims s) = true -> In x (ts_names s);
    ti_prims_from : forall x, dmem x (ts_prims s) = true -> In x (predefined ++ aliases);
    ti_custom : forall x, dmem x (ts_custom s) = true -> In x (ts_names s);
    ti_disj : forall x, dmem x (ts_custom s) = true -> dmem x (ts_prims s) = false;
    ti_enum : forall n e k, dget n (ts_enums s) = Some (e, k) ->
      n = "ByteOrder" \/ dget n (ts_prims s) = Some k;
    ti_bo : ~ In "ByteOrder" (ts_names s);
    ti_chain : forall x p, dget x (ts_custom s) = Some p -> q_chain p <> [] /\ Forall n_inv (q_chain p);
    ti_size : forall x, ts_size_of s x = dget x (tally evs);
    ti_made : NoDup (made_types evs);
    ti_ev : forall x, In x (made_types evs) -> In x (attempted root ops);
    ti_new : forall x, In (EvNew x) evs <-> dmem x (ts_custom s) = true
  }.

  Lemma dmem_dget {A} x (d : list (string * A)) : dmem x d = true <-> exists v, dget x d = Some v.
  Proof.
    unfold dmem. destruct (dget x d) as [v|]; split; try discriminate; eauto. intros [v H]. discriminate.
  Qed.

  Lemma new_TI aliases : TI aliases [] [] ts_new.
  Proof.
    assert (ND : NoDup predefined).
    { assert (F : forall l : list string, (fix nd (l : list string) := match l with [] => true | x :: r => negb (smem x r) && nd r end) l = true -> NoDup l).
      { induction l as [|x l IH]; intros H; [constructor|]. apply Bool.andb_true_iff in H as [H1 H2].
        constructor; [|apply IH; exact H2]. intros I. apply smem_spec in I. rewrite I in H1. discriminate. }
      apply F. vm_compute. reflexivity. }
    assert (Pm : forall x, dmem x (ts_prims ts_new) = true -> In x predefined).
    { intros x H. apply dmem_dget in H as [v H]. apply dget_Some_in in H. exact H. }
    split.
    - exact ND.
    - intros x. cbn [attempted flat_map]. rewrite app_nil_r. reflexivity.
    - exact Pm.
    - intros x H. apply in_or_app. left. apply Pm. exact H.
    - intros x H. discriminate.
    - intros x H. discriminate.
    - intros n e k H. right. cbn [ts_new ts_enums dget] in H. destruct (eq_dec n byte_order_alias) as [->|]; [|discriminate].
      injection H as _ <-. reflexivity.
    - intros H. vm_compute in H. repeat (destruct H as [H|H]; [discriminate|]). exact H.
    - intros x p H. discriminate.
    - intros x. unfold ts_size_of, tally. cbn [fold_left ts_new ts_custom dget option_map]. unfold base_sizes.
      cbn [ts_prims ts_new]. generalize (primitive_types ++ [(byte_order_alias, U8)]).
      induction l as [|[n k] l IH]; [reflexivity|]. cbn [map dget fst snd]. destruct (eq_dec x n); [reflexivity|exact IH].
    - constructor.
    - intros x [].
    - intros x. cbn. split; [intros []|discriminate].
  Qed.

  (** A registration. *)
  Definition track (l : list string) (c : string) : list string := if smem c l then l else l ++ [c].

  Lemma name_spec aliases ops evs s n ns o : TI aliases ops evs s ->
    clear root aliases o -> (o = TReg n ns \/ exists i k, o = TEnum n ns i k) ->
    ts_name s n ns =
      if smem (full ns n) (ts_names s) then None
      else Some (mkTs (ts_prims s) (ts_custom s) (ts_enums s) (ts_names s ++ [full ns n]), full ns n).
  Proof.
    intros T Cl Ho. assert (C1 : In n (predefined ++ aliases) -> full ns n = n).
    { destruct Ho as [->|(i & k & ->)]; apply Cl. }
    unfold TypeModel.ts_name. rewrite (find_exact s n ns (ti_nd _ _ _ _ T) (ti_custom _ _ _ _ T)).
    destruct (dmem n (ts_prims s)) eqn:Dp.
    - rewrite (C1 (ti_prims_from _ _ _ _ T n Dp)), String.eqb_refl.
      rewrite (proj2 (smem_spec _ _) (ti_prims _ _ _ _ T n Dp)). reflexivity.
    - destruct (smem (full ns n) (ts_names s)) eqn:E; [rewrite String.eqb_refl; reflexivity|]. reflexivity.
  Qed.

  Lemma attempted_app a b : attempted root (a ++ b) = attempted root a ++ attempted root b.
  Proof. unfold attempted. apply flat_map_app. Qed.
  Lemma made_app a b : made_types (a ++ b) = made_types a ++ made_types b.
  Proof. unfold made_types. apply flat_map_app. Qed.

  Lemma NoDup_snoc {A} (l : list A) x : NoDup l -> ~ In x l -> NoDup (l ++ [x]).
  Proof.
    induction 1 as [|y l Ny ND IH]; intros H; cbn; [repeat constructor; intros []|]. constructor.
    - rewrite in_app_iff. cbn. intros [X|[->|[]]]; [exact (Ny X)|]. apply H. left. reflexivity.
    - apply IH. intros X. apply H. right. exact X.
  Qed.

  (** Only the names remembered and the enumerations change. *)
  Lemma keep_TI aliases ops evs s o names enums : TI aliases ops evs s ->
    NoDup names -> (forall x, In x names <-> In x (ts_names s) \/ In x (attempted root [o])) ->
    ~ In "ByteOrder" (attempted root [o]) ->
    (forall n e k, dget n enums = Some (e, k) -> n = "ByteOrder" \/ dget n (ts_prims s) = Some k) ->
    TI aliases (ops ++ [o]) evs (mkTs (ts_prims s) (ts_custom s) enums names).
  Proof.
    intros [A1 A2 A3 A4 A5 A6 A7 A8 A9 A10 A11 A12 A13] ND N B En. split; cbn [ts_prims ts_custom ts_names ts_enums]; try assumption.
    - intros x. rewrite N, A2, attempted_app, !in_app_iff. tauto.
    - intros x Hx. apply N. left. apply A3. exact Hx.
    - intros x Hx. apply N. left. apply A5. exact Hx.
    - rewrite N. tauto.
    - intros x Hx. rewrite attempted_app, in_app_iff. left. apply A12. exact Hx.
  Qed.

  Lemma k_pos k : 0 <= Z.of_nat (k_size k).
  Proof. lia. Qed.

  Lemma step_TI aliases ops evs s o s' e : TI aliases ops evs s ->
    clear root aliases o -> (forall x, In x (enum_attempts root [o]) -> In x aliases) ->
    ts_step s o = (s', e) -> TI aliases (ops ++ [o]) (evs ++ e) s'.
  Proof.
    intros T Cl Al E. destruct o as [n ns|n ns items k|ct fn ft l exact].
    - (* register *)
      cbn [TypeModel.ts_step] in E. unfold TypeModel.ts_register in E.
      set (enums := if dmem "ByteOrder" (ts_enums s) then ts_enums s else ts_enums s ++ [("ByteOrder", (byte_orders, U8))]) in E.
      set (s0 := mkTs (ts_prims s) (ts_custom s) enums (ts_names s)) in E.
      assert (En : forall n e k, dget n enums = Some (e, k) -> n = "ByteOrder" \/ dget n (ts_prims s) = Some k).
      { intros m e0 k0. unfold enums. destruct (dmem "ByteOrder" (ts_enums s)); [apply (ti_enum _ _ _ _ T)|].
        rewrite dget_app. destruct (dget m (ts_enums s)) eqn:Em.
        - intros H. injection H as ->. apply (ti_enum _ _ _ _ T m e0 k0 Em).
        - cbn. destruct (eq_dec m "ByteOrder"); [auto|discriminate]. }
      destruct Cl as [C1 C2].
      assert (T0 : TI aliases (ops ++ [TAdd "" "" "" None true]) evs s0).
      { apply keep_TI; try assumption; [apply T| |]; cbn; [intros x; tauto|tauto]. }
      rewrite (name_spec _ _ _ _ n ns (TReg n ns) T0 (conj C1 C2) (or_introl eq_refl)) in E.
      change (ts_names s0) with (ts_names s) in E. destruct (smem (full ns n) (ts_names s)) eqn:Sm.
      + injection E as <- <-. rewrite app_nil_r. apply smem_spec in Sm. apply keep_TI; try assumption.
        * apply T.
        * cbn. intros x. split; [tauto|]. intros [H|[<-|[]]]; assumption.
        * cbn. intros [H|[]]. exact (C2 H).
      + injection E as <- <-. assert (Nn : ~ In (full ns n) (ts_names s)) by (rewrite <- smem_spec; congruence).
        assert (Np : dmem (full ns n) (ts_prims s) = false).
        { destruct (dmem (full ns n) (ts_prims s)) eqn:D; [|reflexivity]. elim Nn. apply (ti_prims _ _ _ _ T _ D). }
        assert (Nc : dmem (full ns n) (ts_custom s) = false).
        { destruct (dmem (full ns n) (ts_custom s)) eqn:D; [|reflexivity]. elim Nn. apply (ti_custom _ _ _ _ T _ D). }
        destruct T as [A1 A2 A3 A4 A5 A6 A7 A8 A9 A10 A11 A12 A13]. split; cbn [ts_prims ts_custom ts_names ts_enums s0].
        * apply NoDup_snoc; assumption.
        * intros x. rewrite attempted_app, !in_app_iff, A2, in_app_iff. cbn. tauto.
        * intros x Hx. apply in_or_app. left. apply A3. exact Hx.
        * exact A4.
        * intros x Hx. apply in_or_app. apply dmem_dget in Hx as [v Hx]. rewrite dget_dset in Hx.
          destruct (eq_dec x (full ns n)) as [->|]; [right; left; reflexivity|]. left. apply A5. apply dmem_dget. eauto.
        * intros x Hx. apply dmem_dget in Hx as [v Hx]. rewrite dget_dset in Hx.
          destruct (eq_dec x (full ns n)) as [->|]; [exact Np|]. apply A6. apply dmem_dget. eauto.
        * exact En.
        * rewrite in_app_iff. cbn. intros [H|[H|[]]]; [exact (A8 H)|exact (C2 H)].
        * intros x p. rewrite dget_dset. destruct (eq_dec x (full ns n)) as [->|]; [|apply A9].
          intros H. injection H as <-. split; [discriminate|]. constructor; [apply empty_inv|constructor].
        * intros x. unfold ts_size_of, tally. cbn [ts_prims ts_custom]. rewrite fold_left_app. cbn [fold_left tally_step].
          rewrite !dget_dset. fold (tally evs). rewrite <- A10. unfold ts_size_of.
          destruct (eq_dec x (full ns n)) as [->|]; [|reflexivity].
          unfold dmem in Np. destruct (dget (full ns n) (ts_prims s)); [discriminate|]. reflexivity.
        * rewrite made_app. apply NoDup_snoc; [exact A11|]. intros H. apply Nn. apply A2. apply in_or_app. right. apply A12. exact H.
        * intros x. rewrite made_app, attempted_app, !in_app_iff. cbn. intros [H|H]; [left; apply A12; exact H|right; exact H].
        * intros x. rewrite in_app_iff. cbn. rewrite A13, !dmem_dget, dget_dset. destruct (eq_dec x (full ns n)) as [->|Ne].
          { split; [eauto|]. intros _. right. left. reflexivity. }
          { split; [intros [H|[H|[]]]; [exact H|congruence]|auto]. }
    - (* enum *)
      cbn [TypeModel.ts_step] in E. unfold TypeModel.ts_enum in E. destruct Cl as [C1 C2].
      rewrite (name_spec _ _ _ _ n ns (TEnum n ns items k) T (conj C1 C2)) in E by eauto.
      destruct (smem (full ns n) (ts_names s)) eqn:Sm.
      { injection E as <- <-. rewrite app_nil_r. apply smem_spec in Sm.
        assert (X : s = mkTs (ts_prims s) (ts_custom s) (ts_enums s) (ts_names s)) by (destruct s; reflexivity).
        rewrite X. apply keep_TI; try assumption.
        * apply T.
        * cbn. intros x. split; [tauto|]. intros [H|[<-|[]]]; assumption.
        * cbn. intros [H|[]]. exact (C2 H).
        * apply T. }
      assert (Nn : ~ In (full ns n) (ts_names s)) by (rewrite <- smem_spec; congruence).
      assert (Np : dmem (full ns n) (ts_prims s) = false).
      { destruct (dmem (full ns n) (ts_prims s)) eqn:D; [|reflexivity]. elim Nn. apply (ti_prims _ _ _ _ T _ D). }
      assert (Nc : dmem (full ns n) (ts_custom s) = false).
      { destruct (dmem (full ns n) (ts_custom s)) eqn:D; [|reflexivity]. elim Nn. apply (ti_custom _ _ _ _ T _ D). }
      assert (K : TI aliases (ops ++ [TEnum n ns items k]) evs
                (mkTs (ts_prims s) (ts_custom s) (ts_enums s) (ts_names s ++ [full ns n]))).
      { apply keep_TI; try assumption.
        * apply NoDup_snoc; [apply T|exact Nn].
        * cbn. intros x. rewrite in_app_iff. cbn. tauto.
        * cbn. intros [H|[]]. exact (C2 H).
        * apply T. }
      cbn [ts_prims ts_custom ts_names ts_enums] in E. rewrite Np in E.
      destruct (valid (full ns n) && negb (dmem (full ns n) (ts_enums s))) eqn:V; [|injection E as <- <-; rewrite app_nil_r; exact K].
      apply Bool.andb_true_iff in V as [_ V]. apply Bool.negb_true_iff in V.
      destruct (e_new_int valid items) as [e0|]; [|injection E as <- <-; rewrite app_nil_r; exact K].
      injection E as <- <-. destruct K as [A1 A2 A3 A4 A5 A6 A7 A8 A9 A10 A11 A12 A13].
      cbn [ts_prims ts_custom ts_names ts_enums] in *.
      assert (Nl : dget (full ns n) (ts_prims s) = None).
      { unfold dmem in Np. destruct (dget (full ns n) (ts_prims s)); [discriminate|reflexivity]. }
      assert (Pa : forall x, dget x (ts_prims s ++ [(full ns n, k)]) =
                     if eq_dec x (full ns n) then Some k else dget x (ts_prims s)).
      { intros x. rewrite dget_app. destruct (eq_dec x (full ns n)) as [->|Ne].
        - rewrite Nl. cbn. destruct (eq_dec (full ns n) (full ns n)); [reflexivity|congruence].
        - destruct (dget x (ts_prims s)); [reflexivity|]. cbn. destruct (eq_dec x (full ns n)); congruence. }
      split; cbn [ts_prims ts_custom ts_names ts_enums]; try assumption.
      * intros x Hx. apply dmem_dget in Hx as [v Hx]. rewrite Pa in Hx. destruct (eq_dec x (full ns n)) as [->|].
        { apply in_or_app. right. left. reflexivity. } apply A3. apply dmem_dget. eauto.
      * intros x Hx. apply dmem_dget in Hx as [v Hx]. rewrite Pa in Hx. destruct (eq_dec x (full ns n)) as [->|].
        { apply in_or_app. right. apply Al. left. reflexivity. } apply A4. apply dmem_dget. eauto.
      * intros x Hx. pose proof (A6 x Hx) as Hp. unfold dmem. rewrite Pa.
        destruct (eq_dec x (full ns n)) as [->|]; [congruence|]. unfold dmem in Hp. exact Hp.
      * intros m e1 k1. rewrite dget_app. destruct (dget m (ts_enums s)) as [[e2 k2]|] eqn:Em.
        { intros H. injection H as -> ->. destruct (A7 m e1 k1 Em) as [H|H]; [auto|]. right. rewrite Pa.
          destruct (eq_dec m (full ns n)) as [->|]; [congruence|exact H]. }
        cbn. destruct (eq_dec m (full ns n)) as [->|]; [|discriminate]. intros H. injection H as _ <-. right.
        rewrite Pa. destruct (eq_dec (full ns n) (full ns n)); congruence.
      * intros x. unfold ts_size_of, tally. cbn [ts_prims ts_custom]. rewrite fold_left_app. cbn [fold_left tally_step].
        rewrite Pa, dget_dset. fold (tally evs). specialize (A10 x). unfold ts_size_of in A10. cbn [ts_prims ts_custom] in A10.
        destruct (eq_dec x (full ns n)); [reflexivity|]. exact A10.
      * rewrite made_app. apply NoDup_snoc; [exact A11|]. intros H. apply Nn.
        pose proof (ti_ev _ _ _ _ T _ H) as H'. apply (ti_names _ _ _ _ T). apply in_or_app. right. exact H'.
      * intros x. rewrite made_app, in_app_iff. cbn. intros [H|[<-|[]]]; [apply A12; exact H|].
        rewrite attempted_app, in_app_iff. right. left. reflexivity.
      * intros x. rewrite in_app_iff. cbn. rewrite A13. split; [intros [H|[H|[]]]; [exact H|discriminate]|auto].
    - (* add *)
      cbn [TypeModel.ts_step] in E. unfold TypeModel.ts_add in E.
      assert (Same : TI aliases (ops ++ [TAdd ct fn ft l exact]) evs s).
      { assert (X : s = mkTs (ts_prims s) (ts_custom s) (ts_enums s) (ts_names s)) by (destruct s; reflexivity).
        rewrite X. apply keep_TI; try assumption; [apply T|cbn; intros x; tauto|cbn; tauto|apply T]. }
      destruct (ts_strict s ct [] exact) as [tn|] eqn:Et; [|injection E as <- <-; rewrite app_nil_r; exact Same].
      destruct (ts_strict s ft [] exact) as [f|] eqn:Ef; [|injection E as <- <-; rewrite app_nil_r; exact Same].
      destruct (dget tn (ts_custom s)) as [custom|] eqn:Dc; [|injection E as <- <-; rewrite app_nil_r; exact Same].
      destruct (ti_chain _ _ _ _ T _ _ Dc) as [Ne Ni].
      assert (Hf : In f (ts_names s)).
      { unfold TypeModel.ts_strict in Ef. destruct (ts_find s ft [] exact) as [[y|]|] eqn:Fy; try discriminate.
        destruct (String.eqb y ""); [discriminate|]. injection Ef as <-.
        eapply find_in; [apply T|apply T|exact Fy]. }
      assert (Fb : f <> "ByteOrder") by (intros ->; apply (ti_bo _ _ _ _ T Hf)).
      set (cnt := match l with Some n => Z.max 1 n | None => 1 end) in *.
      assert (Cn : Z.of_nat (1 + extra l) = cnt).
      { unfold cnt, extra. destruct l as [z|]; lia. }
      assert (Up : forall p', (exists z, ts_size_of s f = Some z /\ pr_size p' = pr_size custom + cnt * z) -> q_chain p' <> [] /\ Forall n_inv (q_chain p') ->
        TI aliases (ops ++ [TAdd ct fn ft l exact]) (evs ++ [EvAdd tn f cnt])
           (mkTs (ts_prims s) (dset tn p' (ts_custom s)) (ts_enums s) (ts_names s))).
      { intros p' (z & Z1 & Z2) Np. destruct Same as [A1 A2 A3 A4 A5 A6 A7 A8 A9 A10 A11 A12 A13].
        assert (Dt : dmem tn (ts_custom s) = true) by (apply dmem_dget; eauto).
        assert (Dd : forall x, dmem x (dset tn p' (ts_custom s)) = dmem x (ts_custom s)).
        { intros x. unfold dmem. rewrite dget_dset. destruct (eq_dec x tn) as [->|]; [|reflexivity]. rewrite Dc. reflexivity. }
        split; cbn [ts_prims ts_custom ts_names ts_enums]; try assumption.
        * intros x Hx. apply A5. rewrite <- Dd. exact Hx.
        * intros x Hx. apply A6. rewrite <- Dd. exact Hx.
        * intros x p. rewrite dget_dset. destruct (eq_dec x tn) as [->|]; [|apply A9]. intros H. injection H as <-. exact Np.
        * intros x. unfold ts_size_of, tally. cbn [ts_prims ts_custom]. rewrite fold_left_app. cbn [fold_left tally_step].
          fold (tally evs). rewrite <- (A10 tn), <- (A10 f), Z1.
          pose proof (A6 tn Dt) as Pt. unfold ts_size_of at 1. unfold dmem in Pt.
          destruct (dget tn (ts_prims s)) eqn:Ep; [discriminate|]. rewrite Dc. cbn [option_map].
          rewrite !dget_dset. rewrite <- A10. unfold ts_size_of.
          destruct (eq_dec x tn) as [->|]; [|reflexivity]. rewrite Ep. cbn [option_map]. rewrite Z2. reflexivity.
        * rewrite made_app. cbn. rewrite app_nil_r. exact A11.
        * intros x. rewrite made_app. cbn. rewrite app_nil_r. apply A12.
        * intros x. rewrite Dd, <- A13, in_app_iff. cbn. split; [intros [H|[H|[]]]; [exact H|discriminate]|auto]. }
      assert (Fld : forall k en p', pr_field valid (enum_fn s) (prim_fn s) custom fn k en l true = Some p' ->
        forall kd, kind_of (prim_fn s) k en = Some kd -> pr_size p' = pr_size custom + cnt * Z.of_nat (k_size kd) /\ q_chain p' <> [] /\ Forall n_inv (q_chain p')).
      { intros k en p' H kd Hk. rewrite pr_field_eq in H. destruct (add_name _ _ _); [|discriminate].
        destruct (enum_of _ _ _ _); [|discriminate]. rewrite Hk in H. injection H as <-. unfold pr_size. cbn [q_chain].
        rewrite c_add_size by exact Ne. cbn [p_kind]. rewrite Cn. split; [lia|]. split.
        - destruct (q_chain custom) as [|n0 c0]; [congruence|]. destruct c0; [destruct n0; discriminate|rewrite c_add_cons2; discriminate].
        - apply c_add_inv; [|exact Ni]. unfold p_ok. cbn. destruct kd; reflexivity || (vm_compute; intuition discriminate). }
      destruct (dget f (ts_enums s)) as [[e0 k0]|] eqn:Ee.
      + destruct (pr_field _ _ _ _ _ _ _ _ _) as [p'|] eqn:Ep; [|injection E as <- <-; rewrite app_nil_r; exact Same].
        cbn [option_map] in E. injection E as <- <-.
        destruct (ti_enum _ _ _ _ T f e0 k0 Ee) as [H|H]; [congruence|].
        destruct (Fld None (Some (inl f)) p' Ep k0) as [F1 F2].
        { cbn [kind_of]. unfold prim_fn. rewrite Ee. reflexivity. }
        apply Up; [|exact F2]. exists (Z.of_nat (k_size k0)). split; [|exact F1]. unfold ts_size_of. rewrite H. reflexivity.
      + destruct (dget f (ts_custom s)) as [inner|] eqn:Di.
        * destruct (pr_ser _ _ _ _ _) as [p'|] eqn:Ep; [|injection E as <- <-; rewrite app_nil_r; exact Same].
          cbn [option_map] in E. injection E as <- <-. unfold pr_ser in Ep.
          destruct (add_name _ _ _); [|discriminate]. injection Ep as <-. apply Up.
          -- exists (pr_size inner). split.
             ++ unfold ts_size_of. pose proof (ti_disj _ _ _ _ T f) as Dj. unfold dmem in Dj. rewrite Di in Dj.
                specialize (Dj eq_refl). destruct (dget f (ts_prims s)); [discriminate|]. rewrite Di. reflexivity.
             ++ unfold pr_size. cbn [q_chain c_add_to_end fst].
                assert (La : forall a b, c_length (a ++ b) = c_length a + c_length b).
                { induction a as [|x a IHa]; intros b; [reflexivity|]. cbn [app c_length]. rewrite IHa. lia. }
                destruct (ti_chain _ _ _ _ T _ _ Di) as [_ Ii].
                assert (Lc : forall a, Forall n_inv a -> c_length (c_copy a) = c_length a).
                { intros a Ha. apply (c_copy_stream true a Ha). }
                assert (Lt : forall m a, c_length (n_times m a) = Z.of_nat m * c_length a).
                { induction m as [|m IHm]; intros a; [reflexivity|]. cbn [n_times]. rewrite La, IHm. lia. }
                assert (L3 : c_length (c_copy (c_copy (c_copy (q_chain inner)))) = c_length (q_chain inner)).
                { rewrite !Lc; repeat apply c_copy_inv; auto. }
                rewrite !La, Lt, L3, Lc by exact Ii. fold (extra l). rewrite <- Cn, Nat2Z.inj_add. change (Z.of_nat 1) with 1. ring.
          -- cbn [q_chain c_add_to_end fst]. destruct (ti_chain _ _ _ _ T _ _ Di) as [_ Ii].
             split; [destruct (q_chain custom); [congruence|discriminate]|].
             apply Forall_app. split; [exact Ni|]. apply Forall_app.
             split; [apply c_copy_inv; exact Ii|]. apply n_times_forall. repeat apply c_copy_inv. exact Ii.
        * destruct (dget f (ts_prims s)) as [k0|] eqn:Dp; [|injection E as <- <-; rewrite app_nil_r; exact Same].
          destruct (pr_field _ _ _ _ _ _ _ _ _) as [p'|] eqn:Ep; [|injection E as <- <-; rewrite app_nil_r; exact Same].
          cbn [option_map] in E. injection E as <- <-.
          destruct (Fld (Some k0) None p' Ep k0 eq_refl) as [F1 F2].
          apply Up; [|exact F2]. exists (Z.of_nat (k_size k0)). split; [|exact F1]. unfold ts_size_of. rewrite Dp. reflexivity.
  Qed.

  Lemma run_TI aliases ops : forall done evs s s' e, TI aliases done evs s ->
    Forall (clear root aliases) ops -> (forall x, In x (enum_attempts root ops) -> In x aliases) ->
    ts_run s ops = (s', e) -> TI aliases (done ++ ops) (evs ++ e) s'.
  Proof.
    induction ops as [|o ops IH]; intros done evs s s' e T Cl Al E; cbn [TypeModel.ts_run] in E.
    - injection E as <- <-. rewrite !app_nil_r. exact T.
    - destruct (ts_step s o) as [s1 e1] eqn:E1. destruct (ts_run s1 ops) as [s2 e2] eqn:E2.
      injection E as <- <-. inversion Cl as [|? ? C1 C2]; subst.
      assert (T1 : TI aliases (done ++ [o]) (evs ++ e1) s1).
      { apply (step_TI aliases done evs s o s1 e1 T C1); [|exact E1].
        intros x Hx. apply Al. change (o :: ops) with ([o] ++ ops). unfold enum_attempts. rewrite flat_map_app.
        apply in_or_app. left. exact Hx. }
      pose proof (IH (done ++ [o]) (evs ++ e1) s1 s2 e2 T1 C2) as R. rewrite <- !app_assoc in R. apply R; [|exact E2].
      intros x Hx. apply Al. change (o :: ops) with ([o] ++ ops). unfold enum_attempts. rewrite flat_map_app.
      apply in_or_app. right. exact Hx.
  Qed.

  Lemma reach_TI ops s evs : unshadowed root ops -> ts_run ts_new ops = (s, evs) ->
    TI (enum_attempts root ops) ops evs s.
  Proof.
    intros U E. apply (run_TI (enum_attempts root ops) ops [] [] ts_new s evs); auto. apply new_TI.
  Qed.
End Types.
