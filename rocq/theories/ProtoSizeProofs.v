(** Proofs about protocols: sizes of imported protocols, later exports. *)
From Coq Require Import ZifyBool ZifyNat Lia.
From Verif Require Import Base BaseLemmas PrimModel PrimSpec PrimProofs StringModel ArrayModel
  ArraySpec ArrayProofs ChainModel RegistryModel EnumModel EnumSpec EnumProofs EnumProps FieldModel
  FieldSpec FieldProofs FieldExportProofs FieldProps ProtoModel ProtoSpec ProtoProofs ProtoBuildProofs
  ProtoReplayProofs ProtoSimProofs ProtoImportProofs ProtoRoundProofs.

Lemma c_add_size bo c p l : c <> [] ->
  c_length (c_add bo c p l) = c_length c + Z.of_nat (k_size (p_kind p)) * Z.of_nat (1 + extra l).
Proof.
  induction c as [|n c IH]; intros H; [congruence|]. destruct c as [|m c].
  - destruct n as [a|d|d]; cbn [c_add c_length n_size]; unfold a_add; cbn [a_size a_empty]; fold (extra l);
      unfold ArrayModel.p_size; nia.
  - rewrite c_add_cons2. cbn [c_length] in *. rewrite IH by discriminate. lia.
Qed.

Lemma c_put_size c ps v : c_length (c_put c ps v) = c_length c.
Proof.
  unfold c_put. destruct ps as [i e]. cbn [fst snd]. revert i.
  induction c as [|n c IH]; intros [|i]; cbn; [reflexivity|reflexivity| |].
  - f_equal. destruct n; reflexivity.
  - rewrite IH. reflexivity.
Qed.

(** The bytes of one build item; [ks] are the kinds of the bit-fields objects. *)
Definition isize (ks : list kind) (it : bitem) : Z :=
  match it with
  | BBits i => match nth_error ks i with Some k => Z.of_nat (k_size k) | None => 0 end
  | BSpec _ k _ l => Z.of_nat (k_size k) * Z.of_nat (1 + extra l)
  | BSer _ => 0
  end.
Definition isizes (ks : list kind) (l : list bitem) : Z := fold_right (fun it s => isize ks it + s) 0 l.

Lemma isizes_app ks l m : isizes ks (l ++ m) = isizes ks l + isizes ks m.
Proof. unfold isizes. induction l as [|it l IH]; cbn; [reflexivity|]. rewrite IH. lia. Qed.
Lemma isizes_ext ks ks' l : Forall (fun it => match it with BBits i => (i < List.length ks)%nat | _ => True end) l ->
  isizes (ks ++ ks') l = isizes ks l.
Proof.
  unfold isizes. induction 1 as [|it l H _ IH]; cbn [fold_right]; [reflexivity|]. rewrite IH. f_equal.
  destruct it; cbn; try reflexivity. rewrite nth_error_app1 by exact H. reflexivity.
Qed.
Lemma k_size_pos k : (1 <= k_size k)%nat.
Proof. destruct k; cbn; lia. Qed.

Definition len_ok (it : bitem) : Prop := match it with BSpec _ _ _ l => single l | _ => True end.

Lemma isizes_drop ks l :
  isizes ks (map (drop_len true) l) <= isizes ks l /\
  (isizes ks (map (drop_len true) l) = isizes ks l <-> Forall len_ok l).
Proof.
  unfold isizes. induction l as [|it l [IH1 IH2]]; cbn [map fold_right].
  - split; [lia|]. split; [constructor|reflexivity].
  - assert (A : isize ks (drop_len true it) <= isize ks it /\
                (isize ks (drop_len true it) = isize ks it <-> len_ok it)).
    { destruct it as [i|n k e m|n]; cbn [drop_len isize len_ok]; try (split; [lia|tauto]).
      pose proof (k_size_pos k). rewrite single_extra. change (extra None) with O. split; [nia|]. split; nia. }
    destruct A as [A1 A2]. split; [lia|]. split.
    + intros E. constructor; [apply A2; lia|apply IH2; lia].
    + intros F. inversion F; subst. rewrite (proj2 A2), (proj2 IH2) by assumption. reflexivity.
Qed.

Lemma r_claim_kind s w i s' x : r_claim s w i = Some (s', x) -> r_kind s' = r_kind s.
Proof. intros H. apply (claim_keeps s w i s' x H). Qed.

Lemma load_items_kind l : forall s s', k_value (r_kind s) (r_raw s) -> load_items s l = Some s' ->
  r_kind s' = r_kind s.
Proof.
  induction l as [|j l IH]; intros s s' V H; cbn in H; [congruence|].
  destruct (load_item s j) as [s1|] eqn:E; [|discriminate].
  destruct (load_item_value s j s1 V E) as [K V1]. rewrite (IH s1 s' V1 H). exact K.
Qed.
Lemma import_kind word d s : r_import word d = Some s -> r_kind s = jr_kind d.
Proof.
  unfold r_import. destruct (schema_ok word d); [|discriminate].
  destruct (load_items _ _) as [s1|] eqn:E; [|discriminate]. intros H. injection H as <-. cbn.
  rewrite (load_items_kind _ (r_new (jr_kind d)) _ (zero_value _) E). reflexivity.
Qed.

Section Proto.
  Context (valid word : string -> bool) (int_of : string -> option Z)
          (bool_of : string -> option bool) (enums : ekey -> option renum)
          (eprim : ekey -> kind) (native_le : bool).

  Notation pr_field := (pr_field valid enums eprim).
  Notation pr_place := (pr_place valid enums).
  Notation build_item := (build_item valid enums eprim).
  Notation build_all := (build_all valid enums eprim).
  Notation pr_init := (pr_init valid enums eprim).
  Notation pr_step := (pr_step valid int_of bool_of enums eprim native_le).
  Notation pr_run := (pr_run valid int_of bool_of enums eprim native_le).
  Notation pr_set := (pr_set int_of bool_of).
  Notation set_all := (set_all int_of bool_of).
  Notation pr_import := (pr_import valid word int_of bool_of enums eprim).
  Notation PI := (PI enums).

  Definition kinds (p : proto) : list kind := map (fun b => r_kind (b_regs b)) (q_bits p).

  (** Everything of a protocol without serializables is one of its items. *)
  Record ZI (ops : list pop) (p : proto) : Prop := {
    zi_arr : all_arrays (q_chain p);
    zi_size : pr_size p = isizes (kinds p) (q_build p);
    zi_idx : Forall (fun it => match it with BBits i => (i < List.length (kinds p))%nat | _ => True end) (q_build p);
    zi_ser : Forall (fun it => match it with BSer _ => False | _ => True end) (q_build p);
    zi_len : Forall len_ok (q_build p) <-> Forall one_element ops;
    zi_bits : Forall (fun b => exists k, r_kind (b_regs b) = k) (q_bits p)
  }.

  Lemma new_ZI id bo : ZI [] (pr_new id bo).
  Proof.
    split; cbn; try constructor; eauto; try constructor; try reflexivity.
  Qed.

  Lemma from_stream_size c d : all_arrays c ->
    c_length (fst (c_from_stream native_le c d)) = c_length c.
  Proof. intros A. symmetry. apply sh_size; [apply from_stream_sh|exact A]. Qed.

  Lemma step_ZI ops p o p' : PI p -> ZI ops p -> no_ser o -> pr_step p o = Some p' -> ZI (ops ++ [o]) p'.
  Proof.
    intros HP [A1 A2 A3 A4 A5 A6] N E.
    assert (NE : forall q, q_build q = q_build p -> (match o with PField _ _ _ _ => False | _ => True end) ->
              (Forall len_ok (q_build q) <-> Forall one_element (ops ++ [o]))).
    { intros q -> No. rewrite A5, Forall_app. split; [|tauto]. intros F. split; [exact F|]. constructor; [|constructor].
      destruct o; cbn; auto; contradiction. }
    destruct o as [n k e l|k rops|n c l|n v|d]; cbn [ProtoModel.pr_step no_ser] in E, N.
    - rewrite pr_field_eq in E. destruct (add_name _ (q_names p) n) as [ns|]; [|discriminate].
      destruct (enum_of _ _ _ _); [|discriminate]. destruct (kind_of _ k e) as [kd|]; [|discriminate].
      injection E as <-. split; cbn [q_chain q_build q_bits].
      + apply c_add_arrays. exact A1.
      + unfold pr_size in *. cbn [q_chain]. rewrite c_add_size by apply (pi_ne _ _ HP). rewrite isizes_app, A2.
        cbn [isizes fold_right isize p_kind]. unfold kinds. cbn [q_bits]. lia.
      + apply Forall_app. split; [exact A3|]. repeat constructor.
      + apply Forall_app. split; [exact A4|]. repeat constructor.
      + rewrite !Forall_app, A5. split; intros [F1 F2]; (split; [exact F1|]); inversion F2; subst; constructor; auto.
      + exact A6.
    - rewrite pr_bits_eq in E. set (r := fst (r_run _ _ rops)) in *.
      destruct (g_add _ _ _ _ _ _) as [[ns g]|]; [|discriminate]. injection E as <-.
      assert (Kp : forall a b c d e f g h, kinds (mkProto a b c d (q_bits p ++ [mkB (r_finalize r) (Some (end_pos (q_chain p)))]) e f g h (q_ser p)) = kinds p ++ [r_kind r]).
      { intros. unfold kinds. cbn. rewrite map_app. reflexivity. }
      assert (Lk : List.length (g_fields (q_mgr p)) = List.length (kinds p)).
      { rewrite (pi_gf _ _ HP), seq_length. unfold kinds. rewrite map_length. reflexivity. }
      split.
      + cbn. apply c_add_arrays. exact A1.
      + rewrite Kp. unfold pr_size in *. cbn [q_chain q_build]. rewrite c_add_size by apply (pi_ne _ _ HP).
        rewrite isizes_app, isizes_ext by exact A3. rewrite A2. cbn [isizes fold_right isize p_kind].
        rewrite Lk, nth_error_app2, Nat.sub_diag by lia. cbn. lia.
      + rewrite Kp. cbn [q_build]. rewrite app_length. apply Forall_app. split.
        * eapply Forall_impl; [|exact A3]. intros [i| |]; cbn; auto. lia.
        * constructor; [|constructor]. cbn. lia.
      + cbn. apply Forall_app. split; [exact A4|]. repeat constructor.
      + cbn. rewrite !Forall_app, A5. split; intros [F1 F2]; (split; [exact F1|]); repeat constructor.
      + cbn. apply Forall_app. split; [exact A6|]. constructor; [eauto|constructor].
    - contradiction.
    - injection E as <-. destruct (pr_set p n v) as [p1|] eqn:Es.
      + destruct (set_chain _ _ _ _ _ _ Es) as [->|(ps & z & ->)].
        * split; auto.
        * split; [|unfold pr_size in *; cbn [with_chain q_chain]; rewrite c_put_size; exact A2|exact A3|exact A4
                  |apply NE; [reflexivity|exact I]|exact A6].
          eapply sh_arrays; [apply c_put_sh|exact A1].
      + split; auto.
    - injection E as <-.
      split; [|unfold pr_size in *; cbn [with_chain q_chain]; rewrite from_stream_size by exact A1; exact A2|exact A3|exact A4
              |apply NE; [reflexivity|exact I]|exact A6].
      eapply sh_arrays; [apply from_stream_sh|exact A1].
  Qed.

  Lemma run_ZI ops : forall done p p', PI p -> ZI done p -> Forall no_ser ops -> pr_run p ops = Some p' ->
    ZI (done ++ ops) p'.
  Proof.
    induction ops as [|o ops IH]; intros done p p' HP Z N E; cbn [ProtoModel.pr_run] in E.
    - injection E as <-. rewrite app_nil_r. exact Z.
    - destruct (pr_step p o) as [p1|] eqn:E1; [|discriminate]. inversion N; subst.
      replace (done ++ o :: ops) with ((done ++ [o]) ++ ops) by (rewrite <- app_assoc; reflexivity).
      eapply IH; [eapply step_PI; eassumption| |assumption|exact E]. eapply step_ZI; eassumption.
  Qed.

  (** ** Building *)
  (** A state of the building: the objects are [ks], the first of the manager's
      entries are their numbers. *)
  Definition BI (ks : list kind) (q : proto) : Prop :=
    q_chain q <> [] /\ all_arrays (q_chain q) /\ kinds q = ks /\ q_build q = [] /\
    exists t, g_fields (q_mgr q) = seq 0 (List.length ks) ++ t.

  Lemma cur_kind c b : r_kind (cur_regs c b) = r_kind (b_regs b).
  Proof. unfold cur_regs. destruct (b_pos b) as [ps|]; [destruct (c_get c ps)|]; reflexivity. Qed.

  Lemma map_upd {A B} (g : A -> B) f l : (forall x, g (f x) = g x) -> forall i, map g (upd i f l) = map g l.
  Proof. intros H. induction l as [|x l IH]; intros [|i]; cbn; congruence. Qed.

  Lemma build_size l : forall ks q sers q' sers', BI ks q ->
    Forall (fun it => match it with BBits i => (i < List.length ks)%nat | BSer _ => False | _ => True end) l ->
    build_all (q, sers) l = Some (q', sers') ->
    BI ks q' /\ pr_size q' = pr_size q + isizes ks l.
  Proof.
    induction l as [|it l IH]; intros ks q sers q' sers' B F E; cbn [ProtoModel.build_all] in E.
    - injection E as <- <-. cbn. split; [exact B|lia].
    - destruct (build_item (q, sers) it) as [[q1 s1]|] eqn:E1; [|discriminate].
      inversion F as [|? ? Fi F']; subst.
      assert (Bi : BI ks q1 /\ pr_size q1 = pr_size q + isize ks it).
      { destruct B as (B1 & B2 & B3 & B4 & t & B5).
        destruct it as [i|n k e m|n]; cbn [ProtoModel.build_item] in E1; [| |contradiction].
        - rewrite B5, nth_error_app1 in E1 by (rewrite seq_length; exact Fi).
          rewrite (nth_error_nth' _ 0%nat), seq_nth in E1 by (try rewrite seq_length; exact Fi).
          cbn [Nat.add] in E1. unfold ProtoModel.pr_place in E1.
          destruct (nth_error (q_bits q) i) as [b|] eqn:Eb; [|discriminate].
          destruct (g_add _ _ _ _ _ _) as [[ns g]|] eqn:Eg; [|discriminate]. cbn in E1. injection E1 as <- <-.
          split.
          + split; [cbn; apply c_add_ne; exact B1|]. split; [cbn; apply c_add_arrays; exact B2|]. split; [|split].
            * unfold kinds. cbn. rewrite map_upd; [exact B3|reflexivity].
            * cbn. rewrite B4. reflexivity.
            * cbn. unfold g_add in Eg. destruct (add_fields _ _ _ _ _ _ _) as [[[? ?] ?]|]; [|discriminate].
              injection Eg as <- <-. cbn. exists (t ++ [i]). rewrite B5, <- app_assoc. reflexivity.
          + unfold pr_size. cbn [q_chain]. rewrite c_add_size by exact B1. cbn [p_kind isize].
            rewrite <- B3. unfold kinds. rewrite nth_error_map, Eb. cbn [option_map].
            rewrite cur_kind. cbn. lia.
        - rewrite pr_field_eq in E1. destruct (add_name _ (q_names q) n) as [ns|]; [|discriminate].
          destruct (enum_of _ _ _ _); [|discriminate]. cbn [kind_of option_map] in E1. injection E1 as <- <-.
          split.
          + split; [cbn; apply c_add_ne; exact B1|]. split; [cbn; apply c_add_arrays; exact B2|]. split; [exact B3|].
            split; [cbn; rewrite B4; reflexivity|]. exists t. exact B5.
          + unfold pr_size. cbn [q_chain]. rewrite c_add_size by exact B1. reflexivity. }
      destruct Bi as [Bi Si]. destruct (IH ks q1 s1 q' sers' Bi F' E) as [Bf Sf]. split; [exact Bf|].
      cbn. fold (isizes ks l). lia.
  Qed.

  Lemma g_load_fields rs : forall names g i ns g', g_load valid enums names g i rs = Some (ns, g') ->
    g_fields g' = g_fields g ++ seq i (List.length rs).
  Proof.
    induction rs as [|r rs IH]; intros names g i ns g' H; cbn in H.
    - injection H as <- <-. cbn. rewrite app_nil_r. reflexivity.
    - unfold g_add in H. destruct (add_fields _ _ _ _ _ _ _) as [[[? ?] ?]|]; [|discriminate].
      apply IH in H. cbn in H. rewrite H, <- app_assoc. reflexivity.
  Qed.

  Lemma init_size names rs build id bo sers q :
    Forall (fun it => match it with BBits i => (i < List.length rs)%nat | BSer _ => False | _ => True end) build ->
    pr_init names rs build id bo sers = Some q ->
    BI (map r_kind rs) q /\ pr_size q = isizes (map r_kind rs) build.
  Proof.
    intros F E. unfold ProtoModel.pr_init in E.
    destruct (g_load _ _ _ _ _ _) as [[ns g]|] eqn:Eg; [|discriminate].
    apply g_load_fields in Eg. cbn in Eg.
    destruct (build_all _ _) as [[q' [|x y]]|] eqn:Eb; try discriminate. injection E as <-.
    apply (build_size build (map r_kind rs)) in Eb.
    - destruct Eb as [B S]. split; [exact B|]. cbn in S. lia.
    - split; [discriminate|]. split; [constructor; [eauto|constructor]|]. split; [|split; [reflexivity|]].
      + unfold kinds. cbn. rewrite map_map. reflexivity.
      + exists []. cbn. rewrite map_length, app_nil_r. exact Eg.
    - rewrite map_length. exact F.
  Qed.

  Lemma set_all_size l : forall a b, set_all a l = Some b ->
    pr_size b = pr_size a /\ q_build b = q_build a /\ q_id b = q_id a /\ q_order b = q_order a /\
    q_reg b = q_reg a /\ q_ser b = q_ser a /\ q_mgr b = q_mgr a.
  Proof.
    induction l as [|[n v] l IH]; intros a b H; cbn [ProtoModel.set_all] in H; [injection H as <-; auto 10|].
    destruct (pr_set a n v) as [a1|] eqn:Ea; [|discriminate]. apply IH in H.
    destruct H as (H1 & H2 & H3 & H4 & H5 & H6 & H7). rewrite H1, H2, H3, H4, H5, H6, H7.
    destruct (set_chain _ _ _ _ _ _ Ea) as [->|(ps & z & ->)]; [auto 10|].
    unfold pr_size. cbn. rewrite c_put_size. auto 10.
  Qed.

  Lemma all_some_Forall2 {A B} (f : A -> option B) l m : all_some f l = Some m ->
    Forall2 (fun x y => f x = Some y) l m.
  Proof.
    revert m. induction l as [|a l IH]; intros m H; cbn in H; [injection H as <-; constructor|].
    destruct (f a) eqn:E; [|discriminate]. destruct (all_some f l); [|discriminate]. injection H as <-.
    constructor; auto.
  Qed.

  Lemma parse_some l m : all_some parse_item l = Some m ->
    m = map (drop_len true) l /\ Forall (fun it => match it with BSer _ => False | _ => True end) l.
  Proof.
    intros H. apply all_some_Forall2 in H. induction H as [|a b l m E H [-> IH]]; [split; constructor|].
    destruct a; cbn in E; try discriminate; injection E as <-; split; try reflexivity; constructor; auto.
  Qed.

  (** The size of an imported protocol. *)
  Lemma import_size ops p resolve j q : PI p -> ZI ops p ->
    pr_export p resolve = Some j -> pr_import j = Some q ->
    pr_size q <= pr_size p /\ (pr_size q = pr_size p <-> Forall one_element ops).
  Proof.
    intros HP Z X I. unfold pr_export in X. rewrite (mgr_regs_all enums p HP) in X.
    destruct (all_some _ (dkeys (g_lookup (q_mgr p)))) as [v1|]; [|discriminate].
    destruct (all_some _ (dkeys (q_reg p))) as [v2|]; [|discriminate]. injection X as <-.
    unfold ProtoModel.pr_import in I. destruct (forallb _ _); [|discriminate].
    cbn [jp_fields jp_build jp_names jp_id jp_order jp_values] in I.
    rewrite !all_some_map in I. destruct (all_some _ (q_bits p)) as [rs|] eqn:Er; [|discriminate].
    destruct (all_some parse_item (q_build p)) as [build|] eqn:Eb; [|discriminate].
    apply parse_some in Eb as [-> Ns].
    destruct (pr_init _ _ _ _ _ _) as [q0|] eqn:E0; [|discriminate].
    apply set_all_size in I as (S1 & _). rewrite S1.
    assert (Kr : map r_kind rs = kinds p).
    { apply all_some_Forall2 in Er. unfold kinds. clear - Er. induction Er as [|b r l m E H IH]; [reflexivity|].
      cbn. rewrite IH. f_equal. rewrite (import_kind _ _ _ E). cbn. apply cur_kind. }
    apply init_size in E0 as [_ S0].
    - rewrite S0, Kr, (zi_size _ _ Z). destruct (isizes_drop (kinds p) (q_build p)) as [D1 D2].
      split; [exact D1|]. rewrite D2. apply (zi_len _ _ Z).
    - rewrite Forall_map. pose proof (zi_idx _ _ Z) as Ix. rewrite <- Kr, map_length in Ix.
      clear - Ix Ns. induction Ix; inversion Ns; subst; constructor; auto. destruct x; auto.
  Qed.

  (** ** A protocol that was built has no build items *)
  Lemma build_all_build l : forall s q rem, build_all s l = Some (q, rem) ->
    q_build (fst s) = [] -> Forall (fun it => match it with BSer _ => False | _ => True end) l -> q_build q = [].
  Proof.
    induction l as [|it l IH]; intros [a sers] q rem H B N; cbn [ProtoModel.build_all] in H.
    - injection H as <- <-. exact B.
    - destruct (build_item (a, sers) it) as [[a1 s1]|] eqn:E; [|discriminate]. inversion N; subst.
      eapply IH; [exact H| |assumption]. cbn [fst] in *.
      destruct it as [i|n k e m|n]; cbn [ProtoModel.build_item] in E; [| |contradiction].
      + destruct (nth_error _ i) as [o|]; [|discriminate]. unfold ProtoModel.pr_place in E.
        destruct (nth_error (q_bits a) o) as [b|]; [|discriminate].
        destruct (g_add _ _ _ _ _ _) as [[ns g]|]; [|discriminate]. cbn in E. injection E as <- <-. cbn.
        rewrite B. reflexivity.
      + rewrite pr_field_eq in E. destruct (add_name _ (q_names a) n) as [ns|]; [|discriminate].
        destruct (enum_of _ _ _ _); [|discriminate]. cbn in E. injection E as <- <-. cbn. rewrite B. reflexivity.
  Qed.

  Lemma import_build j q : pr_import j = Some q -> q_build q = [].
  Proof.
    unfold ProtoModel.pr_import. destruct (forallb _ _); [|discriminate].
    destruct (all_some _ (jp_fields j)) as [rs|]; [|discriminate].
    destruct (all_some parse_item (jp_build j)) as [build|] eqn:Eb; [|discriminate].
    apply parse_some in Eb as [-> Ns].
    destruct (pr_init _ _ _ _ _ _) as [q0|] eqn:E0; [|discriminate]. intros H.
    apply set_all_size in H as (_ & -> & _). unfold ProtoModel.pr_init in E0.
    destruct (g_load _ _ _ _ _ _) as [[ns g]|]; [|discriminate].
    destruct (build_all _ _) as [[q' [|x y]]|] eqn:E; try discriminate. injection E0 as <-.
    eapply build_all_build; [exact E|reflexivity|].
    rewrite Forall_map. eapply Forall_impl; [|exact Ns]. intros [i|n k e m|n]; cbn; auto.
  Qed.

  (** Exporting a protocol without build items: the import has no bytes. *)
  Lemma no_build_import p resolve j q : q_build p = [] ->
    pr_export p resolve = Some j -> pr_import j = Some q -> pr_size q = 0 /\ q_reg q = [].
  Proof.
    intros B X I. unfold pr_export in X.
    destruct (mgr_regs p) as [rs0|]; [|discriminate].
    destruct (all_some _ (dkeys (g_lookup (q_mgr p)))) as [v1|] eqn:E1; [|discriminate].
    destruct (all_some _ (dkeys (q_reg p))) as [v2|] eqn:E2; [|discriminate]. injection X as <-.
    unfold ProtoModel.pr_import in I. destruct (forallb _ _); [|discriminate].
    cbn [jp_fields jp_build jp_names jp_id jp_order jp_values] in I.
    destruct (all_some _ (map r_asdict rs0)) as [rs|]; [|discriminate].
    rewrite B in I. cbn [all_some] in I.
    destruct (pr_init _ _ _ _ _ _) as [q0|] eqn:E0; [|discriminate].
    assert (R0 : q_reg q0 = []).
    { unfold ProtoModel.pr_init in E0. destruct (g_load _ _ _ _ _ _) as [[ns g]|]; [|discriminate].
      cbn in E0. injection E0 as <-. auto. }
    apply init_size in E0 as [_ S0]; [|constructor].
    pose proof (set_all_size _ _ _ I) as (S1 & _ & _ & _ & S2 & _). rewrite S1, S0, S2, R0. auto.
  Qed.

  (** Serializables stay among the build items. *)
  Lemma step_ser p o p' : pr_step p o = Some p' ->
    (forall n, In (BSer n) (q_build p) -> In (BSer n) (q_build p')) /\
    (forall n c l, o = PSer n c l -> In (BSer n) (q_build p')).
  Proof.
    intros E. destruct o as [n k e l|k rops|n c l|n v|d]; cbn [ProtoModel.pr_step] in E.
    - rewrite pr_field_eq in E. destruct (add_name _ (q_names p) n) as [ns|]; [|discriminate].
      destruct (enum_of _ _ _ _); [|discriminate]. destruct (kind_of _ k e) as [kd|]; [|discriminate].
      injection E as <-. cbn. split; [|discriminate]. intros m H. apply in_or_app. auto.
    - rewrite pr_bits_eq in E. destruct (g_add _ _ _ _ _ _) as [[ns g]|]; [|discriminate]. injection E as <-.
      cbn. split; [|discriminate]. intros m H. apply in_or_app. auto.
    - unfold pr_ser in E. destruct (add_name _ _ _); [|discriminate]. injection E as <-. cbn. split.
      + intros m H. apply in_or_app. auto.
      + intros m c' l' H. injection H as -> _ _. apply in_or_app. right. left. reflexivity.
    - injection E as <-. split; [|discriminate]. destruct (pr_set p n v) as [p1|] eqn:Es; [|auto].
      destruct (set_chain _ _ _ _ _ _ Es) as [->|(ps & z & ->)]; auto.
    - injection E as <-. split; [auto|discriminate].
  Qed.
  Lemma run_ser ops : forall p p', pr_run p ops = Some p' ->
    (forall n, In (BSer n) (q_build p) -> In (BSer n) (q_build p')) /\
    (forall n, In n (ser_names ops) -> In (BSer n) (q_build p')).
  Proof.
    induction ops as [|o ops IH]; intros p p' E; cbn [ProtoModel.pr_run] in E.
    - injection E as <-. split; [auto|intros n []].
    - destruct (pr_step p o) as [p1|] eqn:E1; [|discriminate]. destruct (IH p1 p' E) as [I1 I2].
      destruct (step_ser p o p1 E1) as [S1 S2]. split; [auto|]. intros n H.
      apply in_app_or in H as [H|H]; [|auto]. destruct o; cbn in H; try contradiction. destruct H as [->|[]].
      apply I1. eapply S2. reflexivity.
  Qed.
  Lemma ser_import p resolve j n : In (BSer n) (q_build p) -> pr_export p resolve = Some j ->
    pr_import j = None.
  Proof.
    intros H X. unfold pr_export in X.
    destruct (mgr_regs p) as [rs0|]; [|discriminate].
    destruct (all_some _ (dkeys (g_lookup (q_mgr p)))) as [v1|] eqn:E1; [|discriminate].
    destruct (all_some _ (dkeys (q_reg p))) as [v2|] eqn:E2; [|discriminate]. injection X as <-.
    unfold ProtoModel.pr_import. destruct (forallb _ _); [|reflexivity].
    cbn [jp_build jp_fields]. destruct (all_some (r_import word) _) as [rs|]; [|reflexivity].
    destruct (all_some parse_item (q_build p)) as [b|] eqn:E; [|reflexivity].
    apply parse_some in E as [_ N]. rewrite Forall_forall in N. destruct (N _ H).
  Qed.
End Proto.
