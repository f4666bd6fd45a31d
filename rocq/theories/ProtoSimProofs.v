(** Proofs about protocols: two protocols that behave the same. *)
From Coq Require Import ZifyBool ZifyNat Lia.
From Verif Require Import Base BaseLemmas PrimModel PrimSpec PrimProofs StringModel ArrayModel
  ArraySpec ArrayProofs ChainModel RegistryModel EnumModel FieldModel FieldSpec FieldProofs
  FieldExportProofs ProtoModel ProtoProofs ProtoBuildProofs ProtoReplayProofs.

#[local] Opaque strip.

Lemma strip_same f g : strip f = strip g ->
  fl_index f = fl_index g /\ fl_width f = fl_width g /\ fl_enum f = fl_enum g.
Proof.
  intros H. split; [|split].
  - change (fl_index (strip f) = fl_index (strip g)). congruence.
  - change (fl_width (strip f) = fl_width (strip g)). congruence.
  - apply strip_enum. exact H.
Qed.

Section Proto.
  Context (valid : string -> bool) (int_of : string -> option Z)
          (bool_of : string -> option bool) (enums : ekey -> option renum)
          (eprim : ekey -> kind) (native_le : bool).

  Notation add_name := (add_name valid).
  Notation g_add := (g_add valid enums).
  Notation pr_field := (pr_field valid enums eprim).
  Notation pr_bits := (pr_bits valid enums).
  Notation pr_ser := (pr_ser valid).
  Notation pr_step := (pr_step valid int_of bool_of enums eprim native_le).
  Notation pr_run := (pr_run valid int_of bool_of enums eprim native_le).
  Notation pr_set := (pr_set int_of bool_of).
  Notation g_set := (g_set int_of bool_of).
  Notation g_value := (g_value int_of bool_of).
  Notation PI := (PI enums).

  Definition bsame (b c : bobj) : Prop := b_pos b = b_pos c /\ brel (b_regs b) (b_regs c).

  (** [q] has the extra objects' entries [0..K) in its manager. *)
  Record Sim (K : nat) (p q : proto) : Prop := {
    sm_order : q_order p = q_order q;
    sm_chain : q_chain p = q_chain q;
    sm_reg : q_reg p = q_reg q;
    sm_enum : q_enum p = q_enum q;
    sm_ser : q_ser p = q_ser q;
    sm_names : forall n, smem n (q_names p) = smem n (q_names q);
    sm_bits : Forall2 bsame (q_bits p) (q_bits q);
    sm_gf : g_fields (q_mgr q) = seq 0 K ++ g_fields (q_mgr p);
    sm_lk : forall n, dget n (g_lookup (q_mgr q)) =
              option_map (fun i => (K + i)%nat) (dget n (g_lookup (q_mgr p)));
    sm_en : forall n, dget n (g_enum (q_mgr q)) = dget n (g_enum (q_mgr p))
  }.

  Lemma bits_nth p q : Forall2 bsame p q -> forall i,
    match nth_error p i, nth_error q i with
    | Some b, Some c => bsame b c | None, None => True | _, _ => False end.
  Proof. induction 1; intros [|i]; cbn; auto. apply IHForall2. Qed.

  (** The object and field of a name, as far as they matter. *)
  Definition fsame (x y : option (bobj * field)) : Prop :=
    match x, y with
    | Some (b, f), Some (c, g) => bsame b c /\ strip f = strip g
    | None, None => True
    | _, _ => False
    end.

  Lemma sim_find K p q n : Sim K p q -> fsame (g_find p n) (g_find q n).
  Proof.
    intros S. unfold g_find. rewrite (sm_lk _ _ _ S). 
    destruct (dget n (g_lookup (q_mgr p))) as [i|]; cbn [option_map]; [|exact I].
    rewrite (sm_gf _ _ _ S), nth_error_app2, seq_length by (rewrite seq_length; lia).
    replace (K + i - K)%nat with i by lia.
    destruct (nth_error (g_fields (q_mgr p)) i) as [h|]; [|exact I].
    pose proof (bits_nth _ _ (sm_bits _ _ _ S) h) as B.
    destruct (nth_error (q_bits p) h) as [b|], (nth_error (q_bits q) h) as [c|]; try tauto.
    destruct B as (B1 & B2 & B3). pose proof (sfs_dget _ _ n B3) as D.
    destruct (dget n (r_fields (b_regs b))), (dget n (r_fields (b_regs c))); cbn in *; try discriminate; [|exact I].
    split; [|congruence]. split; [exact B1|]. split; assumption.
  Qed.

  Lemma find_in p n b f : g_find p n = Some (b, f) -> exists i, nth_error (q_bits p) i = Some b.
  Proof.
    unfold g_find. destruct (dget n (g_lookup (q_mgr p))) as [i|]; [|discriminate].
    destruct (nth_error (g_fields (q_mgr p)) i) as [h|]; [|discriminate].
    destruct (nth_error (q_bits p) h) as [c|] eqn:E; [|discriminate].
    destruct (dget n (r_fields (b_regs c))); [|discriminate]. intros H. injection H as <- <-. eauto.
  Qed.

  Lemma sim_cur K p q n b f c g : PI p -> Sim K p q ->
    g_find p n = Some (b, f) -> bsame b c -> strip f = strip g ->
    exists ps x, b_pos b = Some ps /\ b_pos c = Some ps /\ c_get (q_chain p) ps = Some x /\
      p_kind x = r_kind (b_regs b) /\
      cur_regs (q_chain p) b = with_raw (b_regs b) (p_val x) /\
      cur_regs (q_chain q) c = with_raw (b_regs c) (p_val x).
  Proof.
    intros HP S F (B1 & B2 & B3) _. destruct (find_in _ _ _ _ F) as [i Hi].
    destruct (pi_bits _ _ HP i b Hi) as (ps & x & E1 & E2 & E3). exists ps, x.
    unfold cur_regs. rewrite <- (sm_chain _ _ _ S), <- B1, E1, E2. auto 8.
  Qed.

  Lemma sim_get K p q n res : PI p -> Sim K p q -> g_get p n res = g_get q n res.
  Proof.
    intros HP S. pose proof (sim_find K p q n S) as F. unfold g_get.
    destruct (g_find p n) as [[b f]|] eqn:E1, (g_find q n) as [[c g]|] eqn:E2; try contradiction; [|reflexivity].
    destruct F as [B Sf].
    destruct (sim_cur K p q n b f c g HP S E1 B Sf) as (ps & x & P1 & P2 & G & Kx & C1 & C2).
    rewrite C1, C2. cbn [with_raw r_raw]. destruct (strip_same f g Sf) as (I1 & I2 & I3).
    rewrite <- I1, <- I2, <- I3, (sm_en _ _ _ S). reflexivity.
  Qed.

  Lemma sim_value K p q n : PI p -> Sim K p q -> pr_value p n = pr_value q n.
  Proof.
    intros HP S. unfold pr_value. rewrite <- (sm_reg _ _ _ S), <- (sm_chain _ _ _ S), <- (sm_enum _ _ _ S).
    rewrite (sim_get K p q n true HP S). reflexivity.
  Qed.

  Definition orel (R : proto -> proto -> Prop) (x y : option proto) : Prop :=
    match x, y with Some p, Some q => R p q | None, None => True | _, _ => False end.

  Lemma sim_chain K p q c : Sim K p q -> Sim K (with_chain p c) (with_chain q c).
  Proof. intros [S1 S2 S3 S4 S5 S6 S7 S8 S9 S10]. split; cbn; auto. Qed.

  Lemma sim_set K p q n v : PI p -> Sim K p q -> orel (Sim K) (pr_set p n v) (pr_set q n v).
  Proof.
    intros HP S. unfold ProtoModel.pr_set.
    rewrite <- (sm_reg _ _ _ S), <- (sm_enum _ _ _ S), <- (sm_chain _ _ _ S).
    destruct (dget n (q_reg p)) as [ps|].
    - match goal with |- orel _ (option_map _ ?y) _ => destruct y as [z|] end; cbn [option_map orel]; [|exact I].
      apply sim_chain. exact S.
    - unfold ProtoModel.g_set. pose proof (sim_find K p q n S) as F.
      assert (g_value q n v = g_value p n v) as ->.
      { unfold ProtoModel.g_value. destruct v; try reflexivity. rewrite (sm_en _ _ _ S). reflexivity. }
      destruct (g_find p n) as [[b f]|] eqn:E1, (g_find q n) as [[c g]|] eqn:E2; try contradiction;
        [|exact I].
      destruct (g_value p n v) as [z|]; [|exact I]. destruct F as [B Sf].
      destruct (sim_cur K p q n b f c g HP S E1 B Sf) as (ps & x & P1 & P2 & G & Kx & C1 & C2).
      rewrite P1, P2. rewrite <- (sm_chain _ _ _ S) in *. rewrite C1, C2. cbn [with_raw r_raw r_kind].
      destruct (strip_same f g Sf) as (I1 & I2 & I3). destruct B as (_ & Bk & _).
      rewrite <- I1, <- I2, <- Bk. cbn [orel].
      apply sim_chain. exact S.
  Qed.

  Lemma smem_names_add l m n : (forall x, smem x l = smem x m) ->
    match add_name l n, add_name m n with
    | Some l', Some m' => forall x, smem x l' = smem x m'
    | None, None => True | _, _ => False end.
  Proof.
    intros H. unfold ProtoModel.add_name. rewrite <- (H n). destruct (smem n l); [exact H|].
    destruct (valid n); [|exact I]. intros x. rewrite !smem_app, H. reflexivity.
  Qed.

  Lemma add_fields_sim fs K idx : forall names lk en names' lk' en',
    (forall x, smem x names = smem x names') ->
    (forall n, dget n lk' = option_map (fun i => (K + i)%nat) (dget n lk)) ->
    (forall n, dget n en' = dget n en) ->
    match add_fields valid enums names lk en idx fs, add_fields valid enums names' lk' en' (K + idx) fs with
    | Some (a, b, c), Some (a', b', c') =>
        (forall x, smem x a = smem x a') /\
        (forall n, dget n b' = option_map (fun i => (K + i)%nat) (dget n b)) /\
        (forall n, dget n c' = dget n c)
    | None, None => True | _, _ => False end.
  Proof.
    induction fs as [|[n f] fs IH]; intros names lk en names' lk' en' H1 H2 H3; cbn [add_fields]; [auto|].
    pose proof (smem_names_add names names' n H1) as A.
    destruct (add_name names n) as [ns|], (add_name names' n) as [ns'|]; try contradiction; [|exact I].
    assert (H2' : forall m, dget m (dset n (K + idx)%nat lk') = option_map (fun i => (K + i)%nat) (dget m (dset n idx lk))).
    { intros m. rewrite !dget_dset. destruct (eq_dec m n); [reflexivity|apply H2]. }
    destruct (fl_enum f) as [k|]; [destruct (enums k) as [e|]; [|exact I]|].
    - apply IH; [exact A|exact H2'|]. intros m. rewrite !dget_dset. destruct (eq_dec m n); [reflexivity|apply H3].
    - apply IH; assumption.
  Qed.

  Lemma sim_step K p q o : PI p -> Sim K p q -> orel (Sim K) (pr_step p o) (pr_step q o).
  Proof.
    intros HP S. destruct o as [n k e l|k ops|n c l|n v|d]; cbn [ProtoModel.pr_step].
    - rewrite !pr_field_eq. pose proof (smem_names_add _ _ n (sm_names _ _ _ S)) as A.
      rewrite <- (sm_enum _ _ _ S).
      destruct (add_name (q_names p) n) as [ns|], (add_name (q_names q) n) as [ns'|]; try contradiction; [|exact I].
      destruct (enum_of _ _ _ _); [|exact I]. destruct (kind_of _ _ _); [|exact I]. cbn [orel].
      destruct S as [S1 S2 S3 S4 S5 S6 S7 S8 S9 S10]. split; cbn; auto; congruence.
    - rewrite !pr_bits_eq. set (r := fst (r_run _ _ ops)).
      assert (Lb : List.length (q_bits p) = List.length (q_bits q)).
      { pose proof (sm_bits _ _ _ S) as B. clear - B. induction B; cbn; congruence. }
      unfold ProtoModel.g_add. rewrite (sm_gf _ _ _ S), app_length, seq_length.
      pose proof (add_fields_sim (r_fields r) K (List.length (g_fields (q_mgr p))) _ _ _ _ _ _
                    (sm_names _ _ _ S) (sm_lk _ _ _ S) (sm_en _ _ _ S)) as A.
      destruct (add_fields _ _ (q_names p) _ _ _ _) as [[[a b] c]|],
               (add_fields _ _ (q_names q) _ _ _ _) as [[[a' b'] c']|]; try contradiction; [|exact I].
      destruct A as (A1 & A2 & A3). cbn [orel].
      destruct S as [S1 S2 S3 S4 S5 S6 S7 S8 S9 S10]. split; cbn; auto; try congruence.
      + apply Forall2_app; [exact S7|]. constructor; [|constructor]. split; [|split; reflexivity].
        cbn. congruence.
      + rewrite <- app_assoc, Lb. reflexivity.
    - unfold ProtoModel.pr_ser. pose proof (smem_names_add _ _ n (sm_names _ _ _ S)) as A.
      destruct (add_name (q_names p) n) as [ns|], (add_name (q_names q) n) as [ns'|]; try contradiction; [|exact I].
      cbn [orel]. destruct S as [S1 S2 S3 S4 S5 S6 S7 S8 S9 S10]. split; cbn; auto; congruence.
    - pose proof (sim_set K p q n v HP S) as H.
      destruct (pr_set p n v), (pr_set q n v); cbn in *; try contradiction; assumption.
    - cbn [orel]. rewrite <- (sm_chain _ _ _ S). apply sim_chain. exact S.
  Qed.

  Lemma sim_run K ops : forall p q, PI p -> Sim K p q ->
    orel (fun a b => PI a /\ Sim K a b) (pr_run p ops) (pr_run q ops).
  Proof.
    induction ops as [|o ops IH]; intros p q HP S; cbn [ProtoModel.pr_run]; [split; assumption|].
    pose proof (sim_step K p q o HP S) as H. pose proof (step_PI valid int_of bool_of enums eprim native_le p o) as P.
    destruct (pr_step p o) as [p1|], (pr_step q o) as [q1|]; cbn [orel] in H; try contradiction; [|exact I].
    apply IH; [apply P; [exact HP|reflexivity]|exact H].
  Qed.
End Proto.
