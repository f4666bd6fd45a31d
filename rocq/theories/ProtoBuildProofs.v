(** Proofs about protocols: rebuilding one from its build items. *)
From Coq Require Import ZifyBool ZifyNat Lia.
From Verif Require Import Base BaseLemmas PrimModel PrimSpec PrimProofs StringModel ArrayModel
  ArraySpec ArrayProofs ChainModel RegistryModel EnumModel FieldModel FieldSpec FieldProofs
  FieldExportProofs ProtoModel ProtoProofs.

Definition is_arr (n : node) : bool := match n with NArr _ => true | _ => false end.

#[local] Opaque strip.

(** What of a register matters for its use as fields. *)
Definition sfs (r : regs) : list (string * field) :=
  map (fun p => (fst p, strip (snd p))) (r_fields r).
Definition brel (r s : regs) : Prop := r_kind r = r_kind s /\ sfs r = sfs s.

Lemma strip_enum f g : strip f = strip g -> fl_enum f = fl_enum g.
Proof. intros H. change (fl_enum (strip f) = fl_enum (strip g)). congruence. Qed.

Definition s1 (p : string * field) : string * field := (fst p, strip (snd p)).
Lemma s1_cons p u q v : map s1 (p :: u) = map s1 (q :: v) ->
  fst p = fst q /\ strip (snd p) = strip (snd q) /\ map s1 u = map s1 v.
Proof.
  intros H. change ((fst p, strip (snd p)) :: map s1 u = (fst q, strip (snd q)) :: map s1 v) in H.
  repeat split; congruence.
Qed.
Lemma s1_pair (n : string) f (m : string) g : (n, strip f) = (m, strip g) -> n = m /\ strip f = strip g.
Proof. intros H. split; congruence. Qed.

Lemma sfs_dget r s n : sfs r = sfs s ->
  option_map strip (dget n (r_fields r)) = option_map strip (dget n (r_fields s)).
Proof.
  unfold sfs. fold s1. generalize (r_fields r) (r_fields s). intros u. induction u as [|[a f] u IH];
    intros [|[b g] v] H; try discriminate; [reflexivity|].
  apply s1_cons in H as (E & Hs & H). cbn in *. subst. destruct (eq_dec n b); [cbn; congruence|]. apply IH. exact H.
Qed.

Set Default Proof Using "Type".
Section Proto.
  Context (valid word : string -> bool) (int_of : string -> option Z)
          (bool_of : string -> option bool) (enums : ekey -> option renum)
          (eprim : ekey -> kind) (native_le : bool).

  Notation add_name := (add_name valid).
  Notation add_fields := (add_fields valid enums).
  Notation g_add := (g_add valid enums).
  Notation g_load := (g_load valid enums).
  Notation pr_field := (pr_field valid enums eprim).
  Notation pr_place := (pr_place valid enums).
  Notation pr_bits := (pr_bits valid enums).
  Notation pr_ser := (pr_ser valid).
  Notation build_item := (build_item valid enums eprim).
  Notation build_all := (build_all valid enums eprim).
  Notation pr_init := (pr_init valid enums eprim).
  Notation pr_step := (pr_step valid int_of bool_of enums eprim native_le).
  Notation pr_run := (pr_run valid int_of bool_of enums eprim native_le).
  Notation pr_set := (pr_set int_of bool_of).
  Notation g_set := (g_set int_of bool_of).

  (** ** Names *)
  Lemma smem_app n l m : smem n (l ++ m) = smem n l || smem n m.
  Proof. apply existsb_app. Qed.
  Lemma smem_one n m : smem n [m] = true <-> n = m.
  Proof. unfold smem. cbn [existsb]. rewrite orb_false_r. apply String.eqb_eq. Qed.

  Lemma add_name_mono l n l' : add_name l n = Some l' ->
    smem n l' = true /\ forall m, smem m l = true -> smem m l' = true.
  Proof.
    unfold ProtoModel.add_name. destruct (smem n l) eqn:E; intros H.
    - injection H as <-. auto.
    - destruct (valid n); [|discriminate]. injection H as <-. split.
      + rewrite smem_app. rewrite (proj2 (smem_one n n) eq_refl). apply orb_true_r.
      + intros m Hm. rewrite smem_app, Hm. reflexivity.
  Qed.
  Lemma add_name_in l n : smem n l = true -> add_name l n = Some l.
  Proof. intros H. unfold ProtoModel.add_name. rewrite H. reflexivity. Qed.

  (** ** Lookup tables *)
  Definition lk_add (lk : list (string * nat)) (idx : nat) (fs : list (string * field)) :=
    fold_left (fun d nf => dset (fst nf) idx d) fs lk.
  Definition en_one (d : list (string * renum)) (nf : string * field) :=
    match fl_enum (snd nf) with
    | Some k => match enums k with Some e => dset (fst nf) e d | None => d end
    | None => d
    end.
  Definition en_add (en : list (string * renum)) (fs : list (string * field)) :=
    fold_left en_one fs en.
  Fixpoint lks (off : nat) (rs : list regs) (lk : list (string * nat)) :=
    match rs with [] => lk | r :: rs' => lks (S off) rs' (lk_add lk off (r_fields r)) end.
  Fixpoint ens (rs : list regs) (en : list (string * renum)) :=
    match rs with [] => en | r :: rs' => ens rs' (en_add en (r_fields r)) end.

  Definition known (fs : list (string * field)) : Prop :=
    forall n f k, In (n, f) fs -> fl_enum f = Some k -> enums k <> None.

  Lemma add_fields_some fs : forall names lk en idx names' lk' en',
    add_fields names lk en idx fs = Some (names', lk', en') ->
    lk' = lk_add lk idx fs /\ en' = en_add en fs /\ known fs /\
    (forall n, smem n names = true -> smem n names' = true) /\
    (forall n f, In (n, f) fs -> smem n names' = true).
  Proof.
    induction fs as [|[n f] fs IH]; intros names lk en idx names' lk' en' H; cbn [ProtoModel.add_fields] in H.
    - injection H as <- <- <-. split; [reflexivity|]. split; [reflexivity|]. split; [intros n f k []|]. split; [auto|intros n f []].
    - destruct (add_name names n) as [names1|] eqn:E; [|discriminate].
      destruct (add_name_mono _ _ _ E) as (M1 & M2).
      destruct (fl_enum f) as [k|] eqn:Ef.
      + destruct (enums k) as [e|] eqn:Ek; [|discriminate].
        destruct (IH _ _ _ _ _ _ _ H) as (H1 & H2 & H3 & H4 & H5).
        split; [exact H1|]. split; [|split; [|split]].
        * unfold en_add. cbn [fold_left]. unfold en_one at 2. cbn [fst snd]. rewrite Ef, Ek. exact H2.
        * intros n' f' k' [Hin|Hin] Hf; [|eapply H3; eassumption]. inversion Hin; subst. congruence.
        * auto.
        * intros n' f' [Hin|Hin]; [inversion Hin; subst; auto|eauto].
      + destruct (IH _ _ _ _ _ _ _ H) as (H1 & H2 & H3 & H4 & H5).
        split; [exact H1|]. split; [|split; [|split]].
        * unfold en_add. cbn [fold_left]. unfold en_one at 2. cbn [fst snd]. rewrite Ef. exact H2.
        * intros n' f' k' [Hin|Hin] Hf; [|eapply H3; eassumption]. inversion Hin; subst. congruence.
        * auto.
        * intros n' f' [Hin|Hin]; [inversion Hin; subst; auto|eauto].
  Qed.

  Lemma add_fields_in fs : forall names lk en idx, known fs ->
    (forall n f, In (n, f) fs -> smem n names = true) ->
    add_fields names lk en idx fs = Some (names, lk_add lk idx fs, en_add en fs).
  Proof.
    induction fs as [|[n f] fs IH]; intros names lk en idx K H; cbn [ProtoModel.add_fields]; [reflexivity|].
    rewrite add_name_in by (eapply H; left; reflexivity).
    assert (K' : known fs) by (intros n' f' k' Hin; eapply K; right; exact Hin).
    assert (H' : forall n f, In (n, f) fs -> smem n names = true) by (intros; eapply H; right; eassumption).
    unfold en_add. cbn [fold_left]. unfold en_one at 2. cbn [fst snd].
    destruct (fl_enum f) as [k|] eqn:Ef.
    - destruct (enums k) as [e|] eqn:Ek.
      + rewrite IH by assumption. reflexivity.
      + exfalso. eapply (K n f k); [left; reflexivity|exact Ef|exact Ek].
    - rewrite IH by assumption. reflexivity.
  Qed.

  Lemma g_add_some names g i r ns g' : g_add names g i r = Some (ns, g') ->
    g' = mkMgr (g_fields g ++ [i]) (lk_add (g_lookup g) (List.length (g_fields g)) (r_fields r))
               (en_add (g_enum g) (r_fields r)) /\
    known (r_fields r) /\
    (forall n, smem n names = true -> smem n ns = true) /\
    (forall n f, In (n, f) (r_fields r) -> smem n ns = true).
  Proof.
    unfold ProtoModel.g_add. destruct (add_fields _ _ _ _ _) as [[[a b] c]|] eqn:E; [|discriminate].
    intros H. injection H as <- <-. destruct (add_fields_some _ _ _ _ _ _ _ _ E) as (-> & -> & H3 & H4 & H5).
    auto.
  Qed.

  Lemma g_add_in names g i r : known (r_fields r) ->
    (forall n f, In (n, f) (r_fields r) -> smem n names = true) ->
    g_add names g i r =
    Some (names, mkMgr (g_fields g ++ [i]) (lk_add (g_lookup g) (List.length (g_fields g)) (r_fields r))
                       (en_add (g_enum g) (r_fields r))).
  Proof. intros K H. unfold ProtoModel.g_add. rewrite add_fields_in by assumption. reflexivity. Qed.

  (** The tables depend on the stripped fields only. *)
  Lemma lk_add_sfs lk i r s : sfs r = sfs s -> lk_add lk i (r_fields r) = lk_add lk i (r_fields s).
  Proof.
    unfold sfs. fold s1. generalize (r_fields r) (r_fields s). intros u. revert lk.
    induction u as [|[a f] u IH]; intros lk [|[b g] v] H; try discriminate; [reflexivity|].
    apply s1_cons in H as (E & Hs & H). cbn in *. subst. apply IH. exact H.
  Qed.
  Lemma en_add_sfs en r s : sfs r = sfs s -> en_add en (r_fields r) = en_add en (r_fields s).
  Proof.
    unfold sfs, en_add. fold s1. generalize (r_fields r) (r_fields s). intros u. revert en.
    induction u as [|[a f] u IH]; intros en [|[b g] v] H; try discriminate; [reflexivity|].
    apply s1_cons in H as (E & He & H). cbn [fst snd] in *. subst. cbn [fold_left]. apply strip_enum in He.
    assert (en_one en (b, f) = en_one en (b, g)) as ->; [|apply IH; exact H].
    unfold en_one. cbn [fst snd]. rewrite He. reflexivity.
  Qed.
  Lemma known_sfs r s : sfs r = sfs s -> known (r_fields r) -> known (r_fields s).
  Proof.
    intros H K n f k Hin Hf.
    assert (Hs : In (n, strip f) (sfs r)).
    { rewrite H. unfold sfs. apply in_map_iff. exists (n, f). auto. }
    unfold sfs in Hs. apply in_map_iff in Hs as ([m g] & E & Hg). cbn [fst snd] in E.
    apply s1_pair in E as [-> Eg]. eapply K; [exact Hg|]. apply strip_enum in Eg. congruence.
  Qed.
  Lemma names_sfs (P : string -> Prop) r s : sfs r = sfs s ->
    (forall n f, In (n, f) (r_fields r) -> P n) -> forall n f, In (n, f) (r_fields s) -> P n.
  Proof.
    intros H K n f Hin.
    assert (Hs : In (n, strip f) (sfs r)).
    { rewrite H. unfold sfs. apply in_map_iff. exists (n, f). auto. }
    unfold sfs in Hs. apply in_map_iff in Hs as ([m g] & E & Hg). cbn [fst snd] in E.
    apply s1_pair in E as [-> _]. eauto.
  Qed.

  Lemma lks_app rs1 rs2 : forall off lk,
    lks off (rs1 ++ rs2) lk = lks (off + List.length rs1) rs2 (lks off rs1 lk).
  Proof.
    induction rs1 as [|r rs IH]; intros off lk; cbn.
    - rewrite Nat.add_0_r. reflexivity.
    - rewrite IH. f_equal. lia.
  Qed.
  Lemma ens_app rs1 rs2 : forall en, ens (rs1 ++ rs2) en = ens rs2 (ens rs1 en).
  Proof. induction rs1 as [|r rs IH]; intros en; cbn; [reflexivity|]. apply IH. Qed.

  Lemma g_load_in rs : forall names g i,
    Forall (fun r => known (r_fields r) /\ forall n f, In (n, f) (r_fields r) -> smem n names = true) rs ->
    g_load names g i rs =
    Some (names, mkMgr (g_fields g ++ seq i (List.length rs))
                       (lks (List.length (g_fields g)) rs (g_lookup g)) (ens rs (g_enum g))).
  Proof.
    induction rs as [|r rs IH]; intros names g i H; cbn [ProtoModel.g_load].
    - cbn. rewrite app_nil_r. destruct g; reflexivity.
    - inversion H as [|? ? [K M] H']; subst. rewrite (g_add_in names g i r K M). rewrite IH by exact H'.
      cbn [g_fields g_lookup g_enum lks ens List.length seq]. rewrite <- app_assoc. cbn [app].
      rewrite app_length. cbn [List.length]. rewrite Nat.add_1_r. reflexivity.
  Qed.

  Lemma dget_lk_add n idx fs : forall lk,
    dget n (lk_add lk idx fs) =
    if existsb (fun nf => String.eqb n (fst nf)) fs then Some idx else dget n lk.
  Proof.
    induction fs as [|[m f] fs IH]; intros lk; [reflexivity|].
    change (lk_add lk idx ((m, f) :: fs)) with (lk_add (dset m idx lk) idx fs).
    rewrite IH. cbn [existsb fst]. destruct (existsb _ fs); [rewrite orb_true_r; reflexivity|]. rewrite orb_false_r.
    rewrite dget_dset. destruct (eq_dec n m) as [->|Hn].
    - rewrite String.eqb_refl. reflexivity.
    - apply String.eqb_neq in Hn. rewrite Hn. reflexivity.
  Qed.

  Lemma dget_lks n rs : forall off lk,
    dget n (lks off rs lk) =
    match dget n (lks 0 rs []) with Some i => Some (off + i)%nat | None => dget n lk end.
  Proof.
    induction rs as [|r rs IH] using rev_ind; intros off lk; [reflexivity|].
    rewrite !lks_app. cbn [lks]. rewrite !dget_lk_add. destruct (existsb _ _).
    - f_equal.
    - apply IH.
  Qed.

  Lemma dget_en_add n fs : forall en,
    dget n (en_add en fs) =
    match dget n (en_add [] fs) with Some e => Some e | None => dget n en end.
  Proof.
    induction fs as [|[m f] fs IH] using rev_ind; intros en; [reflexivity|].
    unfold en_add. rewrite !fold_left_app. cbn [fold_left]. unfold en_one at 1 3. cbn [fst snd].
    destruct (fl_enum f) as [k|]; [|apply IH]. destruct (enums k) as [e|]; [|apply IH].
    rewrite !dget_dset. destruct (eq_dec n m); [reflexivity|]. apply IH.
  Qed.

  Lemma dget_ens n rs : forall en,
    dget n (ens rs en) = match dget n (ens rs []) with Some e => Some e | None => dget n en end.
  Proof.
    induction rs as [|r rs IH] using rev_ind; intros en; [reflexivity|].
    rewrite !ens_app. cbn [ens]. rewrite dget_en_add, (dget_en_add n (r_fields r) (ens rs [])).
    destruct (dget n (en_add [] _)); [reflexivity|]. apply IH.
  Qed.
End Proto.
