(** Proofs about protocols: the state a history leaves, and what building from
    its build items gives. *)
From Coq Require Import ZifyBool ZifyNat Lia.
From Verif Require Import Base BaseLemmas PrimModel PrimSpec PrimProofs StringModel ArrayModel
  ArraySpec ArrayProofs ChainModel RegistryModel EnumModel FieldModel FieldSpec FieldProofs
  FieldExportProofs ProtoModel ProtoSpec ProtoProofs ProtoBuildProofs.

Set Default Proof Using "Type".
Section Proto.
  Context (valid : string -> bool) (int_of : string -> option Z)
          (bool_of : string -> option bool) (enums : ekey -> option renum)
          (eprim : ekey -> kind) (native_le : bool).

  Notation add_name := (add_name valid).
  Notation g_add := (g_add valid enums).
  Notation g_load := (g_load valid enums).
  Notation pr_field := (pr_field valid enums eprim).
  Notation pr_place := (pr_place valid enums).
  Notation pr_bits := (pr_bits valid enums).
  Notation pr_ser := (pr_ser valid).
  Notation build_item := (build_item valid enums eprim).
  Notation build_all := (build_all valid enums eprim).
  Notation pr_init := (pr_init valid enums eprim).
  Notation pr_step := (pr_step valid int_of bool_of enums eprim native_le).
  Notation pr_run := (pr_run valid int_of bool_of enums eprim native_le).
  Notation pr_set := (pr_set int_of bool_of).
  Notation g_set := (g_set int_of bool_of).
  Notation known := (known enums).
  Notation ens := (ens enums).
  Notation en_add := (en_add enums).

  (** ** What the calls do *)
  Definition kind_of (k : option kind) (e : option ekey) : option kind :=
    match k, e with Some kd, _ => Some kd | None, Some key => Some (eprim key) | None, None => None end.
  Definition enum_of (en : list (string * renum)) (n : string) (e : option ekey)
    : option (list (string * renum)) :=
    match e with
    | None => Some en
    | Some key => option_map (fun x => dset n x en) (enums key)
    end.

  Lemma pr_field_eq p n k e l t :
    pr_field p n k e l t =
    match add_name (q_names p) n, enum_of (q_enum p) n e, kind_of k e with
    | Some ns, Some en, Some kd =>
        Some (mkProto (q_id p) (q_order p) (c_add (q_order p) (q_chain p) (mkPrim kd 0) l)
                ns (q_bits p) (q_mgr p) (dset n (end_pos (q_chain p)) (q_reg p)) en
                (q_build p ++ (if t then [BSpec n kd e l] else [])) (q_ser p))
    | _, _, _ => None
    end.
  Proof.
    unfold ProtoModel.pr_field. destruct (add_name (q_names p) n); [|reflexivity].
    destruct e as [key|]; cbn [enum_of kind_of].
    - destruct (enums key); cbn [option_map]; [|reflexivity]. destruct k; reflexivity.
    - destruct k; reflexivity.
  Qed.

  Lemma upd_last {A} (f : A -> A) l x : upd (List.length l) f (l ++ [x]) = l ++ [f x].
  Proof. induction l as [|y l IH]; cbn; [reflexivity|]. rewrite IH. reflexivity. Qed.

  Lemma pr_bits_eq p r :
    pr_bits p r =
    match g_add (q_names p) (q_mgr p) (List.length (q_bits p)) r with
    | Some (ns, g) =>
        Some (mkProto (q_id p) (q_order p)
                (c_add (q_order p) (q_chain p) (mkPrim (r_kind r) (r_raw r)) None)
                ns (q_bits p ++ [mkB (r_finalize r) (Some (end_pos (q_chain p)))])
                g (q_reg p) (q_enum p)
                (q_build p ++ [BBits (List.length (g_fields (q_mgr p)))]) (q_ser p))
    | None => None
    end.
  Proof.
    unfold ProtoModel.pr_bits, ProtoModel.pr_place. cbn [q_bits q_names q_mgr q_chain q_id q_order q_reg q_enum q_build q_ser].
    rewrite nth_error_app2, Nat.sub_diag by lia. cbn [nth_error].
    change (cur_regs (q_chain p) (mkB (r_finalize r) None)) with (r_finalize r).
    change (g_add (q_names p) (q_mgr p) (List.length (q_bits p)) (r_finalize r))
      with (g_add (q_names p) (q_mgr p) (List.length (q_bits p)) r).
    destruct (g_add _ _ _ r) as [[ns g]|]; [|reflexivity]. rewrite upd_last. reflexivity.
  Qed.

  (** ** The state of a protocol *)
  Definition names_in (names : list string) (r : regs) : Prop :=
    forall n f, In (n, f) (r_fields r) -> smem n names = true.

  Record PI (p : proto) : Prop := {
    pi_ne : q_chain p <> [];
    pi_gf : g_fields (q_mgr p) = seq 0 (List.length (q_bits p));
    pi_lk : g_lookup (q_mgr p) = lks 0 (map b_regs (q_bits p)) [];
    pi_en : g_enum (q_mgr p) = ens (map b_regs (q_bits p)) [];
    pi_bits : forall i b, nth_error (q_bits p) i = Some b ->
      exists ps x, b_pos b = Some ps /\ c_get (q_chain p) ps = Some x /\ p_kind x = r_kind (b_regs b);
    pi_reg : forall n ps, dget n (q_reg p) = Some ps -> exists x, c_get (q_chain p) ps = Some x;
    pi_known : forall i b, nth_error (q_bits p) i = Some b ->
      known (r_fields (b_regs b)) /\ names_in (q_names p) (b_regs b);
    pi_regn : forall n ps, dget n (q_reg p) = Some ps -> smem n (q_names p) = true
  }.

  Lemma new_PI id bo : PI (pr_new id bo).
  Proof.
    split; cbn; try reflexivity; try discriminate; intros [|i]; discriminate.
  Qed.

  (** Changing values only. *)
  Lemma chain_PI p c : PI p -> sh (q_chain p) c -> PI (with_chain p c).
  Proof.
    intros H S. pose proof (sh_get _ _ S) as G. destruct H as [A1 A2 A3 A4 A5 A6 A7 A8].
    split; cbn; try assumption.
    - intros ->. inversion S. congruence.
    - intros i b Hb. destruct (A5 i b Hb) as (ps & x & E1 & E2 & E3). specialize (G ps). rewrite E2 in G.
      cbn in G. destruct (c_get c ps) as [y|] eqn:Ey; [|discriminate]. exists ps, y. injection G as G.
      repeat split; congruence.
    - intros n ps Hn. destruct (A6 n ps Hn) as (x & E). specialize (G ps). rewrite E in G. cbn in G.
      destruct (c_get c ps) as [y|]; [|discriminate]. eauto.
  Qed.

  Lemma from_stream_sh c : forall d, sh c (fst (c_from_stream native_le c d)).
  Proof.
    induction c as [|n c IH]; intros d; cbn [c_from_stream]; [constructor|].
    assert (N : forall l, node_rel n (fst (n_from_stream native_le n l))).
    { intros l. destruct n as [a|x|x]; cbn [n_from_stream].
      - destruct (stream_read _ _) as [u v]. unfold a_update. destruct (unpack _ _ _ _ _); cbn.
        + repeat split; cbn. symmetry. apply assign_kinds.
        + apply a_rel_refl.
      - destruct (stream_read _ _). cbn. exact I.
      - destruct (pc_from_stream native_le x l) as [[[y [|]] r]|]; cbn; exact I. }
    specialize (N d). destruct (n_from_stream native_le n d) as [n' [r k| |]]; cbn [fst] in N.
    - specialize (IH r). destruct (c_from_stream native_le c r) as [c' [r' k'| |]]; constructor; assumption.
    - constructor; [exact N|apply sh_refl].
    - constructor; [exact N|apply sh_refl].
  Qed.

  Lemma c_get_app c d ps x : c_get c ps = Some x -> c_get (c ++ d) ps = Some x.
  Proof.
    unfold c_get. intros H. rewrite nth_error_app1; [exact H|]. apply nth_error_Some.
    destruct (nth_error c (fst ps)); congruence.
  Qed.

  Lemma set_chain p n v p' : pr_set p n v = Some p' ->
    p' = p \/ exists ps z, p' = with_chain p (c_put (q_chain p) ps z).
  Proof.
    unfold ProtoModel.pr_set, ProtoModel.g_set. destruct (dget n (q_reg p)) as [ps|].
    - match goal with |- option_map _ ?y = _ -> _ => destruct y as [z|] end; [|discriminate].
      intros H. injection H as <-. eauto.
    - destruct (g_find p n) as [[b f]|]; [|discriminate].
      destruct (g_value int_of bool_of p n v); [|discriminate].
      destruct (b_pos b); intros H; injection H as <-; eauto.
  Qed.

  Lemma step_PI p o p' : PI p -> pr_step p o = Some p' -> PI p'.
  Proof.
    intros H E. destruct o as [n k e l|k ops|n c l|n v|d]; cbn [ProtoModel.pr_step] in E.
    - rewrite pr_field_eq in E. destruct (add_name (q_names p) n) as [ns|] eqn:En; [|discriminate].
      destruct (enum_of _ _ _); [|discriminate]. destruct (kind_of k e) as [kd|]; [|discriminate].
      injection E as <-. apply add_name_mono in En as [M1 M2].
      destruct H as [A1 A2 A3 A4 A5 A6 A7 A8]. split; cbn; try assumption.
      + apply c_add_ne. exact A1.
      + intros i b Hb. destruct (A5 i b Hb) as (ps & x & E1 & E2 & E3). exists ps, x.
        repeat split; auto. apply c_add_old. exact E2.
      + intros m ps. rewrite dget_dset. destruct (eq_dec m n).
        * intros Hm. injection Hm as <-. eexists. apply c_add_new. exact A1.
        * intros Hm. destruct (A6 m ps Hm) as [x Ex]. exists x. apply c_add_old. exact Ex.
      + intros i b Hb. destruct (A7 i b Hb) as [K1 K2]. split; [exact K1|]. intros m f Hm. eauto.
      + intros m ps. rewrite dget_dset. destruct (eq_dec m n) as [->|]; [auto|]. eauto.
    - rewrite pr_bits_eq in E. set (r := fst (r_run _ _ ops)) in *.
      destruct (g_add _ _ _ r) as [[ns g]|] eqn:Eg; [|discriminate]. injection E as <-.
      apply g_add_some in Eg as (-> & K & M1 & M2).
      destruct H as [A1 A2 A3 A4 A5 A6 A7 A8].
      assert (NB : forall i b, nth_error (q_bits p ++ [mkB (r_finalize r) (Some (end_pos (q_chain p)))]) i = Some b ->
        nth_error (q_bits p) i = Some b \/ b = mkB (r_finalize r) (Some (end_pos (q_chain p)))).
      { intros i b Hb. destruct (Nat.lt_ge_cases i (List.length (q_bits p))) as [L|L].
        - rewrite nth_error_app1 in Hb by lia. auto.
        - rewrite nth_error_app2 in Hb by lia. destruct (i - List.length (q_bits p))%nat as [|[|q]];
            cbn in Hb; try discriminate. injection Hb as <-. auto. }
      split; cbn; try assumption.
      + apply c_add_ne. exact A1.
      + rewrite A2, app_length. cbn. rewrite Nat.add_1_r, seq_S. reflexivity.
      + rewrite A3, A2, map_app, lks_app, seq_length, map_length. reflexivity.
      + rewrite A4, map_app, ens_app. reflexivity.
      + intros i b Hb. destruct (NB i b Hb) as [Ho| ->].
        * destruct (A5 i b Ho) as (ps & x & E1 & E2 & E3). exists ps, x. repeat split; auto.
          apply c_add_old. exact E2.
        * eexists. eexists. split; [reflexivity|]. split; [apply c_add_new; exact A1|]. reflexivity.
      + intros m ps Hm. destruct (A6 m ps Hm) as [x Ex]. exists x. apply c_add_old. exact Ex.
      + intros i b Hb. destruct (NB i b Hb) as [Ho| ->].
        * destruct (A7 i b Ho) as [K1 K2]. split; [exact K1|]. intros m f Hm. eauto.
        * split; [exact K|]. exact M2.
      + intros m ps Hm. eauto.
    - unfold ProtoModel.pr_ser in E. destruct (add_name (q_names p) n) as [ns|] eqn:En; [|discriminate].
      injection E as <-. apply add_name_mono in En as [M1 M2].
      destruct H as [A1 A2 A3 A4 A5 A6 A7 A8]. split; cbn; try assumption.
      + destruct (q_chain p); [congruence|discriminate].
      + intros i b Hb. destruct (A5 i b Hb) as (ps & x & E1 & E2 & E3). exists ps, x.
        repeat split; auto. apply c_get_app. exact E2.
      + intros m ps Hm. destruct (A6 m ps Hm) as [x Ex]. exists x. apply c_get_app. exact Ex.
      + intros i b Hb. destruct (A7 i b Hb) as [K1 K2]. split; [exact K1|]. intros m f Hm. eauto.
      + intros m ps Hm. eauto.
    - injection E as <-. destruct (pr_set p n v) as [p1|] eqn:Es; [|exact H].
      destruct (set_chain _ _ _ _ Es) as [->|(ps & z & ->)]; [exact H|].
      apply chain_PI; [exact H|apply c_put_sh].
    - injection E as <-. apply chain_PI; [exact H|apply from_stream_sh].
  Qed.

  Lemma run_PI ops : forall p p', PI p -> pr_run p ops = Some p' -> PI p'.
  Proof.
    induction ops as [|o ops IH]; intros p p' H E; cbn [ProtoModel.pr_run] in E.
    - injection E as <-. exact H.
    - destruct (pr_step p o) as [p1|] eqn:E1; [|discriminate]. eapply IH; [|exact E].
      eapply step_PI; eassumption.
  Qed.

  (** ** Building from the build items *)
  Definition drop_len (d : bool) (it : bitem) : bitem :=
    match it with BSpec n k e l => BSpec n k e (if d then None else l) | _ => it end.
  Definition it_plain (d : bool) (it : bitem) : Prop :=
    match it with BSpec _ _ _ l => d = true -> extra l = O | _ => True end.

  Lemma build_app l m : forall s,
    build_all s (l ++ m) =
    match build_all s l with Some s' => build_all s' m | None => None end.
  Proof.
    induction l as [|it l IH]; intros s; cbn [ProtoModel.build_all app]; [reflexivity|].
    destruct (build_item s it) as [s'|]; [apply IH|reflexivity].
  Qed.

  Definition pos_of (p : proto) (i : nat) : option pos :=
    match nth_error (q_bits p) i with Some b => b_pos b | None => None end.

  (** The protocol [q] built from the items of [p], the registers [rs] and the
      serializables [sers]; [names] are the names registered before. *)
  Record Rel (rs : list regs) (names : list string) (sers : list (string * node))
         (p q : proto) (rem : list (string * node)) : Prop := {
    rl_order : q_order q = q_order p;
    rl_sh : sh (q_chain p) (q_chain q);
    rl_names : q_names q = names;
    rl_len : List.length (q_bits q) = List.length rs;
    rl_bits : forall i r, nth_error rs i = Some r ->
      nth_error (q_bits q) i = Some (mkB (r_finalize r) (pos_of p i));
    rl_gf : g_fields (q_mgr q) = seq 0 (List.length rs) ++ seq 0 (List.length (q_bits p));
    rl_lk : g_lookup (q_mgr q) =
      lks (List.length rs) (firstn (List.length (q_bits p)) rs) (lks 0 rs []);
    rl_en : g_enum (q_mgr q) = ens (firstn (List.length (q_bits p)) rs) (ens rs []);
    rl_reg : q_reg q = q_reg p;
    rl_enum : q_enum q = q_enum p;
    rl_ser : q_ser q = q_ser p;
    rl_valb : forall i b ps r, nth_error (q_bits p) i = Some b -> b_pos b = Some ps ->
      nth_error rs i = Some r -> exists x, c_get (q_chain q) ps = Some x /\ p_val x = r_raw r;
    rl_valr : forall n ps, dget n (q_reg p) = Some ps ->
      exists x, c_get (q_chain q) ps = Some x /\ p_val x = 0;
    rl_rem : forall n, dget n rem = if dmem n (q_ser p) then None else dget n sers;
    rl_nodes : forall n i x, dget n (q_ser p) = Some i -> dget n sers = Some x ->
      nth_error (q_chain q) i = Some x
  }.

  (** What the building needs. *)
  Record fit (rs : list regs) (names : list string) (sers : list (string * node)) (p : proto)
    : Prop := {
    ft_len : (List.length (q_bits p) <= List.length rs)%nat;
    ft_rs : forall i b, nth_error (q_bits p) i = Some b ->
      exists r, nth_error rs i = Some r /\ brel r (b_regs b);
    ft_names : forall n, smem n (q_names p) = true -> smem n names = true;
    ft_sers : forall n i, dget n (q_ser p) = Some i ->
      exists x, dget n sers = Some x /\ is_arr x = false
  }.

  Definition start (id : Z) (bo : byte_order) (names : list string) (rs : list regs) : proto :=
    mkProto id bo [NArr (a_empty bo)] names (map (fun r => mkB (r_finalize r) None) rs)
      (mkMgr (seq 0 (List.length rs)) (lks 0 rs []) (ens rs [])) [] [] [] [].

  Definition Claim (d : bool) (p : proto) : Prop :=
    forall rs names sers id, fit rs names sers p -> Forall (it_plain d) (q_build p) ->
      exists q rem, build_all (start id (q_order p) names rs, sers) (map (drop_len d) (q_build p)) =
                    Some (q, rem) /\ q_id q = id /\ Rel rs names sers p q rem.

  Lemma new_claim d id bo : Claim d (pr_new id bo).
  Proof.
    intros rs names sers id' F _. eexists. eexists. split; [reflexivity|]. split; [reflexivity|].
    split; cbn; try reflexivity; try discriminate.
    - apply sh_refl.
    - apply map_length.
    - intros i r Hr. rewrite nth_error_map, Hr. unfold pos_of. cbn. destruct i; reflexivity.
    - rewrite app_nil_r. reflexivity.
    - intros [|i]; discriminate.
  Qed.

  Lemma firstn_snoc {A} (l : list A) n x : nth_error l n = Some x -> firstn (S n) l = firstn n l ++ [x].
  Proof.
    revert n. induction l as [|y l IH]; intros [|n] H; try discriminate; cbn in *.
    - injection H as ->. reflexivity.
    - rewrite (IH n H). reflexivity.
  Qed.

  Lemma fit_weaken rs names sers p p' :
    (forall i b, nth_error (q_bits p) i = Some b ->
       exists b', nth_error (q_bits p') i = Some b' /\ b_regs b' = b_regs b) ->
    (forall n, smem n (q_names p) = true -> smem n (q_names p') = true) ->
    (forall n i, dget n (q_ser p) = Some i -> dget n (q_ser p') = Some i) ->
    fit rs names sers p' -> fit rs names sers p.
  Proof.
    intros H1 H2 H3 [F1 F2 F3 F4]. split; eauto.
    - destruct (q_bits p) as [|b0 l] eqn:E; [cbn; lia|]. rewrite <- E in *.
      assert (L : (pred (List.length (q_bits p)) < List.length (q_bits p))%nat) by (rewrite E; cbn; lia).
      apply nth_error_Some in L. destruct (nth_error (q_bits p) (pred (List.length (q_bits p)))) as [b|] eqn:Eb; [|congruence].
      destruct (H1 _ _ Eb) as (b' & Eb' & _).
      assert (L2 : (pred (List.length (q_bits p)) < List.length (q_bits p'))%nat) by (apply nth_error_Some; congruence).
      lia.
    - intros i b Hb. destruct (H1 i b Hb) as (b' & Hb' & <-). eauto.
  Qed.

  Lemma c_add_node bo c p l i x : is_arr x = false -> nth_error c i = Some x ->
    nth_error (c_add bo c p l) i = Some x.
  Proof.
    intros A. revert i. induction c as [|n c IH]; intros i H; [destruct i; discriminate|].
    destruct c as [|m c].
    - destruct i as [|i]; [|destruct i; discriminate]. injection H as ->. destruct x; [discriminate| |]; reflexivity.
    - rewrite c_add_cons2. destruct i as [|i]; [exact H|]. apply IH. exact H.
  Qed.

  Lemma field_claim d p n k e l p' : PI p -> Claim d p ->
    pr_field p n k e l true = Some p' -> Claim d p'.
  Proof.
    intros HP C E. rewrite pr_field_eq in E.
    destruct (add_name (q_names p) n) as [ns|] eqn:En; [|discriminate].
    destruct (enum_of (q_enum p) n e) as [en|] eqn:Ee; [|discriminate].
    destruct (kind_of k e) as [kd|] eqn:Ek; [|discriminate]. injection E as <-.
    apply add_name_mono in En as [M1 M2].
    intros rs names sers id F P. cbn [q_build q_order] in *. apply Forall_app in P as [P1 P2].
    assert (Fp : fit rs names sers p).
    { eapply fit_weaken; [| | |exact F]; cbn; eauto. }
    destruct (C rs names sers id Fp P1) as (q & rem & B & I & R).
    rewrite map_app, build_app, B. cbn [map drop_len ProtoModel.build_all ProtoModel.build_item].
    rewrite pr_field_eq. rewrite (rl_names _ _ _ _ _ _ R).
    rewrite add_name_in by (apply (ft_names _ _ _ _ F); cbn; exact M1).
    rewrite (rl_enum _ _ _ _ _ _ R), Ee. cbn [kind_of option_map].
    eexists. eexists. split; [reflexivity|]. cbn [q_id]. split; [exact I|].
    pose proof (end_pos_sh _ _ (rl_sh _ _ _ _ _ _ R)) as Ep.
    assert (Ne : q_chain q <> []).
    { pose proof (rl_sh _ _ _ _ _ _ R) as S. pose proof (pi_ne _ HP) as N. intros X. rewrite X in S.
      inversion S. congruence. }
    assert (Ex : extra l = extra (if d then None else l)).
    { inversion P2 as [|? ? Pl _]; subst. cbn in Pl. destruct d; [apply Pl; reflexivity|reflexivity]. }
    destruct R as [R1 R2 R3 R4 R5 R6 R7 R8 R9 R10 R11 R12 R13 R14 R15].
    split; cbn; try assumption; try reflexivity.
    - rewrite R1. apply c_add_sh; auto.
    - rewrite R9, <- Ep. reflexivity.
    - intros i b ps r H1 H2 H3. destruct (R12 i b ps r H1 H2 H3) as (x & X1 & X2). exists x.
      split; [apply c_add_old; exact X1|exact X2].
    - intros m ps. rewrite dget_dset. destruct (eq_dec m n).
      + intros X. injection X as <-. rewrite Ep. eexists. split; [apply c_add_new; exact Ne|]. reflexivity.
      + intros X. destruct (R13 m ps X) as (x & X1 & X2). exists x. split; [apply c_add_old; exact X1|exact X2].
    - intros m i x H1 H2. apply c_add_node; [|eauto].
      destruct (ft_sers _ _ _ _ Fp m i H1) as (y & Y1 & Y2). congruence.
  Qed.

  Lemma bits_claim d p r p' : PI p -> Claim d p -> pr_bits p r = Some p' -> Claim d p'.
  Proof.
    intros HP C E. rewrite pr_bits_eq in E.
    destruct (g_add _ _ _ r) as [[ns g]|] eqn:Eg; [|discriminate]. injection E as <-.
    apply g_add_some in Eg as (-> & K & M1 & M2).
    intros rs names sers id F P. cbn [q_build q_order] in *. apply Forall_app in P as [P1 P2].
    assert (Fp : fit rs names sers p).
    { eapply fit_weaken; [| | |exact F]; cbn; eauto. intros i b Hb. exists b. split; [|reflexivity].
      rewrite nth_error_app1; [exact Hb|]. apply nth_error_Some. congruence. }
    destruct (C rs names sers id Fp P1) as (q & rem & B & I & R).
    rewrite map_app, build_app, B. cbn [map drop_len ProtoModel.build_all ProtoModel.build_item].
    set (k := List.length (q_bits p)) in *.
    assert (Lb : (k < List.length rs)%nat).
    { pose proof (ft_len _ _ _ _ F) as L. cbn in L. rewrite app_length in L. cbn in L. fold k in L. lia. }
    destruct (ft_rs _ _ _ _ F k (mkB (r_finalize r) (Some (end_pos (q_chain p))))) as (s & Es & Bs).
    { cbn. unfold k. rewrite nth_error_app2, Nat.sub_diag by lia. reflexivity. }
    destruct Bs as [Bk Bf]. cbn [b_regs] in Bk, Bf.
    assert (Ks : known (r_fields s)) by (eapply (known_sfs _ r s); [symmetry; exact Bf|exact K]).
    assert (Ns : names_in names s).
    { intros m f Hm. revert m f Hm.
      apply (names_sfs (fun n => smem n names = true) r s); [symmetry; exact Bf|].
      intros m f Hm. apply (ft_names _ _ _ _ F). cbn. eauto. }
    rewrite (pi_gf _ HP), seq_length. fold k.
    pose proof (end_pos_sh _ _ (rl_sh _ _ _ _ _ _ R)) as Ep.
    assert (Ne : q_chain q <> []).
    { pose proof (rl_sh _ _ _ _ _ _ R) as S. pose proof (pi_ne _ HP) as N. intros X. rewrite X in S.
      inversion S. congruence. }
    destruct R as [R1 R2 R3 R4 R5 R6 R7 R8 R9 R10 R11 R12 R13 R14 R15]. fold k in R6, R7, R8.
    rewrite R6, nth_error_app1 by (rewrite seq_length; exact Lb).
    assert (nth_error (seq 0 (List.length rs)) k = Some k) as ->.
    { rewrite (nth_error_nth' _ 0%nat) by (rewrite seq_length; exact Lb). rewrite seq_nth by exact Lb. reflexivity. }
    unfold ProtoModel.pr_place. rewrite (R5 k s Es).
    assert (pos_of p k = None) as Pk.
    { unfold pos_of. assert (nth_error (q_bits p) k = None) as -> by (apply nth_error_None; unfold k; lia). reflexivity. }
    rewrite Pk. change (cur_regs (q_chain q) (mkB (r_finalize s) None)) with (r_finalize s).
    rewrite R3, g_add_in by assumption. cbn [option_map].
    eexists. eexists. split; [reflexivity|]. cbn [q_id]. split; [exact I|].
    assert (PO : forall i, pos_of (mkProto (q_id p) (q_order p)
                (c_add (q_order p) (q_chain p) (mkPrim (r_kind r) (r_raw r)) None)
                ns (q_bits p ++ [mkB (r_finalize r) (Some (end_pos (q_chain p)))])
                (mkMgr (g_fields (q_mgr p) ++ [k]) (lk_add (g_lookup (q_mgr p)) (List.length (g_fields (q_mgr p))) (r_fields r))
                   (en_add (g_enum (q_mgr p)) (r_fields r))) (q_reg p) (q_enum p)
                (q_build p ++ [BBits k]) (q_ser p)) i =
       if Nat.eq_dec i k then Some (end_pos (q_chain p)) else pos_of p i).
    { intros i. unfold pos_of. cbn [q_bits]. destruct (Nat.eq_dec i k) as [->|Hn].
      - unfold k. rewrite nth_error_app2, Nat.sub_diag by lia. reflexivity.
      - destruct (Nat.lt_ge_cases i k) as [L|L].
        + rewrite nth_error_app1 by exact L. reflexivity.
        + assert (nth_error (q_bits p) i = None) as -> by (apply nth_error_None; exact L).
          assert (nth_error (q_bits p ++ [mkB (r_finalize r) (Some (end_pos (q_chain p)))]) i = None) as ->; [|reflexivity].
          apply nth_error_None. rewrite app_length. cbn. fold k. lia. }
    split; cbn; try assumption; try reflexivity.
    - rewrite R1. apply c_add_sh; auto.
    - rewrite upd_length. exact R4.
    - intros i t Ht. rewrite upd_nth, (R5 i t Ht). 
      match goal with |- _ = Some (mkB _ ?po) => change po with (pos_of (mkProto (q_id p) (q_order p)
                (c_add (q_order p) (q_chain p) (mkPrim (r_kind r) (r_raw r)) None)
                ns (q_bits p ++ [mkB (r_finalize r) (Some (end_pos (q_chain p)))])
                (mkMgr (g_fields (q_mgr p) ++ [k]) (lk_add (g_lookup (q_mgr p)) (List.length (g_fields (q_mgr p))) (r_fields r))
                   (en_add (g_enum (q_mgr p)) (r_fields r))) (q_reg p) (q_enum p)
                (q_build p ++ [BBits k]) (q_ser p)) i) end.
      rewrite PO. destruct (Nat.eq_dec k i) as [<-|Hn].
      + destruct (Nat.eq_dec k k); [|congruence]. cbn. rewrite <- Ep. reflexivity.
      + destruct (Nat.eq_dec i k); [congruence|]. reflexivity.
    - rewrite R6, app_length. cbn. fold k. rewrite Nat.add_1_r, seq_S, <- app_assoc. reflexivity.
    - rewrite R6, R7, !app_length, !seq_length. cbn. fold k. rewrite Nat.add_1_r, (firstn_snoc rs k s Es), lks_app.
      rewrite firstn_length, Nat.min_l by lia. reflexivity.
    - rewrite R8, app_length. cbn. fold k. rewrite Nat.add_1_r, (firstn_snoc rs k s Es), ens_app. reflexivity.
    - intros i b ps t H1 H2 H3. destruct (Nat.lt_ge_cases i k) as [L|L].
      + rewrite nth_error_app1 in H1 by exact L.
        destruct (R12 i b ps t H1 H2 H3) as (x & X1 & X2). exists x. split; [apply c_add_old; exact X1|exact X2].
      + rewrite nth_error_app2 in H1 by exact L. fold k in H1.
        destruct (i - k)%nat as [|[|z]] eqn:Ez; cbn in H1; try discriminate. injection H1 as <-.
        cbn in H2. injection H2 as <-. assert (i = k) as -> by lia. rewrite Es in H3. injection H3 as <-.
        rewrite Ep. eexists. split; [apply c_add_new; exact Ne|]. reflexivity.
    - intros m ps X. destruct (R13 m ps X) as (x & X1 & X2). exists x. split; [apply c_add_old; exact X1|exact X2].
    - intros m i x H1 H2. apply c_add_node; [|eauto].
      destruct (ft_sers _ _ _ _ Fp m i H1) as (y & Y1 & Y2). congruence.
  Qed.

  Lemma ser_claim d p n x l p' : PI p -> Claim d p -> is_arr x = false -> extra l = O ->
    dget n (q_ser p) = None ->
    pr_ser p n [x] l = Some p' -> Claim d p'.
  Proof using bool_of enums eprim int_of valid.
    intros HP C Ax El Fr E. unfold ProtoModel.pr_ser in E.
    destruct (add_name (q_names p) n) as [ns|] eqn:En; [|discriminate]. injection E as <-.
    apply add_name_mono in En as [M1 M2].
    intros rs names sers id F P. cbn [q_build q_order] in *. apply Forall_app in P as [P1 _].
    assert (Fp : fit rs names sers p).
    { eapply fit_weaken; [| | |exact F]; cbn; eauto. intros m i Hm. rewrite dget_dset.
      destruct (eq_dec m n) as [->|]; [congruence|exact Hm]. }
    destruct (C rs names sers id Fp P1) as (q & rem & B & I & R).
    rewrite map_app, build_app, B. cbn [map drop_len ProtoModel.build_all ProtoModel.build_item].
    destruct (ft_sers _ _ _ _ F n (List.length (q_chain p))) as (y & Y1 & Y2).
    { cbn. apply dget_dset_eq. }
    assert (dget n rem = Some y) as ->.
    { rewrite (rl_rem _ _ _ _ _ _ R). unfold dmem. rewrite Fr. exact Y1. }
    unfold ProtoModel.pr_ser. rewrite (rl_names _ _ _ _ _ _ R).
    rewrite add_name_in by (apply (ft_names _ _ _ _ F); cbn; exact M1). cbn [option_map].
    eexists. eexists. split; [reflexivity|]. cbn [q_id]. split; [exact I|].
    pose proof (sh_length _ _ (rl_sh _ _ _ _ _ _ R)) as Ls.
    destruct R as [R1 R2 R3 R4 R5 R6 R7 R8 R9 R10 R11 R12 R13 R14 R15].
    split; cbn; try assumption; try reflexivity.
    - fold (extra l). rewrite El. cbn. apply sh_app; [exact R2|]. constructor; [|constructor].
      destruct x, y; try discriminate; exact Logic.I.
    - rewrite R11, Ls. reflexivity.
    - intros i b ps r H1 H2 H3. destruct (R12 i b ps r H1 H2 H3) as (z & X1 & X2). exists z.
      split; [apply c_get_app; exact X1|exact X2].
    - intros m ps X. destruct (R13 m ps X) as (z & X1 & X2). exists z. split; [apply c_get_app; exact X1|exact X2].
    - intros m. rewrite dget_ddel, R14. unfold dmem. rewrite dget_dset. destruct (eq_dec m n); reflexivity.
    - intros m i z. rewrite dget_dset. destruct (eq_dec m n) as [->|].
      + intros X Hz. injection X as <-. rewrite Ls, nth_error_app2, Nat.sub_diag by lia. cbn. congruence.
      + intros H1 H2. pose proof (R15 m i z H1 H2) as N. rewrite nth_error_app1; [exact N|].
        apply nth_error_Some. congruence.
  Qed.

  Lemma value_claim d p c : Claim d p -> sh (q_chain p) c -> Claim d (with_chain p c).
  Proof.
    intros C S rs names sers id F P. 
    destruct (C rs names sers id) as (q & rem & B & I & R).
    - destruct F as [F1 F2 F3 F4]. split; assumption.
    - exact P.
    - exists q, rem. split; [exact B|]. split; [exact I|].
      destruct R as [R1 R2 R3 R4 R5 R6 R7 R8 R9 R10 R11 R12 R13 R14 R15].
      split; cbn; try assumption. eapply sh_trans; [apply sh_sym; exact S|exact R2].
  Qed.

  (** The serializables for which building gives the same shape. *)
  Definition ser_op_ok (o : pop) : Prop :=
    match o with
    | PSer _ c l => (exists x, c = [x] /\ is_arr x = false) /\ extra l = O
    | _ => True
    end.

  Lemma set_ser p n v p' : pr_set p n v = Some p' -> q_ser p' = q_ser p.
  Proof. intros H. destruct (set_chain _ _ _ _ H) as [->|(ps & z & ->)]; reflexivity. Qed.

  Lemma run_claim d ops : forall p p', PI p -> Claim d p ->
    Forall ser_op_ok ops -> NoDup (ser_names ops) ->
    (forall n, In n (ser_names ops) -> dget n (q_ser p) = None) ->
    pr_run p ops = Some p' -> Claim d p'.
  Proof.
    induction ops as [|o ops IH]; intros p p' HP C Fo ND Fr E; cbn [ProtoModel.pr_run] in E.
    - injection E as <-. exact C.
    - destruct (pr_step p o) as [p1|] eqn:E1; [|discriminate].
      inversion Fo as [|? ? Ho Fo']; subst.
      assert (HP1 : PI p1) by (eapply step_PI; eassumption).
      assert (ND' : NoDup (ser_names ops)) by (eapply NoDup_app_r; exact ND).
      assert (Fr' : forall n, In n (ser_names ops) -> dget n (q_ser p) = None).
      { intros n Hn. apply Fr. apply in_or_app. right. exact Hn. }
      refine (IH p1 p' HP1 _ Fo' ND' _ E).
      + destruct o as [n k e l|k rops|n c l|n v|dd]; cbn [ProtoModel.pr_step] in E1.
        * exact (field_claim d p n k e l p1 HP C E1).
        * exact (bits_claim d p _ p1 HP C E1).
        * destruct Ho as [(x & -> & Ax) El]. 
          refine (ser_claim d p n x l p1 HP C Ax El _ E1). apply Fr. left. reflexivity.
        * injection E1 as <-. destruct (pr_set p n v) as [p1|] eqn:Es; [|exact C].
          destruct (set_chain _ _ _ _ Es) as [->|(ps & z & ->)]; [exact C|].
          apply value_claim; [exact C|apply c_put_sh].
        * injection E1 as <-. apply value_claim; [exact C|apply from_stream_sh].
      + intros m Hm. destruct o as [n k e l|k rops|n c l|n v|dd]; cbn [ProtoModel.pr_step] in E1.
        * rewrite pr_field_eq in E1. destruct (add_name _ _); [|discriminate].
          destruct (enum_of _ _ _); [|discriminate]. destruct (kind_of _ _); [|discriminate].
          injection E1 as <-. cbn. auto.
        * rewrite pr_bits_eq in E1. destruct (g_add _ _ _ _) as [[ns g]|]; [|discriminate].
          injection E1 as <-. cbn. auto.
        * unfold ProtoModel.pr_ser in E1. destruct (add_name _ _); [|discriminate]. injection E1 as <-. cbn.
          rewrite dget_dset. destruct (eq_dec m n) as [->|]; [|auto]. exfalso. cbn in ND.
          inversion ND; subst. auto.
        * injection E1 as <-. destruct (pr_set p n v) as [p1|] eqn:Es; [|auto].
          rewrite (set_ser _ _ _ _ Es). auto.
        * injection E1 as <-. cbn. auto.
  Qed.
End Proto.
