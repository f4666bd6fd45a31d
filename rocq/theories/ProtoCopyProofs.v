(** Proofs about protocols: copies. *)
From Coq Require Import ZifyBool ZifyNat Lia.
From Verif Require Import Base BaseLemmas PrimModel PrimSpec PrimProofs StringModel ArrayModel
  ArraySpec ArrayProofs ChainModel RegistryModel EnumModel EnumSpec EnumProofs EnumProps FieldModel
  FieldSpec FieldProofs FieldExportProofs FieldProps ProtoModel ProtoSpec ProtoProofs ProtoBuildProofs
  ProtoReplayProofs ProtoSimProofs ProtoImportProofs ProtoRoundProofs ProtoSizeProofs.

(** ** Reading the same data *)
Definition nrel (n m : node) : Prop :=
  match n with NArr a => exists b, m = NArr b /\ a_rel a b | _ => m = n_copy n end.

Section Host.
  Context (native_le : bool).

  Lemma unpack_kinds bo l : forall l' off d, map p_kind l = map p_kind l' ->
    unpack native_le bo off l d = unpack native_le bo off l' d.
  Proof.
    induction l as [|p l IH]; intros [|q l'] off d H; try discriminate; [reflexivity|].
    cbn in H. injection H as K H. cbn [unpack]. unfold ArrayModel.p_size. rewrite K.
    destruct (Nat.ltb _ _); [reflexivity|]. destruct (k_decode _ _ _ _); [|reflexivity].
    rewrite (IH l' _ _ H). reflexivity.
  Qed.
  Lemma unpack_len bo l : forall off d vs, unpack native_le bo off l d = Some vs -> List.length vs = List.length l.
  Proof.
    induction l as [|p l IH]; intros off d vs H; cbn [unpack] in H.
    - destruct d; [|discriminate]. injection H as <-. reflexivity.
    - destruct (Nat.ltb _ _); [discriminate|]. destruct (k_decode _ _ _ _); [|discriminate].
      destruct (unpack _ _ _ _ _) eqn:E; [|discriminate]. injection H as <-. cbn. rewrite (IH _ _ _ E). reflexivity.
  Qed.
  Lemma assign_same l : forall l' vs, map p_kind l = map p_kind l' -> List.length vs = List.length l ->
    assign l vs = assign l' vs.
  Proof.
    induction l as [|p l IH]; intros [|q l'] [|v vs] K L; try discriminate; [reflexivity|].
    cbn in *. injection K as K1 K2. unfold p_set. rewrite K1. f_equal. apply IH; [exact K2|lia].
  Qed.

  Lemma node_read n m l n' r k : nrel n m -> n_from_stream native_le n l = (n', ROk r k) ->
    n_from_stream native_le m l = (n', ROk r k).
  Proof.
    intros R H. destruct n as [a|d|c]; cbn [nrel n_copy] in R.
    - destruct R as (b & -> & R1 & R2 & R3 & R4 & R5 & R6). cbn [n_from_stream] in *.
      rewrite <- R2. destruct (stream_read (a_size a) l) as [u v]. unfold a_update in *.
      rewrite <- R1, <- (unpack_kinds _ _ _ _ _ R6).
      destruct (unpack native_le (a_order a) 0 (a_elems a) u) as [vs|] eqn:E; [|discriminate].
      rewrite <- (assign_same _ _ vs R6 (unpack_len _ _ _ _ _ E)).
      injection H as <- <- <-. unfold with_elems. rewrite R1, R2, R3, R4, R5. reflexivity.
    - subst. exact H.
    - subst. cbn [n_from_stream] in *. unfold pc_from_stream in *. cbn [pc_kind pc_order pc_size].
      destruct (prim_from_stream native_le (pc_kind c) (pc_order c) l) as [[x rest]|]; [|discriminate].
      destruct (stream_read x rest) as [data rest']. unfold pc_update_size in *. cbn [pc_prefix pc_data pc_kind pc_order pc_size] in *.
      destruct (x =? zlen data); [exact H|discriminate].
  Qed.

  Lemma chain_read c d : Forall2 nrel c d -> forall l c' r k,
    c_from_stream native_le c l = (c', ROk r k) -> c_from_stream native_le d l = (c', ROk r k).
  Proof.
    induction 1 as [|n m c d N H IH]; intros l c' r k E; cbn [c_from_stream] in *; [exact E|].
    destruct (n_from_stream native_le n l) as [n' [r1 k1| |]] eqn:En; try discriminate.
    rewrite (node_read n m l n' r1 k1 N En).
    destruct (c_from_stream native_le c r1) as [c1 [r2 k2| |]] eqn:Ec; try discriminate.
    rewrite (IH r1 c1 r2 k2 Ec). exact E.
  Qed.
End Host.

Definition fix_node (n : node) : Prop := match n with NPre _ => False | _ => True end.
Lemma nrel_size c d : Forall2 nrel c d -> Forall fix_node c -> c_length c = c_length d.
Proof.
  induction 1 as [|n m c d N H IH]; intros F; [reflexivity|]. inversion F; subst.
  cbn [c_length]. rewrite IH by assumption. f_equal. destruct n as [a|x|x]; cbn in N.
  - destruct N as (b & -> & R). cbn. apply R.
  - subst. reflexivity.
  - contradiction.
Qed.

Section Proto.
  Context (valid word : string -> bool) (int_of : string -> option Z)
          (bool_of : string -> option bool) (enums : ekey -> option renum)
          (eprim : ekey -> kind) (native_le : bool).

  Notation pr_init := (pr_init valid enums eprim).
  Notation build_item := (build_item valid enums eprim).
  Notation build_all := (build_all valid enums eprim).
  Notation pr_step := (pr_step valid int_of bool_of enums eprim native_le).
  Notation pr_run := (pr_run valid int_of bool_of enums eprim native_le).
  Notation pr_set := (pr_set int_of bool_of).
  Notation pr_copy := (pr_copy valid word enums eprim).
  Notation PI := (PI enums).

  (** The serializables are the members of the chain that are no arrays. *)
  Record CI (p : proto) : Prop := {
    ci_mi : MI p;
    ci_nd : NoDup (dkeys (q_ser p));
    ci_ser : forall n i, dget n (q_ser p) = Some i ->
      exists x, nth_error (q_chain p) i = Some x /\ is_arr x = false;
    ci_cov : forall i x, nth_error (q_chain p) i = Some x -> is_arr x = false ->
      exists n, dget n (q_ser p) = Some i
  }.

  Lemma new_CI id bo : CI (pr_new id bo).
  Proof.
    split; cbn.
    - split; cbn; repeat constructor.
    - constructor.
    - discriminate.
    - intros [|[|i]] x H A; try discriminate. injection H as <-. discriminate.
  Qed.

  Lemma node_rel_arr n m : node_rel n m -> is_arr n = is_arr m.
  Proof. destruct n, m; cbn; tauto. Qed.

  Lemma chain_CI p c : CI p -> sh (q_chain p) c -> chain_ok c -> CI (with_chain p c).
  Proof.
    intros [[M1 M2] A1 A2 A3] S O. split; cbn; [split; [exact O|exact M2]|exact A1| |].
    - intros n i H. destruct (A2 n i H) as (x & X1 & X2). pose proof (sh_nth _ _ S i) as N. rewrite X1 in N.
      destruct (nth_error c i) as [y|]; [|contradiction]. exists y. split; [reflexivity|].
      apply node_rel_arr in N. congruence.
    - intros i y H Y. pose proof (sh_nth _ _ S i) as N. rewrite H in N.
      destruct (nth_error (q_chain p) i) as [x|] eqn:E; [|contradiction]. apply (A3 i x E).
      apply node_rel_arr in N. congruence.
  Qed.

  Lemma c_add_nodes bo c p l i x : c <> [] -> nth_error (c_add bo c p l) i = Some x -> is_arr x = false ->
    nth_error c i = Some x.
  Proof.
    revert i. induction c as [|n c IH]; intros i Ne H A; [congruence|]. destruct c as [|m c].
    - destruct n as [a|d|d]; cbn in H.
      + destruct i as [|[|i]]; try discriminate. injection H as <-. discriminate.
      + destruct i as [|[|i]]; [exact H| |destruct i; discriminate]. injection H as <-. discriminate.
      + destruct i as [|[|i]]; [exact H| |destruct i; discriminate]. injection H as <-. discriminate.
    - rewrite c_add_cons2 in H. destruct i as [|i]; [exact H|]. apply IH; [discriminate|exact H|exact A].
  Qed.

  Lemma step_CI p o p' : PI p -> CI p -> chunk_op o ->
    (forall n, In n (ser_names [o]) -> dget n (q_ser p) = None) ->
    pr_step p o = Some p' -> CI p'.
  Proof.
    intros HP H Co Fr E. destruct o as [n k e l|k rops|n c l|n v|d]; cbn [ProtoModel.pr_step chunk_op] in E, Co.
    - rewrite pr_field_eq in E. destruct (add_name _ (q_names p) n) as [ns|]; [|discriminate].
      destruct (enum_of _ _ _ _); [|discriminate]. destruct (kind_of _ k e) as [kd|]; [|discriminate].
      injection E as <-. destruct H as [[M1 M2] A1 A2 A3]. split; cbn; [split; cbn|exact A1| |].
      + apply c_add_ok; [exact M1|]. unfold p_ok. cbn. apply zero_value.
      + exact M2.
      + intros m i Hm. destruct (A2 m i Hm) as (x & X1 & X2). exists x. split; [|exact X2].
        apply c_add_node; assumption.
      + intros i x Hx Ax. eapply A3; [|exact Ax]. eapply c_add_nodes; [apply (pi_ne _ _ HP)|exact Hx|exact Ax].
    - rewrite pr_bits_eq in E. destruct Co as [[bits Hk] Hw].
      destruct (made_value k bits rops Hk Hw) as [Mk Mv]. set (r := fst (r_run _ _ rops)) in *.
      destruct (g_add _ _ _ _ _ _) as [[ns g]|]; [|discriminate]. injection E as <-.
      destruct H as [[M1 M2] A1 A2 A3]. split; cbn; [split; cbn|exact A1| |].
      + apply c_add_ok; [exact M1|]. unfold p_ok. cbn. rewrite Mk. exact Mv.
      + apply Forall_app. split; [exact M2|]. constructor; [|constructor]. exists k, bits, rops. auto.
      + intros m i Hm. destruct (A2 m i Hm) as (x & X1 & X2). exists x. split; [|exact X2].
        apply c_add_node; assumption.
      + intros i x Hx Ax. eapply A3; [|exact Ax]. eapply c_add_nodes; [apply (pi_ne _ _ HP)|exact Hx|exact Ax].
    - unfold pr_ser in E. destruct (add_name _ (q_names p) n) as [ns|]; [|discriminate]. injection E as <-.
      destruct Co as [Sl Cc]. apply single_extra in Sl. specialize (Fr n (or_introl eq_refl)).
      assert (X : exists x, c = [x] /\ is_arr x = false) by (destruct Cc as [[d ->]|[d ->]]; eauto).
      destruct X as (x & -> & Ax). destruct H as [[M1 M2] A1 A2 A3]. cbn [c_add_to_end fst]. fold (extra l).
      rewrite Sl. split; cbn; [split; cbn| | |].
      + apply Forall_app. split; [exact M1|]. constructor; [|constructor]. destruct x; [discriminate|exact I|exact I].
      + exact M2.
      + apply NoDup_dset. exact A1.
      + intros m i. rewrite dget_dset. destruct (eq_dec m n) as [->|].
        * intros Y. injection Y as <-. exists x. split; [|exact Ax]. rewrite nth_error_app2, Nat.sub_diag by lia. reflexivity.
        * intros Hm. destruct (A2 m i Hm) as (y & Y1 & Y2). exists y. split; [|exact Y2].
          rewrite nth_error_app1; [exact Y1|]. apply nth_error_Some. congruence.
      + intros i y Hy Ay. destruct (Nat.lt_ge_cases i (List.length (q_chain p))) as [L|L].
        * rewrite nth_error_app1 in Hy by exact L. destruct (A3 i y Hy Ay) as [m Hm]. exists m.
          rewrite dget_dset. destruct (eq_dec m n); [congruence|exact Hm].
        * rewrite nth_error_app2 in Hy by exact L. exists n. rewrite dget_dset_eq. f_equal.
          destruct (i - List.length (q_chain p))%nat as [|[|z]] eqn:Ez; cbn in Hy; try discriminate. lia.
    - injection E as <-. destruct (pr_set p n v) as [p1|] eqn:Es; [|exact H].
      destruct (set_chain _ _ _ _ _ _ Es) as [->|(ps & z & ->)]; [exact H|].
      apply chain_CI; [exact H|apply c_put_sh|]. apply c_put_ok. apply H.
    - injection E as <-. apply chain_CI; [exact H|apply from_stream_sh|]. apply from_stream_ok. apply H.
  Qed.

  Lemma step_serd p o p' : pr_step p o = Some p' -> forall n, ~ In n (ser_names [o]) ->
    dget n (q_ser p') = dget n (q_ser p).
  Proof.
    intros E m N. destruct o as [n k e l|k ops|n c l|n v|d]; cbn [ProtoModel.pr_step] in E.
    - rewrite pr_field_eq in E. destruct (add_name _ (q_names p) n) as [ns|] eqn:En; [|discriminate].
      destruct (enum_of _ _ _ _); [|discriminate]. destruct (kind_of _ k e); [|discriminate].
      injection E as <-. reflexivity.
    - rewrite pr_bits_eq in E. destruct (g_add _ _ _ _ _ _) as [[ns g]|]; [|discriminate]. injection E as <-. reflexivity.
    - unfold pr_ser in E. destruct (add_name _ _ _); [|discriminate]. injection E as <-. cbn.
      rewrite dget_dset. destruct (eq_dec m n); [|reflexivity]. exfalso. apply N. left. congruence.
    - injection E as <-. destruct (pr_set p n v) as [p1|] eqn:Es; [|reflexivity].
      destruct (set_chain _ _ _ _ _ _ Es) as [->|(ps & z & ->)]; reflexivity.
    - injection E as <-. reflexivity.
  Qed.

  Lemma run_CI ops : forall p p', PI p -> CI p -> Forall chunk_op ops -> NoDup (ser_names ops) ->
    (forall n, In n (ser_names ops) -> dget n (q_ser p) = None) ->
    pr_run p ops = Some p' -> CI p'.
  Proof.
    induction ops as [|o ops IH]; intros p p' HP H Po ND Fr E; cbn [ProtoModel.pr_run] in E.
    - injection E as <-. exact H.
    - destruct (pr_step p o) as [p1|] eqn:E1; [|discriminate]. inversion Po as [|? ? Po1 Po2]; subst.
      assert (FN : ser_names (o :: ops) = ser_names [o] ++ ser_names ops).
      { destruct o; reflexivity. }
      rewrite FN in ND, Fr.
      eapply (IH p1); [eapply step_PI; eassumption| |exact Po2|eapply NoDup_app_r; exact ND| |exact E].
      + eapply step_CI; try eassumption. intros n Hn. apply Fr. apply in_or_app. auto.
      + intros n Hn. rewrite (step_serd _ _ _ E1).
        * apply Fr. apply in_or_app. auto.
        * intros X. destruct o; cbn in X; try contradiction. destruct X as [->|[]].
          cbn in ND. inversion ND; contradiction.
  Qed.

  (** Fixed-length serializables stay so. *)
  Lemma step_fix p o p' : Forall fix_node (q_chain p) -> fixed_op o -> chunk_op o -> pr_step p o = Some p' ->
    q_chain p <> [] -> Forall fix_node (q_chain p').
  Proof.
    intros F Fo Co E Ne.
    assert (Add : forall c bo x l, Forall fix_node c -> Forall fix_node (c_add bo c x l)).
    { intros c bo x l Fc. induction Fc as [|n c N H IH]; [constructor|]. destruct H as [|m c M H].
      - destruct n; cbn; repeat constructor; exact N.
      - rewrite c_add_cons2. constructor; assumption. }
    destruct o as [n k e l|k ops|n c l|n v|d]; cbn [ProtoModel.pr_step] in E.
    - rewrite pr_field_eq in E. destruct (add_name _ (q_names p) n) as [ns|] eqn:En; [|discriminate].
      destruct (enum_of _ _ _ _); [|discriminate]. destruct (kind_of _ k e); [|discriminate].
      injection E as <-. cbn. apply Add. exact F.
    - rewrite pr_bits_eq in E. destruct (g_add _ _ _ _ _ _) as [[ns g]|]; [|discriminate]. injection E as <-.
      cbn. apply Add. exact F.
    - unfold pr_ser in E. destruct (add_name _ _ _); [|discriminate]. injection E as <-.
      destruct Co as [Sl _]. destruct Fo as [d ->]. apply single_extra in Sl. cbn [c_add_to_end fst q_chain].
      fold (extra l). rewrite Sl. cbn. apply Forall_app. split; [exact F|]. repeat constructor.
    - injection E as <-. destruct (pr_set p n v) as [p1|] eqn:Es; [|exact F].
      destruct (set_chain _ _ _ _ _ _ Es) as [->|(ps & z & ->)]; [exact F|]. cbn.
      unfold c_put. destruct ps as [i q]. cbn [fst snd]. clear - F. revert i.
      induction F as [|m c M F IH]; intros [|i]; cbn; constructor; auto. destruct m; exact M.
    - injection E as <-. cbn. clear Fo Co. revert d. clear - F. induction F as [|m c M F IH]; intros d; cbn; [constructor|].
      assert (Fn : fix_node (fst (n_from_stream native_le m d))).
      { destruct m as [a|x|x]; cbn; [|destruct (stream_read _ _); exact I|contradiction].
        destruct (stream_read _ _). destruct (a_update _ _ _); exact I. }
      destruct (n_from_stream native_le m d) as [m' [r k| |]]; cbn [fst] in Fn; try (constructor; assumption).
      specialize (IH r). destruct (c_from_stream native_le c r) as [c' [r' k'| |]]; constructor; assumption.
  Qed.
  Lemma run_fix ops : forall p p', PI p -> Forall fix_node (q_chain p) -> Forall fixed_op ops -> Forall chunk_op ops ->
    pr_run p ops = Some p' -> Forall fix_node (q_chain p').
  Proof.
    induction ops as [|o ops IH]; intros p p' HP F Fo Co E; cbn [ProtoModel.pr_run] in E.
    - injection E as <-. exact F.
    - destruct (pr_step p o) as [p1|] eqn:E1; [|discriminate]. inversion Fo; subst. inversion Co; subst.
      apply (IH p1); try assumption; [eapply step_PI; eassumption|].
      eapply step_fix; try eassumption. apply (pi_ne _ _ HP).
  Qed.

  (** ** The copy *)
  Definition copied (p : proto) : list (string * node) :=
    flat_map (fun ni => match nth_error (q_chain p) (snd ni) with
                        | Some n => [(fst ni, n_copy n)] | None => [] end) (q_ser p).

  Lemma copied_get p : CI p -> forall n,
    dget n (copied p) = match dget n (q_ser p) with
                        | Some i => option_map n_copy (nth_error (q_chain p) i) | None => None end.
  Proof.
    intros [_ ND S _] n. unfold copied.
    assert (S' : forall m i, In (m, i) (q_ser p) -> exists x, nth_error (q_chain p) i = Some x).
    { intros m i H. destruct (S m i (In_dget _ _ _ ND H)) as (x & X & _). eauto. }
    clear S ND. induction (q_ser p) as [|[m i] l IH]; [reflexivity|]. cbn [flat_map fst snd].
    destruct (S' m i (or_introl eq_refl)) as [x X]. rewrite X. cbn [app dget].
    destruct (eq_dec n m); [rewrite X; reflexivity|]. apply IH. intros m' i' H. apply (S' m' i'). right. exact H.
  Qed.

  Lemma copy_imports p : pr_copy p =
    match mgr_regs p with
    | None => None
    | Some rs =>
        match all_some (fun r => r_import word (r_asdict r)) rs with
        | None => None
        | Some rs' => pr_init (q_names p) rs' (q_build p) 1 (q_order p) (copied p)
        end
    end.
  Proof. reflexivity. Qed.

  Lemma drop_false l : map (drop_len false) l = l.
  Proof. induction l as [|[i|n k e m|n] l IH]; cbn; congruence. Qed.

  Lemma imported_fits' p rs : PI p -> MI p -> all_some (imp word p) (q_bits p) = Some rs -> fitting p rs.
  Proof.
    intros HP HM H. destruct (all_some_nth _ _ _ H) as [L N]. split; [exact L|].
    intros i b Hb. destruct (N i b Hb) as (r & E1 & E2). exists r. split; [exact E2|].
    destruct (imp_spec valid word int_of bool_of enums p b r HP HM (nth_error_In _ _ Hb) E1) as [B _]. exact B.
  Qed.

  (** What a copy is. *)
  Lemma copy_spec p : PI p -> CI p -> Claim valid enums eprim false p ->
    ((exists c, pr_copy p = Some c) <-> all_loadable word p) /\
    forall c, pr_copy p = Some c ->
      q_id c = 1 /\
      exists rs, all_some (imp word p) (q_bits p) = Some rs /\
        Rel enums rs (q_names p) (copied p) p c [] /\
        Sim (List.length rs) (with_chain p (q_chain c)) c /\
        Forall2 nrel (q_chain p) (q_chain c).
  Proof.
    intros HP HC C. rewrite copy_imports, (mgr_regs_all enums p HP), all_some_map.
    change (fun x => r_import word (r_asdict (cur_regs (q_chain p) x))) with (imp word p).
    assert (L : all_loadable word p <-> exists rs, all_some (imp word p) (q_bits p) = Some rs).
    { rewrite all_some_total, Forall_forall. split; intros H b Hb; apply (imp_some word enums p b HP (ci_mi _ HC) Hb); apply H; exact Hb. }
    assert (Bl : forall rs, all_some (imp word p) (q_bits p) = Some rs ->
      exists c, pr_init (q_names p) rs (q_build p) 1 (q_order p) (copied p) = Some c /\ q_id c = 1 /\
        Rel enums rs (q_names p) (copied p) p c [] /\
        Sim (List.length rs) (with_chain p (q_chain c)) c /\
        Forall2 nrel (q_chain p) (q_chain c)).
    { intros rs HI. pose proof (imported_fits' p rs HP (ci_mi _ HC) HI) as Ft.
      destruct (init_rel valid enums eprim false p rs (q_names p) (copied p) 1 (q_build p) HP Ft C) as (c & E & I1 & R).
      - auto.
      - intros n i H. destruct (ci_ser _ HC n i H) as (x & X1 & X2). exists (n_copy x).
        rewrite (copied_get p HC), H, X1. split; [reflexivity|]. destruct x; [discriminate| |]; reflexivity.
      - intros n H. rewrite (copied_get p HC). unfold dmem in H. destruct (dget n (q_ser p)); [discriminate|reflexivity].
      - apply Forall_forall. intros [i|n k e m|n] _; cbn; try exact I. discriminate.
      - rewrite drop_false. reflexivity.
      - exists c. split; [exact E|]. split; [exact I1|]. split; [exact R|]. split.
        + apply (rel_sim enums p c rs (q_names p) (copied p) [] HP Ft R). reflexivity.
        + pose proof (rl_sh _ _ _ _ _ _ _ R) as S. pose proof (sh_length _ _ S) as Ls.
          apply (nth_Forall2 nrel); [exact Ls|]. intros i m Hm.
          pose proof (sh_nth _ _ S i) as N. rewrite Hm in N.
          destruct (nth_error (q_chain p) i) as [n|] eqn:En; [|contradiction]. exists n. split; [reflexivity|].
          destruct n as [a|d|d].
          * destruct m as [b|x|x]; cbn in N; try contradiction. cbn. eauto.
          * destruct (ci_cov _ HC i _ En eq_refl) as [nm Hn]. cbn.
            assert (X : nth_error (q_chain c) i = Some (n_copy (NFix d))).
            { apply (rl_nodes _ _ _ _ _ _ _ R nm i); [exact Hn|]. rewrite (copied_get p HC), Hn, En. reflexivity. }
            rewrite Hm in X. injection X as ->. reflexivity.
          * destruct (ci_cov _ HC i _ En eq_refl) as [nm Hn]. cbn.
            assert (X : nth_error (q_chain c) i = Some (n_copy (NPre d))).
            { apply (rl_nodes _ _ _ _ _ _ _ R nm i); [exact Hn|]. rewrite (copied_get p HC), Hn, En. reflexivity. }
            rewrite Hm in X. injection X as ->. reflexivity. }
    rewrite L. destruct (all_some (imp word p) (q_bits p)) as [rs|] eqn:Ers.
    - destruct (Bl rs eq_refl) as (c & Ec & I1 & R & S & F). rewrite Ec. split; [split; eauto|].
      intros c' H. injection H as <-. split; [exact I1|]. exists rs. auto.
    - split; [split|discriminate]; intros [x H]; discriminate.
  Qed.

  (** Two protocols in this relation look the same. *)
  Lemma sim_same K p q : PI p -> Sim K p q -> same_view native_le p q.
  Proof.
    intros HP S. split; [apply S|]. unfold pr_size, pr_bytes. rewrite <- (sm_chain _ _ _ S).
    split; [reflexivity|]. split; [reflexivity|]. intros n. apply (sim_value valid int_of bool_of enums K p q n HP S).
  Qed.
  Lemma sim_protocol K p q : PI p -> Sim K p q ->
    same_protocol valid int_of bool_of enums eprim native_le p q.
  Proof.
    intros HP S ops. pose proof (sim_run valid int_of bool_of enums eprim native_le K ops p q HP S) as H.
    destruct (pr_run p ops) as [p'|], (pr_run q ops) as [q'|]; cbn [orel] in H; try contradiction; [|exact I].
    destruct H as [HP' S']. apply (sim_same K); assumption.
  Qed.

  Lemma copy_received p c data : PI p -> CI p -> Claim valid enums eprim false p ->
    pr_copy p = Some c -> fills native_le p data ->
    same_protocol valid int_of bool_of enums eprim native_le (received native_le p data) (received native_le c data).
  Proof.
    intros HP HC C E (rest & count & F). destruct (copy_spec p HP HC C) as [_ Sp].
    destruct (Sp c E) as (_ & rs & _ & _ & S & N).
    unfold received. destruct (c_from_stream native_le (q_chain p) data) as [c' res] eqn:Ec. cbn [fst snd] in *. subst.
    rewrite (chain_read native_le _ _ N _ _ _ _ Ec). cbn [fst].
    apply (sim_protocol (List.length rs)).
    - apply chain_PI; [exact HP|]. pose proof (from_stream_sh native_le (q_chain p) data) as Sh. rewrite Ec in Sh. exact Sh.
    - apply (sim_chain _ _ _ c') in S. exact S.
  Qed.

  (** Values of a copy that received nothing: bit fields keep theirs, regular
      fields are zero. *)
  Lemma copy_values p c : PI p -> CI p -> Claim valid enums eprim false p -> pr_copy p = Some c ->
    (forall n res, dget n (q_reg p) = None -> g_get c n res = g_get p n res) /\
    (forall n, dmem n (q_reg p) = true -> dmem n (q_enum p) = false -> pr_value c n = Some (VInt 0)).
  Proof.
    intros HP HC C E. destruct (copy_spec p HP HC C) as [_ Sp].
    destruct (Sp c E) as (_ & rs & HI & R & S & N).
    assert (HPc : PI (with_chain p (q_chain c))) by (apply chain_PI; [exact HP|apply (rl_sh _ _ _ _ _ _ _ R)]).
    split.
    - intros n res _. rewrite <- (sim_get valid int_of bool_of enums _ _ _ n res HPc S).
      unfold g_get. rewrite g_find_chain. destruct (g_find p n) as [[b f]|] eqn:Ef; [|reflexivity].
      pose proof Ef as Ef'. apply find_in in Ef' as [i Hi].
      assert (Hf : dget n (r_fields (b_regs b)) = Some f).
      { unfold g_find in Ef. destruct (dget n (g_lookup (q_mgr p))) as [n0|]; [|discriminate].
        destruct (nth_error (g_fields (q_mgr p)) n0) as [n1|]; [|discriminate].
        destruct (nth_error (q_bits p) n1) as [b'|]; [|discriminate].
        destruct (dget n (r_fields (b_regs b'))) as [g|] eqn:Eg; [|discriminate].
        cbn in Ef. injection Ef as -> ->. exact Eg. }
      destruct (all_some_nth _ _ _ HI) as [L Nn]. destruct (Nn i b Hi) as (r & E1 & E2).
      destruct (imp_spec valid word int_of bool_of enums p b r HP (ci_mi _ HC) (nth_error_In _ _ Hi) E1) as (_ & _ & Rr & _).
      destruct (Rr n f Hf) as (_ & _ & I3).
      destruct (pi_bits _ _ HP i b Hi) as (ps & x & P1 & P2 & P3).
      destruct (rl_valb _ _ _ _ _ _ _ R i b ps r Hi P1 E2) as (y & Y1 & Y2).
      assert (Cc : cur_regs (q_chain c) b = with_raw (b_regs b) (r_raw r)).
      { unfold cur_regs. rewrite P1, Y1, Y2. reflexivity. }
      cbn [with_chain q_chain q_mgr]. rewrite Cc. cbn [with_raw r_raw]. rewrite I3. reflexivity.
    - intros n D1 D2. unfold pr_value. rewrite (rl_reg _ _ _ _ _ _ _ R), (rl_enum _ _ _ _ _ _ _ R).
      unfold dmem in D1, D2. destruct (dget n (q_reg p)) as [ps|] eqn:Er; [|discriminate].
      destruct (dget n (q_enum p)); [discriminate|].
      destruct (rl_valr _ _ _ _ _ _ _ R n ps Er) as (x & X1 & X2). rewrite X1, X2. reflexivity.
  Qed.

  Lemma copy_size p c : PI p -> CI p -> Claim valid enums eprim false p -> Forall fix_node (q_chain p) ->
    pr_copy p = Some c -> pr_size c = pr_size p /\ q_order c = q_order p.
  Proof.
    intros HP HC C F E. destruct (copy_spec p HP HC C) as [_ Sp].
    destruct (Sp c E) as (_ & rs & HI & R & S & N). unfold pr_size. rewrite (nrel_size _ _ N F).
    split; [reflexivity|]. apply R.
  Qed.

  (** ** Copies of copies *)
  Lemma copy_id p c : pr_copy p = Some c -> q_id c = 1.
  Proof.
    rewrite copy_imports. destruct (mgr_regs p) as [rs|]; [|discriminate].
    destruct (all_some _ rs) as [rs'|]; [|discriminate]. unfold ProtoModel.pr_init.
    destruct (g_load _ _ _ _ _ _) as [[ns g]|]; [|discriminate].
    destruct (build_all _ _) as [[q [|x y]]|] eqn:E; try discriminate. intros H. injection H as <-.
    assert (G : forall l s q rem, build_all s l = Some (q, rem) -> q_id q = q_id (fst s)).
    { clear. induction l as [|it l IH]; intros [a sers] q rem H; cbn [ProtoModel.build_all] in H.
      - injection H as <- <-. reflexivity.
      - destruct (build_item (a, sers) it) as [[a1 s1]|] eqn:E; [|discriminate]. rewrite (IH _ _ _ H). cbn [fst].
        destruct it as [i|n k e m|n]; cbn [ProtoModel.build_item] in E.
        + destruct (nth_error _ i) as [o|]; [|discriminate]. unfold ProtoModel.pr_place in E.
          destruct (nth_error (q_bits a) o) as [b|]; [|discriminate].
          destruct (g_add _ _ _ _ _ _) as [[ns g]|]; [|discriminate]. cbn in E. injection E as <- <-. reflexivity.
        + rewrite pr_field_eq in E. destruct (add_name _ (q_names a) n) as [ns|]; [|discriminate].
          destruct (enum_of _ _ _ _); [|discriminate]. cbn in E. injection E as <- <-. reflexivity.
        + destruct (dget n sers) as [x|]; [|discriminate]. unfold pr_ser in E.
          destruct (add_name _ (q_names a) n); [|discriminate]. cbn in E. injection E as <- <-. reflexivity. }
    rewrite (G _ _ _ _ E). reflexivity.
  Qed.

  (** Without build items a copy is empty. *)
  Lemma no_build_copy p c : q_build p = [] -> pr_copy p = Some c -> pr_size c = 0 /\ q_reg c = [].
  Proof.
    intros B. rewrite copy_imports, B. destruct (mgr_regs p) as [rs|]; [|discriminate].
    destruct (all_some _ rs) as [rs'|]; [|discriminate]. intros H. split.
    - apply init_size in H as [_ H]; [exact H|constructor].
    - unfold ProtoModel.pr_init in H. destruct (g_load _ _ _ _ _ _) as [[ns g]|]; [|discriminate].
      cbn in H. destruct (copied p); [|discriminate]. injection H as <-. reflexivity.
  Qed.

  Definition is_ser (it : bitem) : Prop := match it with BSer _ => True | _ => False end.

  Lemma build_sers l : forall s q rem, build_all s l = Some (q, rem) ->
    Forall is_ser (q_build (fst s)) -> Forall is_ser (q_build q).
  Proof.
    induction l as [|it l IH]; intros [a sers] q rem H B; cbn [ProtoModel.build_all] in H.
    - injection H as <- <-. exact B.
    - destruct (build_item (a, sers) it) as [[a1 s1]|] eqn:E; [|discriminate].
      eapply IH; [exact H|]. cbn [fst] in *. destruct it as [i|n k e m|n]; cbn [ProtoModel.build_item] in E.
      + destruct (nth_error _ i) as [o|]; [|discriminate]. unfold ProtoModel.pr_place in E.
        destruct (nth_error (q_bits a) o) as [b|]; [|discriminate].
        destruct (g_add _ _ _ _ _ _) as [[ns g]|]; [|discriminate]. cbn in E. injection E as <- <-. cbn.
        rewrite app_nil_r. exact B.
      + rewrite pr_field_eq in E. destruct (add_name _ (q_names a) n) as [ns|]; [|discriminate].
        destruct (enum_of _ _ _ _); [|discriminate]. cbn in E. injection E as <- <-. cbn.
        rewrite app_nil_r. exact B.
      + destruct (dget n sers) as [x|]; [|discriminate]. unfold pr_ser in E.
        destruct (add_name _ (q_names a) n); [|discriminate]. cbn in E. injection E as <- <-. cbn.
        apply Forall_app. split; [exact B|]. repeat constructor.
  Qed.
  Lemma build_no_reg l : Forall is_ser l -> forall s q rem, build_all s l = Some (q, rem) ->
    q_reg q = q_reg (fst s).
  Proof.
    induction 1 as [|it l I H IH]; intros [a sers] q rem E; cbn [ProtoModel.build_all] in E.
    - injection E as <- <-. reflexivity.
    - destruct it as [i|n k e m|n]; try contradiction. cbn [ProtoModel.build_item] in E.
      destruct (dget n sers) as [x|]; [|discriminate]. unfold pr_ser in E.
      destruct (add_name _ (q_names a) n); [|discriminate]. cbn [option_map] in E. rewrite (IH _ _ _ E). reflexivity.
  Qed.

  Lemma copy_copy p c d : pr_copy p = Some c -> pr_copy c = Some d ->
    q_reg d = [] /\ (q_build c = [] -> pr_size d = 0).
  Proof.
    intros E1 E2. split; [|intros B; apply (no_build_copy c d B E2)].
    assert (Ns : Forall is_ser (q_build c)).
    { rewrite copy_imports in E1. destruct (mgr_regs p) as [rs|]; [|discriminate].
      destruct (all_some _ rs) as [rs'|]; [|discriminate]. unfold ProtoModel.pr_init in E1.
      destruct (g_load _ _ _ _ _ _) as [[ns g]|]; [|discriminate].
      destruct (build_all _ _) as [[q [|x y]]|] eqn:E; try discriminate. injection E1 as <-.
      eapply build_sers; [exact E|constructor]. }
    rewrite copy_imports in E2. destruct (mgr_regs c) as [rs|]; [|discriminate].
    destruct (all_some _ rs) as [rs'|]; [|discriminate]. unfold ProtoModel.pr_init in E2.
    destruct (g_load _ _ _ _ _ _) as [[ns g]|]; [|discriminate].
    destruct (build_all _ _) as [[q [|x y]]|] eqn:E; try discriminate. injection E2 as <-.
    rewrite (build_no_reg _ Ns _ _ _ E). reflexivity.
  Qed.

  Lemma copy_build p c : Forall (fun it => match it with BSer _ => False | _ => True end) (q_build p) ->
    pr_copy p = Some c -> q_build c = [].
  Proof.
    intros Ns. rewrite copy_imports. destruct (mgr_regs p) as [rs|]; [|discriminate].
    destruct (all_some _ rs) as [rs'|]; [|discriminate]. unfold ProtoModel.pr_init.
    destruct (g_load _ _ _ _ _ _) as [[ns g]|]; [|discriminate].
    destruct (build_all _ _) as [[q [|x y]]|] eqn:E; try discriminate. intros H. injection H as <-.
    eapply build_all_build; [exact E|reflexivity|exact Ns].
  Qed.

  Lemma run_no_ser ops : forall p p', Forall no_ser ops -> pr_run p ops = Some p' ->
    Forall (fun it => match it with BSer _ => False | _ => True end) (q_build p) ->
    Forall (fun it => match it with BSer _ => False | _ => True end) (q_build p').
  Proof.
    induction ops as [|o ops IH]; intros p p' Po E B; cbn [ProtoModel.pr_run] in E.
    - injection E as <-. exact B.
    - destruct (pr_step p o) as [p1|] eqn:E1; [|discriminate]. inversion Po as [|? ? Po1 Po2]; subst.
      apply (IH p1); [exact Po2|exact E|].
      destruct o as [n k e l|k rops|n c l|n v|d]; cbn [ProtoModel.pr_step] in E1.
      + rewrite pr_field_eq in E1. destruct (add_name _ (q_names p) n) as [ns|]; [|discriminate].
        destruct (enum_of _ _ _ _); [|discriminate]. destruct (kind_of _ k e); [|discriminate].
        injection E1 as <-. cbn. apply Forall_app. split; [exact B|]. repeat constructor.
      + rewrite pr_bits_eq in E1. destruct (g_add _ _ _ _ _ _) as [[ns g]|]; [|discriminate]. injection E1 as <-.
        cbn. apply Forall_app. split; [exact B|]. repeat constructor.
      + contradiction.
      + injection E1 as <-. destruct (pr_set p n v) as [p1|] eqn:Es; [|exact B].
        destruct (set_chain _ _ _ _ _ _ Es) as [->|(ps & z & ->)]; exact B.
      + injection E1 as <-. exact B.
  Qed.
End Proto.
