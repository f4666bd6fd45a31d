(** Lemmas for C50 and C65. *)
From Coq Require Import ZifyBool ZifyNat.
From Verif Require Import Base BaseLemmas PrimModel PrimSpec PrimProofs ArrayModel ArraySpec
  ArrayProofs ChainModel ChainSpec ChainProofs StructModel StructSpec.

(** ** Lists *)
Lemma set_obj_length {A} i (x : A) l : List.length (set_obj i x l) = List.length l.
Proof. revert i. induction l as [|y l IH]; intros [|i]; cbn; auto. Qed.

Lemma set_obj_same {A} i (x d : A) l : (i < List.length l)%nat -> nth i (set_obj i x l) d = x.
Proof.
  revert i. induction l as [|y l IH]; intros [|i] H; cbn in *; try lia; [reflexivity|].
  apply IH. lia.
Qed.

Lemma set_obj_other {A} i j (x d : A) l : i <> j -> nth j (set_obj i x l) d = nth j l d.
Proof.
  revert i j. induction l as [|y l IH]; intros [|i] [|j] H; cbn; try reflexivity; try lia.
  apply IH. lia.
Qed.

Lemma set_obj_map {A B} (f : A -> B) i (x d : A) l :
  f x = f (nth i l d) -> map f (set_obj i x l) = map f l.
Proof.
  revert i. induction l as [|y l IH]; intros [|i] H; cbn in *; try reflexivity.
  - rewrite H. reflexivity.
  - f_equal. apply IH. exact H.
Qed.

Lemma set_obj_Forall {A} (P : A -> Prop) i x l : P x -> Forall P l -> Forall P (set_obj i x l).
Proof.
  intros Hx. revert i. induction l as [|y l IH]; intros [|i] H; cbn; auto;
    inversion H; subst; constructor; auto.
Qed.

Lemma set_obj_put i (x : prim) l : map p_val (set_obj i x l) = put i (p_val x) (map p_val l).
Proof. revert i. induction l as [|y l IH]; intros [|i]; cbn; auto. f_equal. apply IH. Qed.

Lemma fold_total l : fold_right Z.add 0 (map p_size l) = total_size l.
Proof. induction l as [|p l IH]; [reflexivity|]. cbn [map fold_right]. rewrite IH, total_cons. reflexivity. Qed.

(** ** Samples *)
Section Host.
  Context (native_le : bool) (bo : byte_order) (std : standard bo)
          (objs0 : list prim) (refs : list nat) (Hst : struct_ok objs0 refs).
  Notation kinds := (map p_kind objs0).

  (** Contents the struct can have. *)
  Definition snap (o : list prim) : Prop := Forall p_ok o /\ map p_kind o = kinds.

  Definition encd (o : list prim) : list Z :=
    match pack native_le bo 0 (elems o refs) with Some d => d | None => [] end.

  Notation size := (total_size (elems objs0 refs)).

  Lemma snap_length o : snap o -> List.length o = List.length objs0.
  Proof. intros [_ H]. rewrite <- (map_length p_kind o), H. apply map_length. Qed.

  Lemma snap_ok o : snap o -> Forall p_ok (elems o refs).
  Proof.
    intros H. pose proof (snap_length o H) as L. destruct H as [H _]. unfold elems.
    apply Forall_map. eapply Forall_impl; [|apply (so_refs _ _ Hst)]. cbn. intros r Hr.
    eapply Forall_forall; [exact H|]. apply nth_In. rewrite L. exact Hr.
  Qed.

  Lemma elems_kinds o o' : map p_kind o = map p_kind o' ->
    map p_kind (elems o refs) = map p_kind (elems o' refs).
  Proof.
    intros H. unfold elems. rewrite !map_map. apply map_ext. intros r.
    rewrite <- !(map_nth p_kind). rewrite H. reflexivity.
  Qed.

  Lemma snap_size o : snap o -> total_size (elems o refs) = size.
  Proof. intros [_ H]. apply total_kinds, elems_kinds, H. Qed.

  Lemma snap_pack o : snap o -> pack native_le bo 0 (elems o refs) = Some (encd o).
  Proof.
    intros H. unfold encd.
    destruct (pack_some native_le bo _ 0 (snap_ok o H)) as [d ->]. reflexivity.
  Qed.

  Lemma encd_length o : snap o -> zlen (encd o) = size.
  Proof.
    intros H. rewrite <- (snap_size o H).
    apply (pack_std_length native_le bo _ std 0 _ (snap_pack o H)).
  Qed.

  Lemma size_pos : 0 < size.
  Proof.
    destruct (so_head _ _ Hst) as [r ->]. unfold elems. cbn [map]. rewrite total_cons.
    match goal with |- 0 < p_size ?p + _ => pose proof (p_size_pos p) end.
    match goal with |- context [total_size ?l] => pose proof (total_nonneg l) end. lia.
  Qed.

  Lemma head_kind o : snap o -> p_kind (nth 0 o no_prim) = U64.
  Proof.
    intros [_ H]. pose proof (so_time _ _ Hst) as E. rewrite <- (map_nth p_kind), H, (map_nth p_kind).
    destruct objs0; [discriminate E|]. cbn in *. congruence.
  Qed.

  (** The first eight bytes are the timestamp. *)
  Lemma encd_time o : snap o ->
    k_decode native_le U64 bo (firstn (k_size U64) (encd o)) = Some (p_val (nth 0 o no_prim)).
  Proof.
    intros H. pose proof (snap_pack o H) as E. pose proof (snap_ok o H) as Hok.
    pose proof (head_kind o H) as Hk. destruct (so_head _ _ Hst) as [r Er]. rewrite Er in *.
    unfold elems in E, Hok. cbn [map pack] in E, Hok.
    rewrite (pad_std _ _ _ std) in E. cbn [repeat app] in E.
    destruct (k_encode native_le (p_kind (nth 0 o no_prim)) bo (p_val (nth 0 o no_prim))) as [x|] eqn:Ex;
      [|discriminate].
    destruct (pack _ _ _ (map _ r)) as [y|]; [|discriminate]. injection E as E. rewrite <- E.
    rewrite Hk in Ex. pose proof (encode_length _ _ _ _ _ Ex) as L. rewrite <- L.
    rewrite firstn_app, Nat.sub_diag, firstn_all, firstn_O, app_nil_r.
    eapply decode_encode; [|exact Ex].
    inversion Hok as [|? ? Hp _]; subst. unfold p_ok in Hp. rewrite Hk in Hp. exact Hp.
  Qed.

  (** Assigning the values of a sample to a receiver. *)
  Lemma assign_all_kinds rs : forall vs xs ts,
    map (fun o => p_kind (r_prim o)) (assign_all xs rs vs ts) =
    map (fun o => p_kind (r_prim o)) xs.
  Proof.
    induction rs as [|r rs IH]; intros [|v vs] xs ts; cbn [assign_all]; try reflexivity.
    rewrite IH. apply set_obj_map with (d := no_robj). reflexivity.
  Qed.

  Lemma assign_all_at o xs ts rs :
    snap o -> map (fun o => p_kind (r_prim o)) xs = kinds ->
    Forall (fun r => (r < List.length objs0)%nat) rs ->
    forall r,
      nth r (assign_all xs rs (map (fun r => p_val (nth r o no_prim)) rs) ts) no_robj =
      if existsb (Nat.eqb r) rs then mkR (nth r o no_prim) ts else nth r xs no_robj.
  Proof.
    intros Ho. revert xs. induction rs as [|i rs IH]; intros xs Hk Hr r; cbn [map assign_all existsb];
      [reflexivity|].
    inversion Hr as [|? ? Hi Hr']; subst.
    assert (Lx : List.length xs = List.length objs0).
    { rewrite <- (map_length p_kind objs0), <- Hk. symmetry. apply map_length. }
    assert (Ei : mkR (p_set (r_prim (nth i xs no_robj)) (p_val (nth i o no_prim))) ts
                 = mkR (nth i o no_prim) ts).
    { f_equal. unfold p_set.
      assert (Kx : p_kind (r_prim (nth i xs no_robj)) = p_kind (nth i o no_prim)).
      { destruct Ho as [_ Ho]. rewrite <- (map_nth p_kind o), Ho, <- Hk.
        change (p_kind no_prim) with ((fun o => p_kind (r_prim o)) no_robj).
        rewrite map_nth. reflexivity. }
      rewrite Kx, store_id.
      - destruct (nth i o no_prim); reflexivity.
      - pose proof (snap_length o Ho) as Lo. destruct Ho as [Ho _].
        eapply Forall_forall in Ho; [exact Ho|]. apply nth_In. lia. }
    rewrite Ei, IH; [|rewrite (set_obj_map _ i _ no_robj); [exact Hk|]|exact Hr'].
    - destruct (Nat.eqb_spec r i) as [->|Hne]; cbn [orb].
      + rewrite set_obj_same by lia. destruct (existsb _ rs); reflexivity.
      + destruct (existsb _ rs); [reflexivity|]. apply set_obj_other. congruence.
    - rewrite <- Ei. reflexivity.
  Qed.

  Definition rcv (x : rx) : Prop := receives x objs0 refs bo.

  Lemma rcv_kinds x o : rcv x -> snap o -> map p_kind (x_elems x) = map p_kind (elems o refs).
  Proof.
    intros (H1 & H2 & H3) [_ Ho]. unfold x_elems. rewrite H2. apply elems_kinds.
    rewrite map_map, H1. symmetry. exact Ho.
  Qed.

  Lemma single o x : snap o -> rcv x ->
    exists x', update_single native_le x (encd o) = Some (x', p_val (nth 0 o no_prim)) /\
      rcv x' /\
      seen (p_val (nth 0 o no_prim), x') = expected (map p_val (elems o refs)).
  Proof.
    intros Ho Hx. unfold update_single. pose proof Hx as (H1 & H2 & H3).
    rewrite H3, (encd_time o Ho).
    rewrite (unpack_pack native_le bo (elems o refs) (x_elems x) 0 (encd o) (snap_ok o Ho)
               (rcv_kinds x o Hx Ho) (snap_pack o Ho)).
    eexists. split; [reflexivity|]. split.
    - repeat split; cbn; [|exact H2]. rewrite assign_all_kinds. exact H1.
    - assert (Hd : hd 0 (map p_val (elems o refs)) = p_val (nth 0 o no_prim)).
      { destruct (so_head _ _ Hst) as [r ->]. reflexivity. }
      unfold seen, expected. cbn [fst snd x_objs x_refs]. rewrite H2, Hd.
      unfold elems. rewrite !map_map.
      assert (A : forall r, In r refs ->
        nth r (assign_all (x_objs x) refs (map (fun r => p_val (nth r o no_prim)) refs)
                 (p_val (nth 0 o no_prim))) no_robj
        = mkR (nth r o no_prim) (p_val (nth 0 o no_prim))).
      { intros r Hr. rewrite (assign_all_at o); [|exact Ho|exact H1|apply (so_refs _ _ Hst)].
        replace (existsb (Nat.eqb r) refs) with true; [reflexivity|]. symmetry.
        apply existsb_exists. exists r. split; [exact Hr|apply Nat.eqb_refl]. }
      f_equal; [f_equal|]; apply map_ext_in; intros r Hr; rewrite (A r Hr); reflexivity.
  Qed.

  Lemma loop os : forall x, Forall snap os -> rcv x ->
    exists obs x', rx_loop native_le (List.length os) size x (List.concat (map encd os)) = (obs, x', true) /\
      map seen obs = map expected (map (fun o => map p_val (elems o refs)) os) /\ rcv x'.
  Proof.
    induction os as [|o os IH]; intros x H Hx; cbn [List.length rx_loop map List.concat].
    - exists [], x. auto.
    - inversion H as [|? ? Ho Hos]; subst.
      pose proof (encd_length o Ho) as L. pose proof size_pos as P.
      assert (Ln : Z.to_nat size = List.length (encd o)) by (unfold zlen in L; lia).
      rewrite Ln, firstn_app, Nat.sub_diag, firstn_all, firstn_O, app_nil_r.
      destruct (single o x Ho Hx) as (x1 & E1 & R1 & S1). rewrite E1.
      rewrite skipn_app, Nat.sub_diag, skipn_all, skipn_O. cbn [app].
      destruct (IH x1 Hos R1) as (obs & x2 & E2 & M & R2). rewrite E2.
      eexists. eexists. split; [reflexivity|]. cbn [map]. rewrite S1, M. auto.
  Qed.

  Lemma concat_length os : Forall snap os ->
    zlen (List.concat (map encd os)) = Z.of_nat (List.length os) * size.
  Proof.
    induction os as [|o os IH]; intros H; [reflexivity|]. inversion H as [|? ? Ho Hos]; subst.
    cbn [map List.concat List.length]. rewrite zlen_app, (encd_length o Ho), (IH Hos). lia.
  Qed.

  Lemma rx_size x : rcv x -> fold_right Z.add 0 (map p_size (x_elems x)) = size.
  Proof.
    intros Hx.
    assert (S0 : map p_kind (x_elems x) = map p_kind (elems objs0 refs)).
    { destruct Hx as (H1 & H2 & _). unfold x_elems. rewrite H2. apply elems_kinds.
      rewrite map_map. exact H1. }
    rewrite fold_total. exact (total_kinds _ _ S0).
  Qed.

  Lemma loop_any m : forall x d, rcv x -> zlen d = Z.of_nat m * size ->
    exists obs x', rx_loop native_le m size x d = (obs, x', true) /\ List.length obs = m.
  Proof.
    induction m as [|m IH]; intros x d Hx L; cbn [rx_loop].
    - exists [], x. auto.
    - pose proof size_pos as P.
      assert (L1 : zlen (firstn (Z.to_nat size) d) = size).
      { unfold zlen in *. rewrite firstn_length. nia. }
      assert (L2 : zlen (skipn (Z.to_nat size) d) = Z.of_nat m * size).
      { unfold zlen in *. rewrite skipn_length. nia. }
      pose proof (rx_size x Hx) as Es. rewrite fold_total in Es.
      unfold update_single. pose proof Hx as (H1 & H2 & H3). rewrite H3.
      destruct (unpack_std_some native_le bo (x_elems x) std 0 (firstn (Z.to_nat size) d)) as [vs U];
        [congruence|].
      assert (T : exists ts, k_decode native_le U64 bo (firstn (k_size U64) (firstn (Z.to_nat size) d)) = Some ts).
      { destruct (so_head _ _ Hst) as [r Er].
        assert (K : exists p l, x_elems x = p :: l /\ p_kind p = U64).
        { unfold x_elems, elems. rewrite H2, Er. cbn [map]. eexists. eexists. split; [reflexivity|].
          pose proof (so_time _ _ Hst) as Ht. destruct (x_objs x) as [|o l].
          - destruct objs0; cbn in *; [discriminate|discriminate H1].
          - destruct objs0; cbn in *; [discriminate|]. congruence. }
        destruct K as (p & l & K1 & K2). rewrite K1 in U. cbn [unpack] in U.
        rewrite (pad_std _ _ _ std) in U. cbn [skipn Nat.add] in U. rewrite K2 in U.
        destruct (Nat.ltb _ _); [discriminate|].
        destruct (k_decode _ _ _ _) as [ts|]; [|discriminate]. eauto. }
      destruct T as [ts T]. rewrite T, U.
      destruct (IH (mkRx (assign_all (x_objs x) (x_refs x) vs ts) (x_refs x) bo) (skipn (Z.to_nat size) d))
        as (obs & x2 & E2 & Lo); [|exact L2|].
      + repeat split; cbn; [|exact H2]. rewrite assign_all_kinds. exact H1.
      + rewrite E2. eexists. eexists. split; [reflexivity|]. cbn. lia.
  Qed.

  Lemma yields_snaps os : Forall snap os ->
    yields native_le objs0 refs bo (List.concat (map encd os))
      (map (fun o => map p_val (elems o refs)) os).
  Proof.
    intros H x Hx. unfold process_datagram.
    assert (E : fold_right Z.add 0 (map p_size (x_elems x)) = size).
    { assert (S0 : map p_kind (x_elems x) = map p_kind (elems objs0 refs)).
      { destruct Hx as (H1 & H2 & _). unfold x_elems. rewrite H2. apply elems_kinds.
        rewrite map_map. exact H1. }
      rewrite fold_total. exact (total_kinds _ _ S0). }
    rewrite E, (concat_length os H). pose proof size_pos as P.
    rewrite Z.mod_mul, Z.div_mul, Nat2Z.id by lia.
    rewrite (proj2 (Z.ltb_lt 0 size)) by lia. cbn [andb Z.eqb].
    apply loop; assumption.
  Qed.

  (** ** The transmitter *)
  Definition sampled (os : list (list prim)) : list (list Z) :=
    map (fun o => map p_val (elems o refs)) os.

  Record TInv (t : tx) (len : Z) (pend : list (list prim)) : Prop := {
    ti_snap : snap (t_objs t);
    ti_refs : t_refs t = refs;
    ti_inst : t_inst t = bo;
    ti_len : f_length (t_fr t) = len;
    ti_el : f_elements (t_fr t) = Z.of_nat (List.length pend);
    ti_raw : f_raw (t_fr t) = List.concat (map encd pend);
    ti_pend : Forall snap pend;
    ti_room : Z.of_nat (List.length pend) < len
  }.

  Lemma seq_kind o : snap o -> p_kind (nth 1 o no_prim) = U16 /\ (1 < List.length o)%nat.
  Proof.
    intros H. pose proof (snap_length o H) as L. destruct H as [_ H].
    pose proof (so_seq _ _ Hst) as E. rewrite <- (map_nth p_kind), H, (map_nth p_kind).
    destruct objs0 as [|a [|b l]]; try discriminate E. cbn in *. split; [congruence|lia].
  Qed.

  Lemma set_snap i v o : snap o -> snap (set_obj i (p_set (nth i o no_prim) v) o).
  Proof.
    intros [H1 H2]. split.
    - apply set_obj_Forall; [apply p_set_ok|exact H1].
    - rewrite (set_obj_map p_kind i _ no_prim); [exact H2|reflexivity].
  Qed.

  Lemma store_u64 v : k_store U64 v = v mod 18446744073709551616.
  Proof. reflexivity. Qed.
  Lemma store_u16 v : k_store U16 v = v mod 65536.
  Proof. reflexivity. Qed.

  Lemma poll_snap o now : snap o -> snap (poll o now).
  Proof. intros H. unfold poll, p_increment. cbn [fst]. apply set_snap, set_snap, H. Qed.

  Lemma poll_vals o now f : snap o ->
    map p_val (poll o now) = after (map p_val o) (TCapture now true f).
  Proof.
    intros H. unfold poll, p_increment, after. cbn [fst].
    rewrite !set_obj_put. unfold p_set. cbn [p_val].
    rewrite (head_kind o H), store_u64.
    rewrite (set_obj_other 0 1) by lia.
    destruct (seq_kind o H) as [-> _]. rewrite store_u16.
    change 0 with (p_val no_prim) at 1. rewrite (map_nth p_val). reflexivity.
  Qed.

  Lemma elems_vals o : map p_val (elems o refs) = map (fun i => nth i (map p_val o) 0) refs.
  Proof.
    unfold elems. rewrite map_map. apply map_ext. intros r.
    change 0 with (p_val no_prim). rewrite map_nth. reflexivity.
  Qed.

  Definition news (o : list prim) (op : top) : list (list prim) :=
    match op with TCapture now true _ => [poll o now] | _ => [] end.

  Lemma ok_kinds o op : snap o -> top_ok objs0 op ->
    match op with TSet i v => k_value (p_kind (nth i o no_prim)) v | _ => True end.
  Proof.
    intros [_ H] Hop. destruct op; try exact I. destruct Hop as (p & E & V).
    rewrite <- (map_nth p_kind), H, (map_nth p_kind).
    rewrite (nth_error_nth _ _ no_prim E). exact V.
  Qed.

  (** One operation: the frames sent and what is pending make up what was
      pending and the new sample. *)
  Lemma step_inv t len pend op t' out :
    TInv t len pend -> top_ok objs0 op -> t_step native_le t op = (t', out) ->
    map p_val (t_objs t') = after (map p_val (t_objs t)) op /\
    exists chunks pend',
      TInv t' len pend' /\
      List.concat chunks ++ pend' = pend ++ news (t_objs t) op /\
      out = map (fun c => List.concat (map encd c)) chunks /\
      Forall (fun c => Forall snap c /\ (0 < List.length c)%nat /\ Z.of_nat (List.length c) <= len) chunks /\
      (forall now s, op = TCapture now s true -> pend' = []).
  Proof.
    intros T Hop E. destruct op as [i v|o|now sample flush]; [| contradiction |].
    - cbn [t_step] in E. injection E as <- <-. cbn [t_objs].
      pose proof (ok_kinds _ _ (ti_snap _ _ _ T) Hop) as V. cbn in V.
      split.
      + rewrite set_obj_put. unfold p_set. cbn [p_val]. rewrite (store_id _ _ V). reflexivity.
      + exists [], pend. cbn [List.concat app map news]. rewrite app_nil_r.
        repeat split; try apply T; try (constructor); try discriminate.
        * cbn. apply set_obj_Forall; [apply p_set_ok|apply T].
        * cbn. rewrite (set_obj_map p_kind i _ no_prim); [apply T|reflexivity].
    - cbn [t_step] in E. unfold capture in E.
      set (o := if sample then poll (t_objs t) now else t_objs t) in *.
      assert (Ho : snap o).
      { unfold o. destruct sample; [apply poll_snap|]; apply T. }
      rewrite (ti_inst _ _ _ T), (ti_refs _ _ _ T), (snap_pack o Ho) in E.
      assert (Hv : map p_val o = after (map p_val (t_objs t)) (TCapture now sample flush)).
      { unfold o. destruct sample; [apply poll_vals; apply T|reflexivity]. }
      set (pn := pend ++ news (t_objs t) (TCapture now sample flush)) in *.
      assert (Hpn : Forall snap pn).
      { unfold pn. apply Forall_app. split; [apply T|]. unfold news.
        destruct sample; [|constructor]. constructor; [|constructor]. apply poll_snap, T. }
      assert (Ef : f_capture (t_fr t) (encd o) sample flush =
        match List.concat (map encd pn) with
        | [] => (mkFr len (Z.of_nat (List.length pn)) (List.concat (map encd pn)), None)
        | _ => if flush || (Z.of_nat (List.length pn) =? len)
               then (mkFr len 0 [], Some (List.concat (map encd pn)))
               else (mkFr len (Z.of_nat (List.length pn)) (List.concat (map encd pn)), None)
        end).
      { unfold f_capture, pn, news, o. destruct sample.
        - cbn [f_raw f_length f_elements].
          rewrite (ti_raw _ _ _ T), (ti_len _ _ _ T), (ti_el _ _ _ T).
          rewrite map_app, concat_app, app_length. cbn [map List.concat List.length].
          rewrite app_nil_r, Nat2Z.inj_add. reflexivity.
        - rewrite app_nil_r, <- (ti_raw _ _ _ T), <- (ti_len _ _ _ T), <- (ti_el _ _ _ T).
          destruct (t_fr t) as [a b c]; cbn; destruct c; reflexivity. }
      rewrite Ef in E. clear Ef.
      pose proof (concat_length pn Hpn) as Lc. pose proof size_pos as P.
      assert (Lpn : Z.of_nat (List.length pn) <= len).
      { pose proof (ti_room _ _ _ T). unfold pn. rewrite app_length. unfold news.
        destruct sample; cbn [List.length]; lia. }
      destruct (List.concat (map encd pn)) as [|z zs] eqn:Ec.
      + injection E as <- <-. cbn [t_objs]. split; [exact Hv|].
        assert (L0 : pn = []).
        { destruct pn as [|q qs]; [reflexivity|]. exfalso. change (zlen (@nil Z)) with 0 in Lc.
          cbn [List.length] in Lc. clear - Lc P. nia. }
        exists [], pn. cbn [List.concat app map]. rewrite L0 in *. cbn in Lc.
        assert (0 < len) by (pose proof (ti_room _ _ _ T); lia).
        repeat split; cbn; try apply Ho; auto; try constructor.
      + rewrite <- Ec in *.
        assert (N0 : (0 < List.length pn)%nat).
        { destruct pn; [discriminate Ec|]. cbn. lia. }
        destruct (flush || (Z.of_nat (List.length pn) =? len)) eqn:Eb.
        * injection E as <- <-. cbn [t_objs]. split; [exact Hv|].
          exists [pn], []. cbn [List.concat app map]. rewrite !app_nil_r.
          pose proof (ti_room _ _ _ T).
          repeat split; cbn; try apply Ho; auto; try constructor; try lia.
        * injection E as <- <-. cbn [t_objs]. split; [exact Hv|].
          apply Bool.orb_false_iff in Eb. destruct Eb as [-> Eb].
          exists [], pn. cbn [List.concat app map].
          repeat split; cbn; try apply Ho; auto; try constructor; try lia; try discriminate.
  Qed.

  Lemma captured_cons vals op r :
    captured refs vals (op :: r) =
    match op with
    | TCapture _ true _ => [map (fun i => nth i (after vals op) 0) refs]
    | _ => []
    end ++ captured refs (after vals op) r.
  Proof. destruct op as [| |? [] ?]; reflexivity. Qed.

  Lemma news_captured o op : snap o ->
    sampled (news o op) =
    match op with
    | TCapture _ true _ => [map (fun i => nth i (after (map p_val o) op) 0) refs]
    | _ => []
    end.
  Proof.
    intros H. destruct op as [| |now [] f]; try reflexivity.
    cbn [news sampled map]. unfold sampled. cbn [map].
    rewrite elems_vals, (poll_vals o now f H). reflexivity.
  Qed.

  Lemma run_inv ops : forall t len pend t' out,
    TInv t len pend -> Forall (top_ok objs0) ops -> t_run native_le t ops = (t', out) ->
    exists chunks pend',
      TInv t' len pend' /\
      sampled (List.concat chunks ++ pend') =
        sampled pend ++ captured refs (map p_val (t_objs t)) ops /\
      out = map (fun c => List.concat (map encd c)) chunks /\
      Forall (fun c => Forall snap c /\ (0 < List.length c)%nat /\ Z.of_nat (List.length c) <= len) chunks /\
      (forall pre now s, ops = pre ++ [TCapture now s true] -> pend' = []).
  Proof.
    induction ops as [|op ops IH]; intros t len pend t' out T Hops E; cbn [t_run] in E.
    - injection E as <- <-. exists [], pend. cbn [captured List.concat app map].
      rewrite app_nil_r. repeat split; try apply T; try constructor.
      intros pre now s H. destruct pre; discriminate H.
    - inversion Hops as [|? ? Hop Hr]; subst.
      destruct (t_step native_le t op) as [t1 a] eqn:E1.
      destruct (t_run native_le t1 ops) as [t2 b] eqn:E2. injection E as <- <-.
      destruct (step_inv _ _ _ _ _ _ T Hop E1) as (V & c1 & p1 & T1 & C1 & O1 & F1 & L1).
      destruct (IH _ _ _ _ _ T1 Hr E2) as (c2 & p2 & T2 & C2 & O2 & F2 & L2).
      exists (c1 ++ c2), p2. split; [exact T2|]. split; [|split; [|split]].
      + rewrite concat_app, <- app_assoc. unfold sampled in *. rewrite map_app, C2.
        rewrite app_assoc, <- map_app, C1, map_app, captured_cons, <- V, <- app_assoc.
        f_equal. f_equal. rewrite V. apply (news_captured _ op (ti_snap _ _ _ T)).
      + rewrite O1, O2, map_app. reflexivity.
      + apply Forall_app. auto.
      + intros pre now s H. destruct pre as [|q pre].
        * injection H as -> ->. cbn in E2. injection E2 as <- <-.
          pose proof (L1 now s eq_refl) as ->.
          assert (Z1 : sampled (List.concat c2 ++ p2) = []) by (rewrite C2; reflexivity).
          destruct p2; [reflexivity|]. unfold sampled in Z1. rewrite map_app in Z1.
          apply app_eq_nil in Z1. destruct Z1 as [_ Z1]. discriminate Z1.
        * injection H as -> ->. eapply L2. reflexivity.
  Qed.

  Lemma probe n : forall f d k, d <> [] -> f_length f = k -> 0 < k ->
    0 <= f_elements f < k -> f_raw f = List.concat (repeat d (Z.to_nat (f_elements f))) ->
    Z.of_nat n >= k - f_elements f ->
    probe_loop n f d = Some (List.concat (repeat d (Z.to_nat k))).
  Proof.
    induction n as [|n IH]; intros f d k Hd Hk Pk He Hr Hn; [lia|]. cbn [probe_loop].
    unfold f_capture. cbn [f_raw f_elements f_length orb].
    assert (Er : f_raw f ++ d = List.concat (repeat d (Z.to_nat (f_elements f + 1)))).
    { rewrite Hr. replace (Z.to_nat (f_elements f + 1)) with (Z.to_nat (f_elements f) + 1)%nat by lia.
      rewrite repeat_app, concat_app. cbn. rewrite app_nil_r. reflexivity. }
    destruct (f_raw f ++ d) as [|z zs] eqn:Ez.
    { apply app_eq_nil in Ez. destruct Ez as [_ Ez]. contradiction. }
    destruct (Z.eqb_spec (f_elements f + 1) (f_length f)) as [Eq|Ne].
    - rewrite Er. do 4 f_equal. lia.
    - apply IH; cbn; auto; try lia. 
  Qed.
End Host.

(** ** Arrays of an environment *)
Lemma In_firstn_nth {A} (l : list A) i j a : (i < j)%nat -> nth_error l i = Some a -> In a (firstn j l).
Proof.
  revert i j. induction l as [|x l IH]; intros [|i] [|j] H E; cbn in *; try lia; try discriminate.
  - injection E as ->. auto.
  - right. apply (IH i j); [lia|exact E].
Qed.

Lemma In_skipn_nth {A} (l : list A) j b : nth_error l j = Some b -> In b (skipn j l).
Proof.
  revert j. induction l as [|x l IH]; intros [|j] E; cbn in *; try discriminate.
  - injection E as ->. auto.
  - apply IH. exact E.
Qed.

Section Env.
  Context (name_of : Z -> option Z) (find : Z -> option entry)
          (g_raw : nat -> nat) (g_names : nat -> list Z) (ok : env_ok find g_names).

  (** A field of the object occurred and then some other name. *)
  Definition left (names : list Z) (g : nat) : Prop :=
    exists l1 l2 a b, names = l1 ++ l2 /\ In a l1 /\ find a = Some (EField g) /\
      In b l2 /\ find b <> Some (EField g).

  Lemma left_snoc names m g :
    left (names ++ [m]) g <->
    left names g \/
    (find m <> Some (EField g) /\ exists a, In a names /\ find a = Some (EField g)).
  Proof.
    split.
    - intros (l1 & l2 & a & b & E & Ha & Fa & Hb & Fb).
      destruct l2 as [|x l2 _] using rev_ind; [destruct Hb|].
      rewrite app_assoc in E. apply app_inj_tail in E. destruct E as [-> ->].
      apply in_app_or in Hb. destruct Hb as [Hb|[->|[]]].
      + left. exists l1, l2, a, b. repeat split; auto.
      + right. split; [exact Fb|]. exists a. split; [apply in_or_app; auto|exact Fa].
    - intros [(l1 & l2 & a & b & -> & Ha & Fa & Hb & Fb)|[Fm (a & Ha & Fa)]].
      + exists l1, (l2 ++ [m]), a, b. rewrite app_assoc. repeat split; auto.
        apply in_or_app; auto.
      + exists names, [m], a, m. repeat split; auto. left. reflexivity.
  Qed.

  Lemma together_snoc names m :
    together find (names ++ [m]) <->
    together find names /\ (forall g, find m = Some (EField g) -> ~ left names g).
  Proof.
    split.
    - intros T. split.
      + intros i j k a b c g L Ea Eb Ec Fa Fc.
        assert (Hl : forall q v, nth_error names q = Some v -> nth_error (names ++ [m]) q = Some v).
        { intros q v Hq. rewrite nth_error_app1; [exact Hq|].
          apply nth_error_Some. rewrite Hq. discriminate. }
        exact (T i j k a b c g L (Hl _ _ Ea) (Hl _ _ Eb) (Hl _ _ Ec) Fa Fc).
      + intros g Fm (l1 & l2 & a & b & -> & Ha & Fa & Hb & Fb).
        apply In_nth_error in Ha. destruct Ha as [i Hi].
        apply In_nth_error in Hb. destruct Hb as [j Hj].
        assert (Li : (i < List.length l1)%nat) by (apply nth_error_Some; rewrite Hi; discriminate).
        assert (Lj : (j < List.length l2)%nat) by (apply nth_error_Some; rewrite Hj; discriminate).
        apply Fb. apply (T i (List.length l1 + j)%nat (List.length l1 + List.length l2)%nat a b m g); auto.
        * lia.
        * rewrite <- app_assoc, nth_error_app1; auto.
        * rewrite <- app_assoc, nth_error_app2 by lia.
          replace (List.length l1 + j - List.length l1)%nat with j by lia.
          rewrite nth_error_app1; auto.
        * rewrite nth_error_app2 by (rewrite app_length; lia).
          rewrite app_length, Nat.sub_diag. reflexivity.
    - intros [T N] i j k a b c g L Ea Eb Ec Fa Fc.
      assert (Lk : (k < List.length (names ++ [m]))%nat)
        by (apply nth_error_Some; rewrite Ec; discriminate).
      rewrite app_length in Lk. cbn [List.length] in Lk.
      rewrite nth_error_app1 in Ea, Eb by lia.
      destruct (Nat.eq_dec k (List.length names)) as [->|Hk].
      + rewrite nth_error_app2, Nat.sub_diag in Ec by lia. injection Ec as ->.
        destruct (find b) as [[r|h]|] eqn:Fb.
        * exfalso. apply (N g Fc). exists (firstn j names), (skipn j names), a, b.
          rewrite firstn_skipn. repeat split; auto; [| |congruence].
          -- apply (In_firstn_nth _ i); [lia|exact Ea].
          -- apply In_skipn_nth. exact Eb.
        * destruct (Nat.eq_dec h g) as [->|Hg]; [reflexivity|].
          exfalso. apply (N g Fc). exists (firstn j names), (skipn j names), a, b.
          rewrite firstn_skipn. repeat split; auto; [| |congruence].
          -- apply (In_firstn_nth _ i); [lia|exact Ea].
          -- apply In_skipn_nth. exact Eb.
        * exfalso. apply (N g Fc). exists (firstn j names), (skipn j names), a, b.
          rewrite firstn_skipn. repeat split; auto; [| |congruence].
          -- apply (In_firstn_nth _ i); [lia|exact Ea].
          -- apply In_skipn_nth. exact Eb.
      + rewrite nth_error_app1 in Ec by lia. exact (T i j k a b c g L Ea Eb Ec Fa Fc).
  Qed.

  Lemma zmem_In n l : zmem n l = true <-> In n l.
  Proof.
    unfold zmem. rewrite existsb_exists. split.
    - intros (x & H & E). apply Z.eqb_eq in E. subst. exact H.
    - intros H. exists n. split; [exact H|apply Z.eqb_refl].
  Qed.

  Lemma zmem_not n l : zmem n l = false <-> ~ In n l.
  Proof. rewrite <- zmem_In. destruct (zmem n l); split; congruence. Qed.

  Definition last_in (names : list Z) (g : nat) : Prop :=
    exists l m, names = l ++ [m] /\ find m = Some (EField g).

  Record AInv (s : astate) : Prop := {
    av_nodup : NoDup (as_names s);
    av_together : together find (as_names s);
    av_avail : forall n g, ~ In n (as_names s) -> find n = Some (EField g) ->
      (In n (as_avail s) <-> last_in (as_names s) g);
    av_invalid : forall n g, ~ In n (as_names s) -> find n = Some (EField g) ->
      (In n (as_invalid s) <-> left (as_names s) g)
  }.

  Lemma NoDup_snoc (l : list Z) n : NoDup l -> ~ In n l -> NoDup (l ++ [n]).
  Proof.
    intros H Hn. apply NoDup_app; auto.
    - constructor; [intros []|constructor].
    - intros x Hx [->|[]]. contradiction.
  Qed.

  Lemma last_snoc names m g : last_in (names ++ [m]) g <-> find m = Some (EField g).
  Proof.
    split.
    - intros (l & x & E & F). apply app_inj_tail in E. destruct E as [_ ->]. exact F.
    - intros F. exists names, m. auto.
  Qed.

  (** The step, with the invariant: what is accepted, and the next state. *)
  Lemma a_step_exact s key s' : AInv s ->
    (a_step name_of find g_raw g_names s key = Some s' ->
       AInv s' /\ exists n e,
         name_of key = Some n /\ ~ In n (as_names s) /\ find n = Some e /\
         as_names s' = as_names s ++ [n] /\ as_refs s' = as_refs s ++ [raw_of g_raw e]).
  Proof.
    intros I E. unfold a_step in E.
    destruct (name_of key) as [n|]; [|discriminate].
    destruct (zmem n (as_names s)) eqn:Zn; [discriminate|]. apply zmem_not in Zn.
    destruct (find n) as [[r|g]|] eqn:Fn.
    - injection E as <-. split.
      + constructor; cbn.
        * apply NoDup_snoc; [apply I|exact Zn].
        * apply together_snoc. split; [apply I|]. intros g H. congruence.
        * intros m g Hm Fm. rewrite last_snoc. split; [intros []|congruence].
        * intros m g Hm Fm. rewrite left_snoc.
          assert (Hm' : ~ In m (as_names s)) by (intros H; apply Hm, in_or_app; auto).
          rewrite in_app_iff, (av_invalid s I m g Hm' Fm), (av_avail s I m g Hm' Fm).
          split; (intros [H|H]; [left; exact H|]).
          -- right. split; [congruence|]. destruct H as (l & x & -> & Fx).
             exists x. split; [apply in_or_app; right; left; reflexivity|exact Fx].
          -- destruct H as [_ (a & Ha & Fa)].
             destruct (as_names s) as [|y l _] eqn:En using rev_ind; [destruct Ha|].
             destruct (find y) as [[q|h]|] eqn:Fy;
               [left; apply left_snoc; right|
               |left; apply left_snoc; right].
             ++ split; [congruence|]. apply in_app_or in Ha. destruct Ha as [Ha|[->|[]]]; [eauto|congruence].
             ++ destruct (Nat.eq_dec h g) as [->|Hg]; [right; exists l, y; auto|].
                left. apply left_snoc. right. split; [congruence|].
                apply in_app_or in Ha. destruct Ha as [Ha|[->|[]]]; [eauto|congruence].
             ++ split; [congruence|]. apply in_app_or in Ha. destruct Ha as [Ha|[->|[]]]; [eauto|congruence].
      + exists n, (EChan r). auto.
    - (* a field *)
      set (p := if zmem n (as_avail s) then (as_invalid s, as_avail s)
                else (as_invalid s ++ as_avail s, [])) in *.
      assert (Hp : forall m h, ~ In m (as_names s) -> find m = Some (EField h) ->
                (In m (fst p) <-> left (as_names s) h \/ (h <> g /\ last_in (as_names s) h))).
      { intros m h Hm Fm. unfold p. destruct (zmem n (as_avail s)) eqn:Za; cbn [fst].
        - apply zmem_In in Za. rewrite (av_invalid s I m h Hm Fm).
          apply (av_avail s I n g Zn Fn) in Za. split; [auto|].
          intros [H|[H1 H2]]; [exact H|]. exfalso. destruct Za as (l & x & E1 & F1).
          destruct H2 as (l' & x' & E2 & F2). rewrite E1 in E2. apply app_inj_tail in E2.
          destruct E2 as [_ ->]. congruence.
        - apply zmem_not in Za. rewrite in_app_iff, (av_invalid s I m h Hm Fm), (av_avail s I m h Hm Fm).
          split; (intros [H|H]; [left; exact H|]).
          + right. split; [|exact H]. intros ->. apply Za. apply (av_avail s I n g Zn Fn). exact H.
          + right. apply H. }
      destruct p as [invalid avail]. cbn [fst] in Hp.
      destruct (zmem n invalid) eqn:Zi; [discriminate|]. apply zmem_not in Zi.
      destruct (zmem n (g_names g)) eqn:Zg; [|discriminate]. injection E as <-. split.
      + constructor; cbn.
        * apply NoDup_snoc; [apply I|exact Zn].
        * apply together_snoc. split; [apply I|]. intros h Fh. rewrite Fn in Fh. injection Fh as <-.
          intros H. apply Zi, (Hp n g Zn Fn). left. exact H.
        * intros m h Hm Fm. rewrite last_snoc, filter_In, (ok m g).
          split.
          -- intros [H _]. congruence.
          -- intros H. split; [congruence|]. apply Bool.negb_true_iff, Z.eqb_neq. intros ->.
             apply Hm, in_or_app. right; left; reflexivity.
        * intros m h Hm Fm. rewrite left_snoc.
          assert (Hm' : ~ In m (as_names s)) by (intros H; apply Hm, in_or_app; auto).
          rewrite (Hp m h Hm' Fm).
          split; (intros [H|H]; [left; exact H|]).
          -- right. destruct H as [Hh H]. split; [congruence|]. destruct H as (l & x & -> & Fx).
             exists x. split; [apply in_or_app; right; left; reflexivity|exact Fx].
          -- destruct H as [Hf (a & Ha & Fa)].
             assert (Hh : h <> g) by congruence.
             destruct (as_names s) as [|y l _] eqn:En using rev_ind; [destruct Ha|].
             destruct (find y) as [[q|h']|] eqn:Fy;
               [left; apply left_snoc; right|
               |left; apply left_snoc; right].
             ++ split; [congruence|]. apply in_app_or in Ha. destruct Ha as [Ha|[->|[]]]; [eauto|congruence].
             ++ destruct (Nat.eq_dec h' h) as [->|Hg]; [right; split; [exact Hh|exists l, y; auto]|].
                left. apply left_snoc. right. split; [congruence|].
                apply in_app_or in Ha. destruct Ha as [Ha|[->|[]]]; [eauto|congruence].
             ++ split; [congruence|]. apply in_app_or in Ha. destruct Ha as [Ha|[->|[]]]; [eauto|congruence].
      + exists n, (EField g). auto.
    - (* unknown *)
      destruct (if zmem n (as_avail s) then _ else _) as [x y]. destruct (zmem n x); discriminate.
  Qed.

  Lemma a_step_accepts s key n e : AInv s ->
    name_of key = Some n -> ~ In n (as_names s) -> find n = Some e ->
    together find (as_names s ++ [n]) ->
    exists s', a_step name_of find g_raw g_names s key = Some s'.
  Proof.
    intros I En Hn Fn T. apply together_snoc in T. destruct T as [_ T].
    unfold a_step. rewrite En, (proj2 (zmem_not _ _) Hn), Fn. destruct e as [r|g]; [eauto|].
    specialize (T g Fn).
    assert (Hg : zmem n (g_names g) = true) by (apply zmem_In, ok; exact Fn).
    assert (Hi : ~ In n (as_invalid s)) by (rewrite (av_invalid s I n g Hn Fn); exact T).
    destruct (zmem n (as_avail s)) eqn:Za.
    - rewrite (proj2 (zmem_not _ _) Hi), Hg. eauto.
    - apply zmem_not in Za.
      assert (Hi' : ~ In n (as_invalid s ++ as_avail s)) by (rewrite in_app_iff; tauto).
      rewrite (proj2 (zmem_not _ _) Hi'), Hg. eauto.
  Qed.

  Definition names_for (keys names : list Z) : Prop :=
    Forall2 (fun k n => name_of k = Some n) keys names.
  Definition raws_for (names : list Z) (refs : list nat) : Prop :=
    Forall2 (fun n r => exists e, find n = Some e /\ r = raw_of g_raw e) names refs.

  Lemma together_app l1 l2 : together find (l1 ++ l2) -> together find l1.
  Proof.
    intros T i j k a b c g L Ea Eb Ec.
    assert (Hl : forall q v, nth_error l1 q = Some v -> nth_error (l1 ++ l2) q = Some v).
    { intros q v Hq. rewrite nth_error_app1; [exact Hq|].
      apply nth_error_Some. rewrite Hq. discriminate. }
    exact (T i j k a b c g L (Hl _ _ Ea) (Hl _ _ Eb) (Hl _ _ Ec)).
  Qed.

  Lemma a_steps_exact keys : forall s names refs, AInv s ->
    ((exists s', a_steps name_of find g_raw g_names s keys = Some s' /\
        as_names s' = as_names s ++ names /\ as_refs s' = as_refs s ++ refs) <->
     names_for keys names /\ raws_for names refs /\ NoDup (as_names s ++ names) /\
     together find (as_names s ++ names)).
  Proof.
    induction keys as [|key keys IH]; intros s names refs I; cbn [a_steps].
    - split.
      + intros (s' & E & En & Er). injection E as <-.
        assert (names = []) by (destruct names; [reflexivity|];
          apply (f_equal (@List.length Z)) in En; rewrite app_length in En; cbn in En; lia).
        assert (refs = []) by (destruct refs; [reflexivity|];
          apply (f_equal (@List.length nat)) in Er; rewrite app_length in Er; cbn in Er; lia).
        subst. rewrite app_nil_r. repeat split; try constructor; apply I.
      + intros (H1 & H2 & _). inversion H1; subst. inversion H2; subst.
        exists s. rewrite !app_nil_r. auto.
    - split.
      + intros (s' & E & En & Er). destruct (a_step _ _ _ _ s key) as [s1|] eqn:E1; [|discriminate].
        destruct (a_step_exact s key s1 I E1) as (I1 & n & e & Hk & Hn & Fe & N1 & R1).
        assert (G : exists ns rs, names = n :: ns /\ refs = raw_of g_raw e :: rs).
        { assert (P : exists ns rs, as_names s' = as_names s1 ++ ns /\ as_refs s' = as_refs s1 ++ rs).
          { clear - E. revert s1 E. induction keys as [|k ks IHk]; intros s1 E; cbn [a_steps] in E.
            - injection E as <-. exists [], []. rewrite !app_nil_r. auto.
            - destruct (a_step _ _ _ _ s1 k) as [s2|] eqn:E2; [|discriminate].
              destruct (IHk s2 E) as (ns & rs & A & B).
              assert (Q : exists n r, as_names s2 = as_names s1 ++ [n] /\ as_refs s2 = as_refs s1 ++ [r]).
              { clear - E2. unfold a_step in E2. destruct (name_of k) as [n|]; [|discriminate].
                destruct (zmem n (as_names s1)); [discriminate|].
                destruct (find n) as [[r|g]|].
                - injection E2 as <-. cbn. eauto.
                - destruct (if zmem n (as_avail s1) then _ else _) as [x y].
                  destruct (zmem n x); [discriminate|]. destruct (zmem n (g_names g)); [|discriminate].
                  injection E2 as <-. cbn. eauto.
                - destruct (if zmem n (as_avail s1) then _ else _) as [x y].
                  destruct (zmem n x); discriminate. }
              destruct Q as (n & r & Q1 & Q2). rewrite Q1 in A. rewrite Q2 in B.
              rewrite <- app_assoc in A, B. eauto. }
          destruct P as (ns & rs & A & B). rewrite N1 in A. rewrite R1 in B.
          rewrite En in A. rewrite Er in B. rewrite <- app_assoc in A, B.
          apply app_inv_head in A. apply app_inv_head in B. cbn in A, B. eauto. }
        destruct G as (ns & rs & -> & ->).
        destruct (proj1 (IH s1 ns rs I1)) as (A & B & C & D).
        { exists s'. split; [exact E|]. rewrite N1, R1, <- !app_assoc. auto. }
        rewrite N1, <- app_assoc in C, D. cbn [app] in C, D.
        split; [constructor; auto|]. split; [constructor; eauto|]. auto.
      + intros (H1 & H2 & H3 & H4).
        inversion H1 as [|? n ? ns Hk H1']; subst.
        inversion H2 as [|? r ? rs (e & Fe & ->) H2']; subst.
        assert (Hn : ~ In n (as_names s)).
        { intros H. apply NoDup_remove_2 in H3. apply H3, in_or_app. auto. }
        assert (T1 : together find (as_names s ++ [n])).
        { apply (together_app _ ns). rewrite <- app_assoc. exact H4. }
        destruct (a_step_accepts s key n e I Hk Hn Fe T1) as [s1 E1]. rewrite E1.
        destruct (a_step_exact s key s1 I E1) as (I1 & n' & e' & Hk' & _ & Fe' & N1 & R1).
        rewrite Hk in Hk'. injection Hk' as <-. rewrite Fe in Fe'. injection Fe' as <-.
        destruct (proj2 (IH s1 ns rs I1)) as (s' & E & A & B).
        { rewrite N1, <- app_assoc. cbn [app]. auto. }
        exists s'. split; [exact E|]. rewrite A, B, N1, R1, <- !app_assoc. auto.
  Qed.

  Lemma inv_init : AInv (mkA [] [] [] []).
  Proof.
    constructor; cbn; [constructor| | |].
    - intros i j k a b c g _ E. destruct i; discriminate E.
    - intros n g _ _. split; [intros []|]. intros (l & m & E & _). destruct l; discriminate E.
    - intros n g _ _. split; [intros []|]. intros (l1 & l2 & a & b & E & Ha & _).
      symmetry in E. apply app_eq_nil in E. destruct E as [-> _]. destruct Ha.
  Qed.
End Env.
