(** Properties C50 (struct telemetry over UDP) and C65 (arrays of an environment). *)
From Coq Require Import ZifyBool ZifyNat.
From Verif Require Import Base BaseLemmas PrimModel PrimSpec PrimProofs ArrayModel ArraySpec
  ArrayProofs ChainModel ChainSpec ChainProofs StructModel StructSpec StructProofs.

Lemma set_mtu_inv size mtu ov f : f_set_mtu size mtu ov = Some f ->
  0 < size /\ f = mkFr ((mtu - ov) / size) 0 [] /\ 0 < (mtu - ov) / size.
Proof.
  unfold f_set_mtu. destruct (Z.gtb_spec size 0); [|discriminate].
  destruct (Z.gtb_spec ((mtu - ov) / size) 0); [|discriminate]. intros E. injection E as <-.
  repeat split; lia.
Qed.

Lemma assign_inv native_le objs refs bo mtu t p :
  standard bo -> struct_ok objs refs -> assign_tx native_le objs refs bo mtu = Some (t, p) ->
  let size := total_size (elems objs refs) in
  let len := (mtu - 68) / size in
  0 < len /\ TInv native_le bo objs refs t len [] /\ t_objs t = objs /\
  p = List.concat (repeat (encd native_le bo refs objs) (Z.to_nat (1432 / size))).
Proof.
  intros std Hst H size len. unfold assign_tx in H. rewrite fold_total in H. fold size in H.
  assert (S0 : snap objs objs) by (split; [apply Hst|reflexivity]).
  rewrite (snap_pack native_le bo objs refs Hst objs S0) in H.
  unfold get_payload, UDP_DEFAULT_MTU, UDP_HEADER_SIZE in H. change (1500 - (60 + 8)) with 1432 in H.
  change (60 + 8) with 68 in H.
  destruct (f_set_mtu size 1432 0) as [f0|] eqn:E0; [|discriminate].
  destruct (set_mtu_inv _ _ _ _ E0) as (Ps & -> & P0). rewrite Z.sub_0_r in *.
  assert (Ne : encd native_le bo refs objs <> []).
  { pose proof (encd_length native_le bo std objs refs Hst objs S0) as L. intros E. rewrite E in L.
    fold size in L. unfold zlen in L. cbn in L. lia. }
  rewrite (probe _ _ _ (1432 / size) Ne) in H; cbn [f_length f_elements f_raw]; try lia; try reflexivity.
  destruct (f_set_mtu size mtu 68) as [f|] eqn:E1; [|discriminate].
  destruct (set_mtu_inv _ _ _ _ E1) as (_ & -> & P1). injection H as <- <-.
  split; [exact P1|]. split; [|split; reflexivity].
  constructor; cbn; auto.
Qed.

(** C50.  In a standard byte order and while the byte order stays as it was at
    the assignment: whatever values are written and however captures are made,
    every datagram yields at every receiver of the struct - whatever that
    received or missed before - a positive number of samples, which together
    are the captured samples in order, with their values and timestamps; less
    than one frame is held back, and nothing after a flush; a datagram never
    exceeds the MTU less the header. *)
Theorem C50_round_trip_partial :
  forall native_le objs refs bo mtu t payload ops t' out,
    standard bo -> struct_ok objs refs ->
    assign_tx native_le objs refs bo mtu = Some (t, payload) ->
    Forall (top_ok objs) ops ->
    t_run native_le t ops = (t', out) ->
    exists chunks pending,
      List.concat chunks ++ pending = captured refs (map p_val objs) ops /\
      Forall2 (yields native_le objs refs bo) out chunks /\
      Forall (fun c => c <> []) chunks /\
      Forall (fun d => zlen d <= mtu - 68) out /\
      zlen pending * total_size (elems objs refs) + total_size (elems objs refs) <= mtu - 68 /\
      (forall pre now s, ops = pre ++ [TCapture now s true] -> pending = []).
Proof.
  intros n objs refs bo mtu t p ops t' out std Hst Ha Hops E.
  destruct (assign_inv _ _ _ _ _ _ _ std Hst Ha) as (P1 & T & Eo & _).
  destruct (run_inv n bo std objs refs Hst ops t _ [] t' out T Hops E) as (cs & pend & T' & C & O & F & L).
  pose proof (size_pos objs refs Hst) as P.
  pose proof (Z.mul_div_le (mtu - 68) _ P) as Hm.
  exists (map (sampled refs) cs), (sampled refs pend).
  split; [|split; [|split; [|split; [|split]]]].
  - rewrite Eo in C. cbn [sampled map app] in C. rewrite <- C. unfold sampled.
    rewrite map_app, concat_map. reflexivity.
  - rewrite O. clear - F std Hst. induction F as [|c cs (Hc & _) F IH]; cbn [map]; constructor; [|exact IH].
    apply yields_snaps; assumption.
  - apply Forall_map. eapply Forall_impl; [|exact F]. intros c (_ & Hc & _) Ec.
    unfold sampled in Ec. apply map_eq_nil in Ec. subst. cbn in Hc. lia.
  - rewrite O. apply Forall_map. eapply Forall_impl; [|exact F]. cbn. intros c (Hc & _ & Lc).
    rewrite (concat_length n bo std objs refs Hst c Hc). clear - Lc Hm P. nia.
  - pose proof (ti_room _ _ _ _ _ _ _ T') as R. unfold sampled, zlen. rewrite map_length.
    clear - R Hm P. nia.
  - intros pre now s He. rewrite (L pre now s He). reflexivity.
Qed.
Print Assumptions C50_round_trip_partial.

(** C50.  Hence a receiver that gets all datagrams in order sees exactly the
    samples that were sent, and after a flush all captured samples. *)
Theorem C50_in_order_partial :
  forall native_le objs refs bo mtu t payload ops now s t' out x,
    standard bo -> struct_ok objs refs ->
    assign_tx native_le objs refs bo mtu = Some (t, payload) ->
    Forall (top_ok objs) ops ->
    t_run native_le t (ops ++ [TCapture now s true]) = (t', out) ->
    receives x objs refs bo ->
    map seen (fst (rx_run native_le x out)) =
    map expected (captured refs (map p_val objs) (ops ++ [TCapture now s true])).
Proof.
  intros n objs refs bo mtu t p ops now s t' out x std Hst Ha Hops E Hx.
  assert (Hops' : Forall (top_ok objs) (ops ++ [TCapture now s true])).
  { apply Forall_app. split; [exact Hops|]. constructor; [exact I|constructor]. }
  destruct (C50_round_trip_partial _ _ _ _ _ _ _ _ _ _ std Hst Ha Hops' E)
    as (cs & pend & C & F & _ & _ & _ & L).
  rewrite (L ops now s eq_refl), app_nil_r in C. rewrite <- C. clear - F Hx.
  revert x Hx. induction F as [|d c ds cs Hd F IH]; intros x Hx; [reflexivity|].
  cbn [rx_run List.concat]. destruct (Hd x Hx) as (obs & x1 & E & M & R). rewrite E.
  specialize (IH x1 R). destruct (rx_run n x1 ds) as [o2 x2]. cbn [fst] in *.
  rewrite !map_app, M, IH. reflexivity.
Qed.
Print Assumptions C50_in_order_partial.

(** C50.  The datagram that the MTU probe sends yields copies of the struct as it
    was when assigned, as many as fit 1432 bytes. *)
Theorem C50_probe :
  forall native_le objs refs bo mtu t payload,
    standard bo -> struct_ok objs refs ->
    assign_tx native_le objs refs bo mtu = Some (t, payload) ->
    zlen payload <= 1432 /\
    yields native_le objs refs bo payload
      (repeat (map (fun r => nth r (map p_val objs) 0) refs)
              (Z.to_nat (1432 / total_size (elems objs refs)))).
Proof.
  intros n objs refs bo mtu t p std Hst Ha.
  destruct (assign_inv _ _ _ _ _ _ _ std Hst Ha) as (_ & _ & _ & ->).
  set (k := Z.to_nat (1432 / total_size (elems objs refs))).
  assert (S0 : Forall (snap objs) (repeat objs k)).
  { apply Forall_forall. intros o Ho. apply repeat_spec in Ho. subst.
    split; [apply Hst|reflexivity]. }
  assert (Em : forall A B (f : A -> B) a m, map f (repeat a m) = repeat (f a) m)
    by (intros A B f a m; induction m as [|m IHm]; cbn; [|rewrite IHm]; reflexivity).
  pose proof (yields_snaps n bo std objs refs Hst _ S0) as Y.
  pose proof (concat_length n bo std objs refs Hst _ S0) as L.
  rewrite !Em in Y. rewrite Em, repeat_length in L. rewrite <- elems_vals. split; [|exact Y].
  rewrite L. pose proof (size_pos objs refs Hst) as P.
  pose proof (Z.mul_div_le 1432 _ P). pose proof (Z.div_pos 1432 _ ltac:(lia) P). unfold k. nia.
Qed.
Print Assumptions C50_probe.

(** C50.  A receiver of a standard-order struct takes a datagram exactly if it is
    a whole number of structs long; of any other it uses nothing. *)
Theorem C50_accepts_exact :
  forall native_le objs refs bo x d,
    standard bo -> struct_ok objs refs -> receives x objs refs bo ->
    let size := total_size (elems objs refs) in
    (forall obs x' ok, process_datagram native_le x d = (obs, x', ok) ->
       (ok = true <-> (size | zlen d)) /\
       (ok = true -> zlen obs * size = zlen d) /\
       (ok = false -> obs = [] /\ x' = x)).
Proof.
  intros n objs refs bo x d std Hst Hx size obs x' ok E.
  pose proof (size_pos objs refs Hst) as P. fold size in P.
  unfold process_datagram in E. rewrite (rx_size bo objs refs x Hx) in E. fold size in E.
  rewrite (proj2 (Z.ltb_lt 0 size)) in E by lia. cbn [andb] in E.
  destruct (Z.eqb_spec (zlen d mod size) 0) as [M|M].
  - assert (D : (size | zlen d)) by (apply Z.mod_divide; lia).
    assert (L : zlen d = Z.of_nat (Z.to_nat (zlen d / size)) * size).
    { pose proof (zlen_nonneg d). pose proof (Z.div_pos (zlen d) size ltac:(lia) P).
      rewrite Z2Nat.id by lia. pose proof (Z.div_mod (zlen d) size ltac:(lia)). lia. }
    destruct (loop_any n bo std objs refs Hst (Z.to_nat (zlen d / size)) x d Hx L)
      as (obs1 & x1 & E1 & Lo). fold size in E1. rewrite E1 in E. inversion E; subst.
    split; [tauto|]. split; [|discriminate]. intros _. unfold zlen at 1. rewrite Lo. lia.
  - inversion E; subst. split; [|split; [discriminate|auto]].
    split; [discriminate|]. intros D. apply Z.mod_divide in D; lia.
Qed.
Print Assumptions C50_accepts_exact.

(** C50.  Assigning succeeds exactly if one struct fits both the probe and the
    MTU less the header. *)
Theorem C50_assign_exact :
  forall native_le objs refs bo mtu,
    standard bo -> struct_ok objs refs ->
    ((exists t p, assign_tx native_le objs refs bo mtu = Some (t, p)) <->
     total_size (elems objs refs) <= 1432 /\ total_size (elems objs refs) <= mtu - 68).
Proof.
  intros n objs refs bo mtu std Hst. pose proof (size_pos objs refs Hst) as P.
  set (size := total_size (elems objs refs)) in *. split.
  - intros (t & p & H). unfold assign_tx in H. rewrite fold_total in H. fold size in H.
    unfold get_payload, UDP_DEFAULT_MTU, UDP_HEADER_SIZE in H.
    destruct (f_set_mtu size (1500 - (60 + 8)) 0) as [f0|] eqn:E0; [|discriminate].
    destruct (pack _ _ _ _) as [d|]; [|discriminate].
    destruct (probe_loop _ _ _); [|discriminate].
    destruct (f_set_mtu size mtu (60 + 8)) as [f1|] eqn:E1; [|discriminate].
    destruct (set_mtu_inv _ _ _ _ E0) as (_ & _ & A).
    destruct (set_mtu_inv _ _ _ _ E1) as (_ & _ & B).
    pose proof (Z.mul_div_le (1500 - (60 + 8) - 0) size P).
    pose proof (Z.mul_div_le (mtu - (60 + 8)) size P). split; nia.
  - intros [H1 H2]. unfold assign_tx. rewrite fold_total. fold size.
    unfold get_payload, UDP_DEFAULT_MTU, UDP_HEADER_SIZE. change (1500 - (60 + 8)) with 1432.
    change (60 + 8) with 68.
    assert (S0 : snap objs objs) by (split; [apply Hst|reflexivity]).
    rewrite (snap_pack n bo objs refs Hst objs S0).
    assert (Q1 : f_set_mtu size 1432 0 = Some (mkFr (1432 / size) 0 [])).
    { unfold f_set_mtu. rewrite Z.sub_0_r. pose proof (Z.div_str_pos 1432 size ltac:(lia)).
      rewrite (proj2 (Z.gtb_lt size 0)), (proj2 (Z.gtb_lt (1432 / size) 0)) by lia. reflexivity. }
    assert (Q2 : f_set_mtu size mtu 68 = Some (mkFr ((mtu - 68) / size) 0 [])).
    { unfold f_set_mtu. pose proof (Z.div_str_pos (mtu - 68) size ltac:(lia)).
      rewrite (proj2 (Z.gtb_lt size 0)), (proj2 (Z.gtb_lt ((mtu - 68) / size) 0)) by lia. reflexivity. }
    rewrite Q1, Q2.
    assert (Ne : encd n bo refs objs <> []).
    { pose proof (encd_length n bo std objs refs Hst objs S0) as L. intros E. rewrite E in L.
      fold size in L. unfold zlen in L. cbn in L. lia. }
    pose proof (Z.div_str_pos 1432 size ltac:(lia)).
    rewrite (probe _ _ _ (1432 / size) Ne); cbn [f_length f_elements f_raw]; try lia; try reflexivity.
    eauto.
Qed.
Print Assumptions C50_assign_exact.

(** C50.  The sequence numbers of the samples count up from the start value,
    modulo 2^16, as long as the program itself writes nothing to the sequence. *)
Theorem C50_sequence :
  forall refs vals ops j k,
    (1 < List.length vals)%nat ->
    Forall (fun o => match o with TSet i _ => i <> 1%nat | _ => True end) ops ->
    nth_error refs j = Some 1%nat ->
    (k < List.length (captured refs vals ops))%nat ->
    nth j (nth k (captured refs vals ops) []) 0 = (nth 1 vals 0 + 1 + Z.of_nat k) mod 65536.
Proof.
  intros refs vals ops j k Hl Ho Hj. revert vals Hl k.
  assert (Pn : forall i v (l : list Z) q, i <> q -> nth q (put i v l) 0 = nth q l 0).
  { intros i v l. revert i. induction l as [|y l IH]; intros [|i] [|q] H; cbn; try reflexivity; try lia.
    apply IH. lia. }
  assert (Ps : forall i v (l : list Z), (i < List.length l)%nat -> nth i (put i v l) 0 = v).
  { intros i v l. revert i. induction l as [|y l IH]; intros [|i] H; cbn in *; try lia.
    apply IH. lia. }
  assert (Pl : forall i v (l : list Z), List.length (put i v l) = List.length l).
  { intros i v l. revert i. induction l as [|y l IH]; intros [|i]; cbn; auto. }
  induction Ho as [|o ops Hoo Ho IH]; intros vals Hl k Hk; [cbn in Hk; lia|].
  rewrite captured_cons in *.
  assert (Hl' : (1 < List.length (after vals o))%nat).
  { destruct o as [| |? [] ?]; cbn [after]; rewrite ?Pl; exact Hl. }
  destruct o as [i v|b|now [] f]; cbn [app] in *.
  - rewrite (IH _ Hl' k Hk). cbn [after]. rewrite Pn by exact Hoo. reflexivity.
  - apply (IH _ Hl' k Hk).
  - assert (N1 : nth 1 (after vals (TCapture now true f)) 0 = (nth 1 vals 0 + 1) mod 65536).
    { cbn [after]. apply Ps. rewrite Pl. exact Hl. }
    destruct k as [|k].
    + cbn [nth]. rewrite (nth_indep _ 0 ((fun i => nth i (after vals (TCapture now true f)) 0) O)).
      * rewrite (map_nth (fun i => nth i (after vals (TCapture now true f)) 0)).
        rewrite (nth_error_nth _ _ O Hj), N1, Z.add_0_r. reflexivity.
      * rewrite map_length. apply nth_error_Some. rewrite Hj. discriminate.
    + cbn [nth List.length] in *. rewrite (IH _ Hl' k ltac:(lia)), N1.
      rewrite <- !Z.add_assoc, Zplus_mod_idemp_l. f_equal. lia.
  - apply (IH _ Hl' k Hk).
Qed.
Print Assumptions C50_sequence.

(** A struct with two more channels, one of them a primitive the array refers to
    twice. *)
Definition ex_objs : list prim := [mkPrim U64 5; mkPrim U16 65534; mkPrim I8 (-3); mkPrim Float 7].
Definition ex_refs : list nat := [0; 1; 2; 2; 3]%nat.
Lemma ex_struct : struct_ok ex_objs ex_refs.
Proof.
  constructor; try reflexivity.
  - repeat constructor; cbn; lia.
  - repeat constructor; cbn; lia.
  - eexists; reflexivity.
Qed.

Definition ex_ops : list top :=
  [TCapture 100 true false; TSet 2 9; TCapture 200 true false; TCapture 300 true false;
   TCapture 400 true false; TCapture 0 false true].
Example ex_telemetry :
  exists t p, assign_tx true ex_objs ex_refs Network 120 = Some (t, p) /\
    Forall (top_ok ex_objs) ex_ops /\
    map zlen (snd (t_run true t ex_ops)) = [48; 16] /\
    captured ex_refs (map p_val ex_objs) ex_ops =
      [[100; 65535; -3; -3; 7]; [200; 0; 9; 9; 7]; [300; 1; 9; 9; 7]; [400; 2; 9; 9; 7]].
Proof.
  eexists. eexists. split; [vm_compute; reflexivity|]. split.
  - repeat constructor. eexists. split; [reflexivity|]. cbn. lia.
  - vm_compute. split; reflexivity.
Qed.

(** C50 is false in native byte order: the padded frames are refused. *)
Definition nat_objs : list prim := [mkPrim U64 5; mkPrim U16 1; mkPrim U32 7].
Definition nat_rx : rx := mkRx (map (fun p => mkR p 0) nat_objs) [0; 1; 2]%nat Native.
Theorem C50_native_refuted :
  exists t p d t',
    struct_ok nat_objs [0; 1; 2]%nat /\
    assign_tx true nat_objs [0; 1; 2]%nat Native 1500 = Some (t, p) /\
    t_run true t [TCapture 100 true true] = (t', [d]) /\
    receives nat_rx nat_objs [0; 1; 2]%nat Native /\
    process_datagram true nat_rx d = ([], nat_rx, false).
Proof.
  eexists. eexists. eexists. eexists. split.
  { constructor; try reflexivity; [repeat constructor; cbn; lia|repeat constructor; cbn; lia|eexists; reflexivity]. }
  split; [vm_compute; reflexivity|]. split; [vm_compute; reflexivity|].
  split; [repeat split|]. vm_compute. reflexivity.
Qed.
Print Assumptions C50_native_refuted.

(** C50 is false if the byte order of the struct is updated once it is assigned,
    although the receiver is updated alike: the transmitter goes on with the
    old order, and the receiver reads other values. *)
Theorem C50_order_change_refuted :
  exists t p t' d x obs x',
    struct_ok ex_objs ex_refs /\
    assign_tx true ex_objs ex_refs Network 1500 = Some (t, p) /\
    t_run true t [TOrder LittleEndian; TCapture 1 true true] = (t', [d]) /\
    t_order t' = LittleEndian /\
    receives x ex_objs ex_refs LittleEndian /\
    process_datagram true x d = (obs, x', true) /\
    map fst obs = [2 ^ 56].
Proof.
  eexists. eexists. eexists. eexists.
  exists (mkRx (map (fun p => mkR p 0) ex_objs) ex_refs LittleEndian). eexists. eexists.
  split; [exact ex_struct|]. split; [vm_compute; reflexivity|].
  split; [vm_compute; reflexivity|]. split; [reflexivity|]. split; [repeat split|].
  split; vm_compute; reflexivity.
Qed.
Print Assumptions C50_order_change_refuted.

(** C65.  [array(keys)] succeeds exactly if every key is a registered name of a
    channel or bit field, no name occurs twice and the fields of one bit-fields
    object are next to each other; then it holds, in the order of the keys, for
    each key the primitive of its channel or bit-fields object. *)
Theorem C65_array_exact :
  forall name_of find g_raw g_names keys names refs,
    env_ok find g_names ->
    (env_array name_of find g_raw g_names keys = Some (names, refs) <->
     Forall2 (fun k n => name_of k = Some n) keys names /\
     Forall2 (fun n r => exists e, find n = Some e /\ r = raw_of g_raw e) names refs /\
     NoDup names /\ together find names).
Proof.
  intros name_of find g_raw g_names keys names refs ok. unfold env_array.
  pose proof (a_steps_exact name_of find g_raw g_names ok keys (mkA [] [] [] []) names refs
                (inv_init find)) as H. cbn [as_names as_refs app] in H.
  destruct (a_steps _ _ _ _ _ keys) as [s|]; cbn [option_map].
  - rewrite <- H. split.
    + intros E. injection E as <- <-. exists s. auto.
    + intros (s' & E & A & B). injection E as <-. rewrite A, B. reflexivity.
  - split; [discriminate|]. intros G. apply H in G. destruct G as (s' & E & _). discriminate.
Qed.
Print Assumptions C65_array_exact.

(** C65.  "Every primitive once" is false: bit fields of one object put its
    primitive into the array once per field. *)
Theorem C65_repeated_refuted :
  forall name_of find g_raw g_names ka kb a b g,
    env_ok find g_names ->
    name_of ka = Some a -> name_of kb = Some b -> a <> b ->
    find a = Some (EField g) -> find b = Some (EField g) ->
    env_array name_of find g_raw g_names [ka; kb] = Some ([a; b], [g_raw g; g_raw g]).
Proof.
  intros name_of find g_raw g_names ka kb a b g ok Ha Hb Hne Fa Fb.
  apply C65_array_exact; [exact ok|]. split; [repeat constructor; auto|]. split; [|split].
  - constructor; [exists (EField g); auto|]. constructor; [exists (EField g); auto|constructor].
  - constructor; [intros [H|[]]; congruence|]. constructor; [intros []|constructor].
  - intros i j k x y z h L Ex Ey Ez. destruct k as [|[|k]]; [lia|lia|].
    destruct k; discriminate Ez.
Qed.
Print Assumptions C65_repeated_refuted.

(** C65.  Without bit fields sharing an object, the primitives are those of the
    names, each once if different names have different primitives. *)
Theorem C65_once_partial :
  forall name_of find g_raw g_names keys names refs,
    env_ok find g_names ->
    (forall a b ea eb, In a names -> In b names -> find a = Some ea -> find b = Some eb ->
       raw_of g_raw ea = raw_of g_raw eb -> a = b) ->
    env_array name_of find g_raw g_names keys = Some (names, refs) ->
    NoDup refs.
Proof.
  intros name_of find g_raw g_names keys names refs ok Inj E.
  apply C65_array_exact in E; [|exact ok]. destruct E as (_ & F & N & _).
  induction F as [|n r ns rs (e & Fe & Er) F IH]; [constructor|].
  inversion N as [|? ? Hn N']; subst. constructor.
  - intros H. apply Hn. clear - Inj F Fe H.
    assert (Q : exists m em, In m ns /\ find m = Some em /\ raw_of g_raw em = raw_of g_raw e).
    { clear Inj. induction F as [|m q ms qs (em & Fm & Em) F IH]; [destruct H|].
      destruct H as [H|H].
      - exists m, em. split; [left; reflexivity|]. split; [exact Fm|congruence].
      - destruct (IH H) as (m' & e' & A & B & C). exists m', e'. split; [right; exact A|]. auto. }
    destruct Q as (m & em & A & B & C).
    rewrite (Inj n m e em (or_introl eq_refl) (or_intror A) Fe B (eq_sym C)). exact A.
  - apply IH; [|exact N']. intros a b ea eb Ha Hb. apply Inj; right; assumption.
Qed.
Print Assumptions C65_once_partial.

(** Two channels around a bit-fields object with three fields. *)
Definition ex_find (n : Z) : option entry :=
  if n =? 1 then Some (EChan 0)
  else if (n =? 2) || (n =? 3) || (n =? 4) then Some (EField 0)
  else if n =? 5 then Some (EChan 2) else None.
Definition ex_gnames (g : nat) : list Z := match g with O => [2; 3; 4] | _ => [] end.
Example ex_env_ok : env_ok ex_find ex_gnames.
Proof.
  intros n g. unfold ex_find, ex_gnames. destruct g as [|g]; cbn [In].
  - destruct (Z.eqb_spec n 1); [split; [lia|discriminate]|].
    destruct (Z.eqb_spec n 2); [split; auto|]. destruct (Z.eqb_spec n 3); [split; auto|].
    destruct (Z.eqb_spec n 4); [split; auto|]. cbn [orb].
    destruct (Z.eqb_spec n 5); (split; [lia|discriminate]).
  - split; [intros []|]. destruct (n =? 1); [discriminate|].
    destruct (_ || _); [discriminate|]. destruct (n =? 5); discriminate.
Qed.
Example ex_array :
  env_array Some ex_find (fun _ => 1%nat) ex_gnames [1; 3; 2; 4; 5] =
    Some ([1; 3; 2; 4; 5], [0; 1; 1; 1; 2]%nat) /\
  env_array Some ex_find (fun _ => 1%nat) ex_gnames [1; 3; 5; 2] = None /\
  env_array Some ex_find (fun _ => 1%nat) ex_gnames [1; 9] = None /\
  env_array Some ex_find (fun _ => 1%nat) ex_gnames [2; 3; 2] = None.
Proof. repeat split. Qed.
