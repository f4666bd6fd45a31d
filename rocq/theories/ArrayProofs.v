(** Lemmas for C17-C19. *)
From Coq Require Import ZifyBool ZifyNat.
From Verif Require Import Base BaseLemmas PrimModel PrimSpec PrimProofs StringModel StringProofs
  ArrayModel ArraySpec.

Lemma p_size_wire p : p_size p = Z.of_nat (wire_size (p_kind p)).
Proof. unfold p_size. destruct (p_kind p); reflexivity. Qed.
Lemma p_size_pos p : 0 < p_size p.
Proof. unfold p_size. destruct (p_kind p); reflexivity. Qed.

Lemma total_cons p l : total_size (p :: l) = p_size p + total_size l.
Proof. cbn. rewrite p_size_wire. reflexivity. Qed.
Lemma total_app l1 l2 : total_size (l1 ++ l2) = total_size l1 + total_size l2.
Proof. induction l1 as [|p l1 IH]; [reflexivity|]. cbn [app]. rewrite !total_cons, IH. ring. Qed.
Lemma total_nonneg l : 0 <= total_size l.
Proof. induction l as [|p l IH]; [cbn; lia|]. rewrite total_cons. pose proof (p_size_pos p). lia. Qed.
Lemma total_kinds l1 : forall l2,
  map p_kind l1 = map p_kind l2 -> total_size l1 = total_size l2.
Proof.
  induction l1 as [|p l1 IH]; intros [|q l2] H; try discriminate; [reflexivity|].
  cbn in H. injection H as H1 H2. rewrite !total_cons. unfold p_size. rewrite H1, (IH l2 H2).
  reflexivity.
Qed.
Lemma total_repeat p n : total_size (repeat p n) = Z.of_nat n * p_size p.
Proof. induction n as [|n IH]; [reflexivity|]. cbn [repeat]. rewrite total_cons, IH. lia. Qed.

Lemma total_firstn_lt l i j : (i < j)%nat -> (j <= List.length l)%nat ->
  total_size (firstn i l) < total_size (firstn j l).
Proof.
  revert i j. induction l as [|p l IH]; intros i j Hij Hj; [cbn in Hj; lia|].
  destruct j as [|j]; [lia|]. cbn [firstn]. rewrite total_cons.
  pose proof (p_size_pos p).
  destruct i as [|i]; cbn [firstn].
  - pose proof (total_nonneg (firstn j l)). cbn. lia.
  - rewrite total_cons. cbn in Hj. specialize (IH i j). lia.
Qed.
Lemma total_firstn_inj l i j :
  (i <= List.length l)%nat -> (j <= List.length l)%nat ->
  total_size (firstn i l) = total_size (firstn j l) -> i = j.
Proof.
  intros Hi Hj He. destruct (Nat.lt_trichotomy i j) as [H|[H|H]]; [|exact H|].
  - pose proof (total_firstn_lt l i j H Hj). lia.
  - pose proof (total_firstn_lt l j i H Hi). lia.
Qed.
Lemma total_firstn_le l i : total_size (firstn i l) <= total_size l.
Proof.
  rewrite <- (firstn_skipn i l) at 2. rewrite total_app.
  pose proof (total_nonneg (skipn i l)). lia.
Qed.

Lemma p_copy_ok p : p_ok (p_copy p).
Proof. unfold p_ok, p_copy, p_new; cbn. apply store_value. Qed.
Lemma p_copy_same p : p_ok p -> p_copy p = p.
Proof. unfold p_ok, p_copy, p_new. intros H. rewrite (store_id _ _ H). destruct p; reflexivity. Qed.
Lemma p_set_ok p v : p_ok (p_set p v).
Proof. unfold p_ok, p_set; cbn. apply store_value. Qed.
Lemma p_copy_size p : p_size (p_copy p) = p_size p.
Proof. reflexivity. Qed.

(** Table invariant. *)
Record AInv (a : arr) : Prop := {
  ai_ok : Forall p_ok (a_elems a);
  ai_size : a_size a = total_size (a_elems a);
  ai_tab : forall i b, dget i (a_i2b a) = Some b ->
    0 <= i <= zlen (a_elems a) /\ b = total_size (firstn (Z.to_nat i) (a_elems a));
  ai_inv : forall i b, dget b (a_b2i a) = Some i <-> dget i (a_i2b a) = Some b;
  ai_zero : dget 0 (a_i2b a) = Some 0;
  ai_last : dget (zlen (a_elems a)) (a_i2b a) = Some (a_size a);
  ai_specs : Forall (fun s =>
     0 <= fs_i0 s < fs_i1 s /\ fs_i1 s <= zlen (a_elems a) /\
     fs_b0 s = total_size (firstn (Z.to_nat (fs_i0 s)) (a_elems a)) /\
     fs_b1 s = total_size (firstn (Z.to_nat (fs_i1 s)) (a_elems a))) (a_specs a)
}.

Lemma empty_inv bo : AInv (a_empty bo).
Proof.
  split; cbn [a_empty a_elems a_size a_i2b a_b2i a_specs]; try constructor; try reflexivity.
  - cbn in H. destruct (eq_dec i 0) as [->|]; [cbn; lia|discriminate].
  - cbn in H. destruct (eq_dec i 0) as [->|]; [|discriminate]. injection H as <-. reflexivity.
  - cbn. destruct (eq_dec b 0) as [->|]; destruct (eq_dec i 0) as [->|]; intros H; congruence.
  - cbn. destruct (eq_dec b 0) as [->|]; destruct (eq_dec i 0) as [->|]; intros H; congruence.
Qed.

Definition extra_of (n : option Z) : nat :=
  match n with Some n => Z.to_nat (n - 1) | None => O end.

Lemma add_elems a p n :
  a_elems (a_add a p n) = a_elems a ++ p :: repeat (p_copy p) (extra_of n).
Proof. reflexivity. Qed.

Lemma firstn_app_le {A} i (l1 l2 : list A) :
  (i <= List.length l1)%nat -> firstn i (l1 ++ l2) = firstn i l1.
Proof.
  intros H. rewrite firstn_app. replace (i - List.length l1)%nat with O by lia.
  cbn. apply app_nil_r.
Qed.

Lemma add_inv a p n : AInv a -> p_ok p -> AInv (a_add a p n).
Proof.
  intros [H1 H2 H3 H4 H5 H6 H7] Hp. set (ex := extra_of n).
  set (L := a_elems a ++ p :: repeat (p_copy p) ex).
  assert (HL : zlen L = zlen (a_elems a) + 1 + Z.of_nat ex).
  { unfold L, zlen. rewrite app_length. cbn [List.length]. rewrite repeat_length. lia. }
  set (S' := a_size a + p_size p + Z.of_nat ex * p_size p).
  assert (HS : S' = total_size L).
  { unfold S', L. rewrite total_app, total_cons, total_repeat, p_copy_size, H2. lia. }
  pose proof (p_size_pos p) as Hpos. pose proof (zlen_nonneg (a_elems a)) as Hlen.
  assert (Hgt : a_size a < S') by (unfold S'; nia).
  assert (Hold : forall i b, dget i (a_i2b a) = Some b -> i < zlen L /\ b < S').
  { intros i b Hib. destruct (H3 i b Hib) as [A B].
    pose proof (total_firstn_le (a_elems a) (Z.to_nat i)). lia. }
  assert (Hfirst : forall i, 0 <= i <= zlen (a_elems a) ->
            firstn (Z.to_nat i) L = firstn (Z.to_nat i) (a_elems a)).
  { intros i Hi. apply firstn_app_le. unfold zlen in Hi. lia. }
  split.
  - cbn [a_add a_elems]. apply Forall_app. split; [exact H1|]. constructor; [exact Hp|].
    apply Forall_forall. intros x Hx. apply repeat_spec in Hx. subst. apply p_copy_ok.
  - exact HS.
  - intros i b. change (a_i2b (a_add a p n)) with (dset (zlen L) S' (a_i2b a)).
    change (a_elems (a_add a p n)) with L. rewrite dget_dset.
    destruct (eq_dec i (zlen L)) as [->|Hne].
    + intros E. injection E as <-. split; [lia|].
      rewrite firstn_all2 by (unfold zlen; lia). exact HS.
    + intros E. destruct (H3 i b E) as [A B]. split; [lia|]. rewrite Hfirst by lia. exact B.
  - intros i b. change (a_i2b (a_add a p n)) with (dset (zlen L) S' (a_i2b a)).
    change (a_b2i (a_add a p n)) with (dset S' (zlen L) (a_b2i a)).
    rewrite !dget_dset.
    destruct (eq_dec b S') as [->|Hb]; destruct (eq_dec i (zlen L)) as [->|Hi].
    + tauto.
    + split; [congruence|]. intros E. apply Hold in E. lia.
    + split; [intros E; apply H4, Hold in E; lia|congruence].
    + apply H4.
  - change (a_i2b (a_add a p n)) with (dset (zlen L) S' (a_i2b a)). rewrite dget_dset.
    destruct (eq_dec 0 (zlen L)) as [E|]; [lia|exact H5].
  - change (a_i2b (a_add a p n)) with (dset (zlen L) S' (a_i2b a)).
    change (a_elems (a_add a p n)) with L. rewrite dget_dset.
    destruct (eq_dec (zlen L) (zlen L)); [reflexivity|congruence].
  - change (a_elems (a_add a p n)) with L. cbn [a_add a_specs].
    eapply Forall_impl; [|exact H7]. cbn beta. intros s (A & B & C & D).
    rewrite !Hfirst by lia. lia.
Qed.

Lemma with_elems_inv a l :
  AInv a -> Forall p_ok l -> map p_kind l = map p_kind (a_elems a) -> AInv (with_elems a l).
Proof.
  intros [H1 H2 H3 H4 H5 H6 H7] Hl Hk.
  assert (Hlen : List.length l = List.length (a_elems a)).
  { rewrite <- (map_length p_kind l), Hk, map_length. reflexivity. }
  assert (Hf : forall i, total_size (firstn i l) = total_size (firstn i (a_elems a))).
  { intros i. apply total_kinds. rewrite <- !firstn_map, Hk. reflexivity. }
  assert (HZ : zlen l = zlen (a_elems a)) by (unfold zlen; rewrite Hlen; reflexivity).
  split; cbn [with_elems a_elems a_size a_i2b a_b2i a_specs]; rewrite ?HZ; auto.
  - rewrite H2. symmetry. apply total_kinds. exact Hk.
  - intros i b E. destruct (H3 i b E). rewrite Hf. auto.
  - eapply Forall_impl; [|exact H7]. cbn beta. intros s. rewrite !Hf. tauto.
Qed.

Lemma assign_kinds l : forall vs, map p_kind (assign l vs) = map p_kind l.
Proof.
  induction l as [|p l IH]; intros [|v vs]; cbn; try reflexivity. rewrite IH. reflexivity.
Qed.
Lemma assign_ok l : forall vs, Forall p_ok l -> Forall p_ok (assign l vs).
Proof.
  induction l as [|p l IH]; intros [|v vs] H; cbn; auto.
  inversion H; subst. constructor; [apply p_set_ok|auto].
Qed.
Lemma assign_length l vs : List.length (assign l vs) = List.length l.
Proof. rewrite <- (map_length p_kind), assign_kinds, map_length. reflexivity. Qed.

Lemma set_nth_kinds n v l : map p_kind (set_nth n v l) = map p_kind l.
Proof.
  revert n. induction l as [|p l IH]; intros [|n]; cbn; try reflexivity. rewrite IH. reflexivity.
Qed.
Lemma set_nth_ok n v l : Forall p_ok l -> Forall p_ok (set_nth n v l).
Proof.
  revert n. induction l as [|p l IH]; intros [|n] H; cbn; auto; inversion H; subst;
    constructor; auto. apply p_set_ok.
Qed.

Lemma copy_elems a : AInv a -> a_elems (a_copy a) = a_elems a /\ a_order (a_copy a) = a_order a.
Proof.
  intros H. cbn [a_copy a_elems a_order].
  assert (G : forall l x, Forall p_ok l ->
            a_elems (fold_left (fun x p => a_add x (p_copy p) None) l x) = a_elems x ++ l /\
            a_order (fold_left (fun x p => a_add x (p_copy p) None) l x) = a_order x).
  { induction l as [|p l IH]; intros x Hl; cbn [fold_left]; [rewrite app_nil_r; auto|].
    inversion Hl; subst. destruct (IH (a_add x (p_copy p) None)) as [A B]; [assumption|].
    rewrite A, B, add_elems. cbn. rewrite (p_copy_same p) by assumption.
    rewrite <- app_assoc. auto. }
  destruct (G (a_elems a) (a_empty (a_order a)) (ai_ok _ H)) as [A B].
  rewrite A, B. auto.
Qed.

Lemma fold_add_inv l : forall x, AInv x -> Forall p_ok l ->
  AInv (fold_left (fun x p => a_add x (p_copy p) None) l x).
Proof.
  induction l as [|p l IH]; cbn [fold_left]; intros x Hx Hl; [exact Hx|].
  inversion Hl; subst. apply IH; [|assumption]. apply add_inv; [exact Hx|apply p_copy_ok].
Qed.

Lemma copy_inv a : AInv a -> AInv (a_copy a).
Proof.
  intros H. destruct (copy_elems a H) as [He _].
  pose proof (fold_add_inv (a_elems a) (a_empty (a_order a)) (empty_inv _) (ai_ok _ H)) as [A1 A2 A3 A4 A5 A6 A7].
  split; cbn [a_copy a_specs]; auto.
  rewrite He. apply (ai_specs _ H).
Qed.

Lemma spec_add_inv a s :
  AInv a ->
  0 <= fs_i0 s < fs_i1 s /\ fs_i1 s <= zlen (a_elems a) /\
  fs_b0 s = total_size (firstn (Z.to_nat (fs_i0 s)) (a_elems a)) /\
  fs_b1 s = total_size (firstn (Z.to_nat (fs_i1 s)) (a_elems a)) ->
  AInv (fst (add_spec a s)).
Proof.
  intros [H1 H2 H3 H4 H5 H6 H7] Hs. split; cbn; auto.
  apply Forall_app. split; [exact H7|]. constructor; [exact Hs|constructor].
Qed.

Lemma index_spec_ok a i j s : AInv a -> index_spec a i j = Some s ->
  0 <= fs_i0 s < fs_i1 s /\ fs_i1 s <= zlen (a_elems a) /\
  fs_b0 s = total_size (firstn (Z.to_nat (fs_i0 s)) (a_elems a)) /\
  fs_b1 s = total_size (firstn (Z.to_nat (fs_i1 s)) (a_elems a)).
Proof.
  intros H. unfold index_spec, byte_at_index.
  set (j' := if j =? -1 then zlen (a_elems a) else j).
  destruct (j' >? i) eqn:E; [|discriminate].
  destruct (dget i (a_i2b a)) as [b0|] eqn:E0; [|discriminate].
  destruct (dget j' (a_i2b a)) as [b1|] eqn:E1; [|discriminate].
  intros X; injection X as <-. cbn.
  apply (ai_tab _ H) in E0. apply (ai_tab _ H) in E1. lia.
Qed.

Lemma total_firstn_mono l i j :
  (i <= j)%nat -> total_size (firstn i l) <= total_size (firstn j l).
Proof.
  revert i j. induction l as [|p l IH]; intros i j Hij.
  - rewrite !firstn_nil. lia.
  - destruct i as [|i]; destruct j as [|j]; cbn [firstn]; try lia.
    + apply total_nonneg.
    + rewrite !total_cons. specialize (IH i j). lia.
Qed.

Lemma byte_spec_ok a i j s : AInv a -> byte_spec a i j = Some s ->
  0 <= fs_i0 s < fs_i1 s /\ fs_i1 s <= zlen (a_elems a) /\
  fs_b0 s = total_size (firstn (Z.to_nat (fs_i0 s)) (a_elems a)) /\
  fs_b1 s = total_size (firstn (Z.to_nat (fs_i1 s)) (a_elems a)).
Proof.
  intros H. unfold byte_spec, index_at_byte.
  destruct (if j =? -1 then byte_at_index a (zlen (a_elems a)) else Some j) as [j'|]; [|discriminate].
  destruct (j' >? i) eqn:E; [|discriminate].
  destruct (dget i (a_b2i a)) as [b0|] eqn:E0; [|discriminate].
  destruct (dget j' (a_b2i a)) as [b1|] eqn:E1; [|discriminate].
  intros X; injection X as <-. cbn.
  apply (ai_inv _ H), (ai_tab _ H) in E0. apply (ai_inv _ H), (ai_tab _ H) in E1.
  repeat split; try lia.
  destruct (Z_lt_le_dec b0 b1) as [|G]; [assumption|].
  exfalso. pose proof (total_firstn_mono (a_elems a) (Z.to_nat b1) (Z.to_nat b0)). lia.
Qed.

Lemma slice_length {A} i j (l : list A) :
  0 <= i -> j <= zlen l -> i <= j -> List.length (slice i j l) = (Z.to_nat j - Z.to_nat i)%nat.
Proof.
  intros Hi Hj Hij. unfold slice, zlen in *. rewrite firstn_length, skipn_length. lia.
Qed.

Lemma slice_split {A} i j (l : list A) :
  0 <= i -> i <= j ->
  l = firstn (Z.to_nat i) l ++ slice i j l ++ skipn (Z.to_nat j) l.
Proof.
  intros Hi Hij. unfold slice.
  rewrite <- (firstn_skipn (Z.to_nat i) l) at 1. f_equal.
  rewrite <- (firstn_skipn (Z.to_nat j - Z.to_nat i) (skipn (Z.to_nat i) l)) at 1. f_equal.
  rewrite skipn_skipn_add. f_equal. lia.
Qed.

Section Host.
  Context (native_le : bool).

  Lemma step_inv a o : AInv a -> op_ok o -> AInv (a_step native_le a o).
  Proof.
    intros H Ho. destruct o; cbn [a_step op_ok] in *.
    - apply add_inv; assumption.
    - unfold fragment_from_indices. destruct (index_spec a start stop) as [s|] eqn:E; [|exact H].
      apply (spec_add_inv a s H). eapply index_spec_ok; eauto.
    - unfold fragment_from_bytes. destruct (byte_spec a start stop) as [s|] eqn:E; [|exact H].
      apply (spec_add_inv a s H). eapply byte_spec_ok; eauto.
    - unfold a_update. destruct (unpack _ _ _ _ _) as [vs|]; [|exact H]. cbn.
      apply with_elems_inv; [exact H|apply assign_ok, (ai_ok _ H)|apply assign_kinds].
    - unfold update_fragment. destruct (nth_error (a_specs a) n) as [s|] eqn:E; [|exact H].
      destruct (unpack _ _ _ _ _) as [vs|]; [|exact H]. cbn.
      pose proof (ai_specs _ H) as Hs. rewrite Forall_forall in Hs.
      apply nth_error_In in E. specialize (Hs s E). destruct Hs as (A & B & _).
      pose proof (slice_split (fs_i0 s) (fs_i1 s) (a_elems a)) as Sp.
      assert (Hall : Forall p_ok (a_elems a)) by apply H.
      rewrite Sp in Hall by lia. apply Forall_app in Hall as [F1 F2]. apply Forall_app in F2 as [F2 F3].
      apply with_elems_inv; [exact H| |].
      + apply Forall_app. split; [exact F1|]. apply Forall_app. split; [apply assign_ok; exact F2|exact F3].
      + rewrite Sp at 4 by lia. rewrite !map_app, assign_kinds. reflexivity.
    - apply with_elems_inv; [exact H|apply set_nth_ok, (ai_ok _ H)|apply set_nth_kinds].
    - apply empty_inv.
    - apply copy_inv; exact H.
  Qed.

  Lemma run_inv ops : forall a, AInv a -> Forall op_ok ops -> AInv (a_run native_le a ops).
  Proof.
    unfold a_run. induction ops as [|o ops IH]; cbn [fold_left]; intros a H Ho; [exact H|].
    inversion Ho; subst. apply IH; [|assumption]. apply step_inv; assumption.
  Qed.

  Lemma reachable_inv a : a_reachable native_le a -> AInv a.
  Proof. intros (bo & ops & Ho & ->). apply run_inv; [apply empty_inv|exact Ho]. Qed.

  (** Packing. *)
  Lemma pad_std bo off k : standard bo -> pad_len bo off k = O.
  Proof. intros H. destruct bo; try reflexivity. congruence. Qed.

  Lemma pack_some bo l : forall off, Forall p_ok l -> exists d, pack native_le bo off l = Some d.
  Proof.
    induction l as [|p l IH]; intros off H; cbn; [eauto|].
    inversion H as [|? ? Hp Hl]; subst. rewrite (encode_some _ _ _ _ Hp).
    destruct (IH (off + Z.of_nat (pad_len bo off (p_kind p)) + p_size p) Hl) as [d ->]. eauto.
  Qed.

  Lemma pack_bytes bo l : forall off d, pack native_le bo off l = Some d -> is_bytes d.
  Proof.
    induction l as [|p l IH]; intros off d H; cbn in H; [injection H as <-; constructor|].
    destruct (k_encode _ _ _ _) as [x|] eqn:Ex; [|discriminate].
    destruct (pack _ _ _ l) as [y|] eqn:Ey; [|discriminate]. injection H as <-.
    apply Forall_app. split.
    - apply Forall_forall. intros z Hz. apply repeat_spec in Hz. subst. unfold is_byte; lia.
    - apply Forall_app. split; [eapply encode_is_bytes; eauto|eapply IH; eauto].
  Qed.

  Lemma pack_std_length bo l : standard bo -> forall off d,
    pack native_le bo off l = Some d -> zlen d = total_size l.
  Proof.
    intros Hs. induction l as [|p l IH]; intros off d H; cbn [pack] in H; [injection H as <-; reflexivity|].
    rewrite (pad_std _ _ _ Hs) in H. cbn [repeat app] in H.
    destruct (k_encode _ _ _ _) as [x|] eqn:Ex; [|discriminate].
    destruct (pack _ _ _ l) as [y|] eqn:Ey; [|discriminate]. injection H as <-.
    rewrite zlen_app, total_cons, (IH _ _ Ey). unfold zlen.
    rewrite (encode_length _ _ _ _ _ Ex). reflexivity.
  Qed.

  Lemma pack_std_app bo l1 l2 : standard bo -> forall off off1 off2 d1 d2,
    pack native_le bo off1 l1 = Some d1 -> pack native_le bo off2 l2 = Some d2 ->
    pack native_le bo off (l1 ++ l2) = Some (d1 ++ d2).
  Proof.
    intros Hs.
    assert (Hoff : forall l o o', pack native_le bo o l = pack native_le bo o' l).
    { induction l as [|p l IH]; intros o o'; cbn [pack]; [reflexivity|].
      rewrite !(pad_std _ _ _ Hs).
      rewrite (IH (o + Z.of_nat 0 + p_size p) (o' + Z.of_nat 0 + p_size p)). reflexivity. }
    induction l1 as [|p l1 IH]; intros off off1 off2 d1 d2 H1 H2.
    - cbn in H1. injection H1 as <-. cbn. rewrite (Hoff l2 off off2). exact H2.
    - cbn [app pack] in *. rewrite (pad_std bo off1 _ Hs) in H1. rewrite (pad_std bo off _ Hs). cbn [repeat app] in *.
      destruct (k_encode _ _ _ _) as [x|] eqn:Ex; [|discriminate].
      destruct (pack _ _ _ l1) as [y|] eqn:Ey; [|discriminate]. injection H1 as <-.
      rewrite (IH _ _ _ _ _ Ey H2). rewrite app_assoc. reflexivity.
  Qed.

  (** Any byte order: unpacking packed bytes gives the values. *)
  Lemma unpack_pack bo l : forall l2 off d,
    Forall p_ok l -> map p_kind l2 = map p_kind l ->
    pack native_le bo off l = Some d ->
    unpack native_le bo off l2 d = Some (map p_val l).
  Proof.
    induction l as [|p l IH]; intros [|q l2] off d H Hk E; try discriminate Hk.
    - cbn in E. injection E as <-. reflexivity.
    - cbn in Hk. injection Hk as Hk1 Hk2. inversion H as [|? ? Hp Hl]; subst.
      cbn [pack] in E.
      destruct (k_encode native_le (p_kind p) bo (p_val p)) as [x|] eqn:Ex; [|discriminate].
      destruct (pack native_le bo _ l) as [y|] eqn:Ey; [|discriminate]. injection E as <-.
      cbn [unpack]. rewrite Hk1. unfold p_size in *. rewrite Hk1.
      set (n := pad_len bo off (p_kind p)) in *.
      pose proof (encode_length _ _ _ _ _ Ex) as Lx.
      rewrite !app_length, repeat_length, Lx.
      destruct (Nat.ltb_spec (n + (k_size (p_kind p) + List.length y)) (n + k_size (p_kind p))) as [C|C]; [lia|].
      assert (Sk : skipn n (repeat 0 n ++ x ++ y) = x ++ y).
      { rewrite <- (repeat_length 0 n) at 1. apply skipn_app_exact. }
      rewrite Sk, <- Lx, firstn_app_exact, skipn_app_exact.
      rewrite (decode_encode _ _ _ _ _ Hp Ex).
      rewrite Lx, (IH l2 _ y Hl Hk2 Ey). reflexivity.
  Qed.

  Lemma assign_vals l : forall l2, Forall p_ok l -> map p_kind l2 = map p_kind l ->
    assign l2 (map p_val l) = l.
  Proof.
    induction l as [|p l IH]; intros [|q l2] H Hk; try discriminate Hk; [reflexivity|].
    cbn in *. injection Hk as Hk1 Hk2. inversion H as [|? ? Hp Hl]; subst.
    rewrite (IH l2 Hl Hk2). f_equal. unfold p_set. rewrite Hk1, (store_id _ _ Hp).
    destruct p; reflexivity.
  Qed.

  (** Standard orders: any bytes of the right length are accepted, and packing
      returns them. *)
  Lemma unpack_std_some bo l : standard bo -> forall off d,
    zlen d = total_size l -> exists vs, unpack native_le bo off l d = Some vs.
  Proof.
    intros Hs. induction l as [|p l IH]; intros off d H.
    - cbn in H. destruct d; [cbn; eauto|]. rewrite zlen_cons in H. pose proof (zlen_nonneg d). lia.
    - rewrite total_cons in H. cbn [unpack]. rewrite (pad_std _ _ _ Hs). cbn [skipn Nat.add].
      pose proof (total_nonneg l). unfold p_size, zlen in H.
      destruct (Nat.ltb_spec (List.length d) (k_size (p_kind p))) as [C|C]; [lia|].
      assert (L : List.length (firstn (k_size (p_kind p)) d) = k_size (p_kind p))
        by (rewrite firstn_length; lia).
      destruct (proj2 (decode_length_iff native_le (p_kind p) bo _) L) as [v ->].
      destruct (IH (off + Z.of_nat 0 + p_size p) (skipn (k_size (p_kind p)) d)) as [vs ->].
      + unfold zlen. rewrite skipn_length. lia.
      + eauto.
  Qed.
  Lemma unpack_std_length bo l : standard bo -> forall off d vs,
    unpack native_le bo off l d = Some vs -> zlen d = total_size l.
  Proof.
    intros Hs. induction l as [|p l IH]; intros off d vs H; cbn [unpack] in H.
    - destruct d; [reflexivity|discriminate].
    - rewrite (pad_std _ _ _ Hs) in H. cbn [skipn Nat.add] in H.
      destruct (Nat.ltb_spec (List.length d) (k_size (p_kind p))) as [C|C]; [discriminate|].
      destruct (k_decode _ _ _ _); [|discriminate].
      destruct (unpack _ _ _ _ _) as [vs'|] eqn:E; [|discriminate].
      apply IH in E. rewrite total_cons, <- E. unfold p_size, zlen. rewrite skipn_length. lia.
  Qed.

  Lemma pack_unpack bo l : standard bo -> forall off d vs,
    is_bytes d -> Forall (fun p => p_kind p <> KBool) l ->
    unpack native_le bo off l d = Some vs ->
    pack native_le bo off (assign l vs) = Some d.
  Proof.
    intros Hs. induction l as [|p l IH]; intros off d vs Hb Hk H; cbn [unpack] in H.
    - destruct d; [|discriminate]. injection H as <-. reflexivity.
    - rewrite (pad_std _ _ _ Hs) in H. cbn [skipn Nat.add] in H.
      destruct (Nat.ltb_spec (List.length d) (k_size (p_kind p))) as [C|C]; [discriminate|].
      destruct (k_decode _ _ _ _) as [v|] eqn:Ev; [|discriminate].
      destruct (unpack _ _ _ _ _) as [vs'|] eqn:E; [|discriminate]. injection H as <-.
      inversion Hk as [|? ? Hk1 Hk2]; subst.
      assert (B1 : is_bytes (firstn (k_size (p_kind p)) d)) by (apply is_bytes_firstn; exact Hb).
      assert (B2 : is_bytes (skipn (k_size (p_kind p)) d)) by (apply is_bytes_skipn; exact Hb).
      cbn [assign pack p_set p_kind]. rewrite (pad_std _ _ _ Hs). cbn [repeat app p_val p_set].
      pose proof (decode_value _ _ _ _ _ B1 Ev) as Hv. rewrite (store_id _ _ Hv).
      rewrite (encode_decode _ _ _ _ _ Hk1 B1 Ev).
      unfold p_size in *. cbn [p_kind].
      change (p_size (p_set p v)) with (Z.of_nat (k_size (p_kind p))) in *; cbn [p_kind p_set]. rewrite (IH _ _ _ B2 Hk2 E). f_equal. apply firstn_skipn.
  Qed.
End Host.
