(** Properties C17-C19: arrays of primitives. *)
From Coq Require Import ZifyBool ZifyNat.
From Verif Require Import Base BaseLemmas PrimModel PrimSpec PrimProofs StringModel StringProofs
  ArrayModel ArraySpec ArrayProofs.

(** C17.  In a standard byte order, [bytes(array)] exists and its length is
    [array.size], the sum of the element sizes. *)
Theorem C17_bytes_length :
  forall native_le a,
    a_reachable native_le a -> standard (a_order a) ->
    exists d, a_bytes native_le a = Some d /\ is_bytes d /\
      zlen d = a_size a /\ a_size a = total_size (a_elems a).
Proof.
  intros n a H Hs. apply reachable_inv in H.
  destruct (pack_some n (a_order a) (a_elems a) 0 (ai_ok _ H)) as [d Hd].
  exists d. split; [exact Hd|]. split; [eapply pack_bytes; exact Hd|].
  split; [|apply H]. rewrite (ai_size _ H). eapply pack_std_length; eauto.
Qed.
Print Assumptions C17_bytes_length.

(** C17.  Updating any array of the same shape and byte order from those bytes
    succeeds and makes its elements equal; this also holds with native order. *)
Theorem C17_update_of_bytes :
  forall native_le a b d,
    a_reachable native_le a -> same_kinds b a -> a_order b = a_order a ->
    a_bytes native_le a = Some d ->
    exists b', a_update native_le b d = Some b' /\ a_elems b' = a_elems a.
Proof.
  intros n a b d H Hk Ho Hd. apply reachable_inv in H. unfold a_update.
  rewrite Ho, (unpack_pack n (a_order a) (a_elems a) (a_elems b) 0 d (ai_ok _ H) Hk Hd).
  eexists. split; [reflexivity|]. cbn. apply assign_vals; [apply H|exact Hk].
Qed.
Print Assumptions C17_update_of_bytes.

(** C17.  Updating succeeds exactly on [size] bytes, and serializing afterwards
    returns those bytes (booleans normalise, so they are excluded). *)
Theorem C17_bytes_of_update :
  forall native_le a d,
    a_reachable native_le a -> standard (a_order a) -> is_bytes d ->
    ((exists a', a_update native_le a d = Some a') <-> zlen d = a_size a) /\
    (forall a', a_update native_le a d = Some a' ->
       same_kinds a' a /\ (no_bool a -> a_bytes native_le a' = Some d)).
Proof.
  intros n a d H Hs Hb. apply reachable_inv in H. unfold a_update. rewrite (ai_size _ H).
  split; [split|].
  - intros [a' E]. destruct (unpack _ _ _ _ _) eqn:U; [|discriminate].
    eapply unpack_std_length; eauto.
  - intros L. destruct (unpack_std_some n _ _ Hs 0 d L) as [vs ->]. eauto.
  - intros a' E. destruct (unpack _ _ _ _ _) as [vs|] eqn:U; [|discriminate].
    injection E as <-. split; [apply assign_kinds|]. intros Hn.
    unfold a_bytes. cbn. eapply pack_unpack; eauto.
Qed.
Print Assumptions C17_bytes_of_update.

(** The native order pads: there the length is not [size]. *)
Theorem C17_native_length_refuted :
  exists a d, a_reachable true a /\ a_bytes true a = Some d /\ zlen d <> a_size a.
Proof.
  eexists. eexists. split.
  - exists Native, [AAdd (p_new U8 1) None; AAdd (p_new U32 2) None].
    split; [|reflexivity]. repeat constructor; cbn; unfold p_ok; cbn; lia.
  - split; [vm_compute; reflexivity|]. vm_compute. discriminate.
Qed.
Print Assumptions C17_native_length_refuted.

(** C17/C21 support: a copy serializes identically. *)
Theorem C17_copy_same_bytes :
  forall native_le a,
    a_reachable native_le a ->
    a_bytes native_le (a_copy a) = a_bytes native_le a /\
    a_size (a_copy a) = a_size a /\
    (forall n, fragment_bytes native_le (a_copy a) n = fragment_bytes native_le a n).
Proof.
  intros n a H. apply reachable_inv in H. pose proof (copy_elems a H) as [He Ho].
  pose proof (copy_inv a H) as Hc.
  split; [unfold a_bytes; rewrite He, Ho; reflexivity|].
  split; [rewrite (ai_size _ Hc), (ai_size _ H), He; reflexivity|].
  intros i. unfold fragment_bytes. rewrite He, Ho. reflexivity.
Qed.
Print Assumptions C17_copy_same_bytes.

(** C18.  The two tables are inverse; a recorded byte position is the total
    size of the elements before the index, and both ends are recorded. *)
Theorem C18_tables_inverse :
  forall native_le a,
    a_reachable native_le a ->
    (forall i b, byte_at_index a i = Some b <-> index_at_byte a b = Some i) /\
    (forall i b, byte_at_index a i = Some b ->
       0 <= i <= zlen (a_elems a) /\ b = total_size (firstn (Z.to_nat i) (a_elems a))) /\
    byte_at_index a 0 = Some 0 /\
    byte_at_index a (zlen (a_elems a)) = Some (a_size a).
Proof.
  intros n a H. apply reachable_inv in H. split; [|split; [|split]].
  - intros i b. symmetry. apply (ai_inv _ H).
  - apply (ai_tab _ H).
  - apply (ai_zero _ H).
  - apply (ai_last _ H).
Qed.
Print Assumptions C18_tables_inverse.

(** C18.  Every boundary is recorded when no add asked for several elements. *)
Definition single_add (o : aop) : Prop :=
  match o with AAdd _ (Some n) => n <= 1 | _ => True end.

Definition all_recorded (a : arr) : Prop :=
  forall i, 0 <= i <= zlen (a_elems a) -> exists b, byte_at_index a i = Some b.

Lemma zlen_same_kinds l1 l2 : map p_kind l1 = map p_kind l2 -> zlen l1 = zlen l2.
Proof.
  intros H. unfold zlen. rewrite <- (map_length p_kind l1), H, map_length. reflexivity.
Qed.

Lemma add_recorded a p n :
  match n with Some n => n <= 1 | None => True end ->
  all_recorded a -> all_recorded (a_add a p n).
Proof.
  intros Hn H i Hi. unfold byte_at_index in *.
  assert (E : extra_of n = O) by (destruct n; cbn; lia).
  assert (L : zlen (a_elems (a_add a p n)) = zlen (a_elems a) + 1).
  { rewrite add_elems, E. cbn [repeat]. rewrite zlen_app. reflexivity. }
  rewrite L in Hi.
  change (a_i2b (a_add a p n)) with
    (dset (zlen (a_elems (a_add a p n))) (a_size (a_add a p n)) (a_i2b a)).
  rewrite dget_dset, L. destruct (eq_dec i (zlen (a_elems a) + 1)); [eauto|].
  apply H. lia.
Qed.

Lemma step_recorded n a o : AInv a -> op_ok o -> single_add o ->
  all_recorded a -> all_recorded (a_step n a o).
Proof.
  intros Hi Ho Hs H. destruct o; cbn [a_step single_add] in *.
  - apply add_recorded; assumption.
  - unfold fragment_from_indices. destruct (index_spec a start stop); exact H.
  - unfold fragment_from_bytes. destruct (byte_spec a start stop); exact H.
  - unfold a_update. destruct (unpack _ _ _ _ _) as [vs|]; [|exact H]. cbn.
    intros i Hi'. apply (H i). cbn in Hi'. rewrite (zlen_same_kinds _ _ (assign_kinds _ _)) in Hi'. exact Hi'.
  - unfold update_fragment. destruct (nth_error (a_specs a) n0) as [s|] eqn:E; [|exact H].
    destruct (unpack _ _ _ _ _) as [vs|]; [|exact H]. cbn.
    pose proof (ai_specs _ Hi) as Hsp. rewrite Forall_forall in Hsp.
    apply nth_error_In in E. specialize (Hsp s E). destruct Hsp as (A & B & _).
    intros i Hi'. apply (H i). cbn [with_elems a_elems] in Hi'.
    rewrite (slice_split (fs_i0 s) (fs_i1 s) (a_elems a)) by lia.
    rewrite !zlen_app in Hi' |- *.
    rewrite (zlen_same_kinds _ _ (assign_kinds _ _)) in Hi'. exact Hi'.
  - intros i Hi'. apply (H i). cbn in Hi'. rewrite (zlen_same_kinds _ _ (set_nth_kinds _ _ _)) in Hi'. exact Hi'.
  - intros i Hi'. cbn in Hi'. exists 0. replace i with 0 by (cbn in Hi'; lia). reflexivity.
  - intros i Hi'.
    assert (G : forall l x, all_recorded x ->
              all_recorded (fold_left (fun x p => a_add x (p_copy p) None) l x)).
    { induction l as [|p l IH]; cbn [fold_left]; intros x Hx; [exact Hx|].
      apply IH. apply add_recorded; [exact I|exact Hx]. }
    apply (G (a_elems a) (a_empty (a_order a))); [|exact Hi'].
    intros j Hj. exists 0. replace j with 0 by (cbn in Hj; lia). reflexivity.
Qed.

Theorem C18_every_boundary_partial :
  forall native_le bo ops,
    Forall op_ok ops -> Forall single_add ops ->
    all_recorded (a_run native_le (a_empty bo) ops).
Proof.
  intros n bo ops Ho Hs. unfold a_run.
  assert (G : forall a, AInv a -> all_recorded a -> all_recorded (fold_left (a_step n) ops a)).
  { induction ops as [|o ops IH]; cbn [fold_left]; intros a Ha Hr; [exact Hr|].
    inversion Ho; inversion Hs; subst. apply IH; auto.
    - apply step_inv; assumption.
    - apply step_recorded; assumption. }
  apply G; [apply empty_inv|].
  intros j Hj. exists 0. replace j with 0 by (cbn in Hj; lia). reflexivity.
Qed.
Print Assumptions C18_every_boundary_partial.

(** C18.  What is missing: an add of several elements records only its end, so
    its interior boundaries raise. *)
Theorem C18_interior_missing :
  forall native_le a p n j,
    a_reachable native_le a -> 1 < n -> 0 < j < n ->
    byte_at_index (a_add a p (Some n)) (zlen (a_elems a) + j) = None.
Proof.
  intros nl a p n j H Hn Hj. apply reachable_inv in H. unfold byte_at_index.
  change (a_i2b (a_add a p (Some n))) with
    (dset (zlen (a_elems (a_add a p (Some n)))) (a_size (a_add a p (Some n))) (a_i2b a)).
  rewrite dget_dset, add_elems, zlen_app, zlen_cons, zlen_repeat. cbn [extra_of].
  destruct (eq_dec _ _) as [E|E]; [lia|].
  destruct (dget _ _) as [b|] eqn:D; [|reflexivity].
  apply (ai_tab _ H) in D. lia.
Qed.
Print Assumptions C18_interior_missing.

Theorem C18_every_boundary_refuted :
  exists a, a_reachable true a /\ ~ all_recorded a.
Proof.
  eexists. split.
  - exists BigEndian, [AAdd (p_new U8 1) (Some 3)].
    split; [|reflexivity]. repeat constructor; cbn; unfold p_ok; cbn; lia.
  - intros H. destruct (H 1) as [b Hb]; [vm_compute; split; discriminate|].
    vm_compute in Hb. discriminate.
Qed.
Print Assumptions C18_every_boundary_refuted.

(** C19.  A fragment requested by element indices is granted exactly when the
    range is non-empty and both ends are recorded boundaries ([-1] is the end),
    and its bytes are the corresponding byte slice of the whole. *)
Theorem C19_fragment_is_slice :
  forall native_le a start stop a' n d,
    a_reachable native_le a -> standard (a_order a) ->
    fragment_from_indices a start stop = Some (a', n) ->
    a_bytes native_le a = Some d ->
    let stop' := if stop =? -1 then zlen (a_elems a) else stop in
    exists b0 b1,
      b0 = total_size (firstn (Z.to_nat start) (a_elems a)) /\
      b1 = total_size (firstn (Z.to_nat stop') (a_elems a)) /\
      a_bytes native_le a' = Some d /\
      fragment_bytes native_le a' (Z.to_nat n) =
        Some (firstn (Z.to_nat b1 - Z.to_nat b0) (skipn (Z.to_nat b0) d)).
Proof.
  intros nl a start stop a' n d H Hs F D stop'. pose proof (reachable_inv _ _ H) as Hi.
  unfold fragment_from_indices in F.
  destruct (index_spec a start stop) as [s|] eqn:E; [|discriminate].
  cbn in F. injection F as <- <-.
  pose proof (index_spec_ok _ _ _ _ Hi E) as (A & B & C1 & C2).
  assert (E0 : fs_i0 s = start /\ fs_i1 s = stop').
  { unfold index_spec in E. fold stop' in E. destruct (stop' >? start); [|discriminate].
    destruct (byte_at_index a start); [|discriminate].
    destruct (byte_at_index a stop'); [|discriminate]. injection E as <-. auto. }
  destruct E0 as [E0 E1]. rewrite E0, E1 in *.
  exists (fs_b0 s), (fs_b1 s). rewrite C1, C2. split; [reflexivity|]. split; [reflexivity|].
  split; [exact D|].
  unfold fragment_bytes. cbn [a_specs a_order a_elems].
  unfold zlen at 1. rewrite Nat2Z.id, nth_error_app2, Nat.sub_diag by lia. cbn [nth_error].
  rewrite E0, E1.
  assert (Hall : Forall p_ok (a_elems a)) by apply Hi.
  pose proof (slice_split start stop' (a_elems a)) as Sp.
  set (l0 := firstn (Z.to_nat start) (a_elems a)) in *.
  set (l1 := slice start stop' (a_elems a)) in *.
  set (l2 := skipn (Z.to_nat stop') (a_elems a)) in *.
  assert (Hl1 : firstn (Z.to_nat stop') (a_elems a) = l0 ++ l1).
  { assert (LL : List.length (l0 ++ l1) = Z.to_nat stop').
    { rewrite app_length. unfold l0, l1. rewrite firstn_length, slice_length by lia.
      unfold zlen in *. lia. }
    rewrite Sp by lia. rewrite app_assoc, <- LL. apply firstn_app_exact. }
  rewrite Hl1, total_app.
  rewrite Sp in Hall by lia. apply Forall_app in Hall as [F1 F2]. apply Forall_app in F2 as [F2 F3].
  destruct (pack_some nl (a_order a) l0 0 F1) as [d0 P0].
  destruct (pack_some nl (a_order a) l1 0 F2) as [d1 P1].
  destruct (pack_some nl (a_order a) l2 0 F3) as [d2 P2].
  pose proof (pack_std_app nl _ l1 l2 Hs 0 _ _ _ _ P1 P2) as P12.
  pose proof (pack_std_app nl _ l0 (l1 ++ l2) Hs 0 _ _ _ _ P0 P12) as P.
  unfold a_bytes in D. rewrite Sp in D by lia. rewrite P in D. injection D as <-.
  rewrite P1. f_equal.
  pose proof (pack_std_length nl _ l0 Hs _ _ P0) as L0.
  pose proof (pack_std_length nl _ l1 Hs _ _ P1) as L1.
  rewrite <- L0, <- L1. unfold zlen.
  replace (Z.to_nat (Z.of_nat (List.length d0))) with (List.length d0) by lia.
  rewrite skipn_app_exact.
  replace (Z.to_nat _ - _)%nat with (List.length d1) by lia.
  rewrite firstn_app_exact. reflexivity.
Qed.
Print Assumptions C19_fragment_is_slice.

(** C19.  When a range of element indices can be a fragment. *)
Theorem C19_fragment_exists :
  forall a start stop,
    (exists r, fragment_from_indices a start stop = Some r) <->
    let stop' := if stop =? -1 then zlen (a_elems a) else stop in
    start < stop' /\ byte_at_index a start <> None /\ byte_at_index a stop' <> None.
Proof.
  intros a start stop. cbv zeta.
  set (stop' := if stop =? -1 then zlen (a_elems a) else stop).
  unfold fragment_from_indices, index_spec. fold stop'.
  destruct (stop' >? start) eqn:E; [|cbn; split; [intros [r X]; discriminate|lia]].
  destruct (byte_at_index a start); [|cbn; split; [intros [r X]; discriminate|tauto]].
  destruct (byte_at_index a stop'); [|cbn; split; [intros [r X]; discriminate|tauto]].
  cbn. split; [|eauto]. intros _. repeat split; try congruence. lia.
Qed.
Print Assumptions C19_fragment_exists.

(** C19.  Asking by byte positions gives the same fragment as asking by the
    element indices at those positions. *)
Theorem C19_by_bytes_same :
  forall native_le a i j b c,
    a_reachable native_le a -> 0 <= i -> 0 <= j ->
    byte_at_index a i = Some b -> byte_at_index a j = Some c ->
    fragment_from_bytes a b c = fragment_from_indices a i j.
Proof.
  intros nl a i j b c H Hi Hj B C. apply reachable_inv in H.
  unfold fragment_from_bytes, fragment_from_indices. f_equal.
  unfold byte_spec, index_spec, byte_at_index, index_at_byte in *.
  pose proof (ai_tab _ H _ _ B) as [B1 B2]. pose proof (ai_tab _ H _ _ C) as [C1 C2].
  pose proof (total_nonneg (firstn (Z.to_nat j) (a_elems a))).
  destruct (Z.eqb_spec c (-1)); [lia|]. destruct (Z.eqb_spec j (-1)); [lia|].
  rewrite (proj2 (ai_inv _ H _ _) B), (proj2 (ai_inv _ H _ _) C), B, C.
  destruct (Z.gtb_spec j i) as [G|G]; destruct (Z.gtb_spec c b) as [K|K]; try reflexivity.
  - pose proof (total_firstn_lt (a_elems a) (Z.to_nat i) (Z.to_nat j)). unfold zlen in *. lia.
  - pose proof (total_firstn_mono (a_elems a) (Z.to_nat j) (Z.to_nat i)). lia.
Qed.
Print Assumptions C19_by_bytes_same.

(** C19.  Updating fragment [n], covering elements [i0, i1): succeeds exactly
    on the right number of bytes, leaves every other element as it was, keeps
    every kind, and the fragment then serializes to the new bytes. *)
Theorem C19_update_fragment :
  forall native_le a n s data,
    a_reachable native_le a -> standard (a_order a) -> is_bytes data ->
    nth_error (a_specs a) n = Some s ->
    ((exists a', update_fragment native_le a n data = Some a') <->
       zlen data = fs_b1 s - fs_b0 s) /\
    forall a', update_fragment native_le a n data = Some a' ->
      same_kinds a' a /\ a_specs a' = a_specs a /\
      (forall i, (Z.of_nat i < fs_i0 s \/ fs_i1 s <= Z.of_nat i) ->
         nth_error (a_elems a') i = nth_error (a_elems a) i) /\
      (no_bool a -> fragment_bytes native_le a' n = Some data).
Proof.
  intros nl a n s data H Hs Hb Hn. pose proof (reachable_inv _ _ H) as Hi.
  pose proof (ai_specs _ Hi) as Hsp. rewrite Forall_forall in Hsp.
  destruct (Hsp s (nth_error_In _ _ Hn)) as (A & B & C1 & C2).
  unfold update_fragment. rewrite Hn.
  set (i0 := fs_i0 s) in *. set (i1 := fs_i1 s) in *.
  pose proof (slice_split i0 i1 (a_elems a)) as Sp.
  set (l0 := firstn (Z.to_nat i0) (a_elems a)) in *.
  set (l1 := slice i0 i1 (a_elems a)) in *.
  set (l2 := skipn (Z.to_nat i1) (a_elems a)) in *.
  assert (LL0 : List.length l0 = Z.to_nat i0)
    by (unfold l0; rewrite firstn_length; unfold zlen in *; lia).
  assert (LL1 : List.length l1 = (Z.to_nat i1 - Z.to_nat i0)%nat)
    by (unfold l1; rewrite slice_length; lia).
  assert (Hl1 : firstn (Z.to_nat i1) (a_elems a) = l0 ++ l1).
  { assert (LL : List.length (l0 ++ l1) = Z.to_nat i1) by (rewrite app_length; lia).
    rewrite Sp by lia. rewrite app_assoc, <- LL. apply firstn_app_exact. }
  assert (T : fs_b1 s - fs_b0 s = total_size l1).
  { rewrite C1, C2, Hl1, total_app. fold l0. lia. }
  split; [split|].
  - intros [a' E]. destruct (unpack _ _ _ _ _) as [vs|] eqn:U; [|discriminate].
    rewrite T. eapply unpack_std_length; eauto.
  - intros L. rewrite T in L. destruct (unpack_std_some nl _ _ Hs 0 data L) as [vs ->]. eauto.
  - intros a' E. destruct (unpack _ _ _ _ _) as [vs|] eqn:U; [|discriminate].
    injection E as <-. cbn [with_elems a_elems a_specs].
    assert (LA : List.length (assign l1 vs) = List.length l1) by apply assign_length.
    split; [|split; [reflexivity|split]].
    + unfold same_kinds. cbn [with_elems a_elems]. rewrite Sp by lia.
      rewrite !map_app, assign_kinds. reflexivity.
    + intros i [Hlt|Hge].
      * rewrite Sp by lia. rewrite !nth_error_app1 by lia. reflexivity.
      * rewrite Sp by lia. rewrite !(nth_error_app2 l0) by lia.
        rewrite !nth_error_app2 by lia. rewrite LA. reflexivity.
    + intros Nb. unfold fragment_bytes. cbn [with_elems a_specs a_order a_elems]. rewrite Hn.
      fold i0 i1. unfold slice.
      rewrite <- LL0, skipn_app_exact, LL0, <- LL1, <- LA, firstn_app_exact.
      eapply pack_unpack; eauto.
      unfold no_bool in Nb. rewrite Sp in Nb by lia.
      apply Forall_app in Nb as [_ Nb]. apply Forall_app in Nb as [Nb _]. exact Nb.
Qed.
Print Assumptions C19_update_fragment.

(** A concrete non-trivial case: three elements, one added twice, a fragment. *)
Definition ex_ops :=
  [AAdd (p_new U8 7) None; AAdd (p_new I16 (-2)) (Some 2); AAdd (p_new U32 9) None;
   AFragI 1 3; ASet 2 300; AUpdateFrag 0 [1; 2; 3; 4]].
Example ex_array_reachable :
  a_reachable true (a_run true (a_empty BigEndian) ex_ops).
Proof.
  exists BigEndian, ex_ops. split; [|reflexivity].
  repeat constructor; cbn; unfold p_ok, is_byte; cbn; lia.
Qed.
Example ex_array_bytes :
  a_bytes true (a_run true (a_empty BigEndian) ex_ops) = Some [7; 1; 2; 3; 4; 0; 0; 0; 9] /\
  fragment_bytes true (a_run true (a_empty BigEndian) ex_ops) 0 = Some [1; 2; 3; 4] /\
  a_size (a_run true (a_empty BigEndian) ex_ops) = 9 /\
  no_bool (a_run true (a_empty BigEndian) ex_ops).
Proof. vm_compute. repeat split; repeat constructor; discriminate. Qed.

(** C17, native order, exactly: the bytes are at least as long as [array.size],
    and as long as it exactly when every element already starts at a multiple of
    its own size. *)
Theorem C17_native_length_iff :
  forall native_le a d,
    a_reachable native_le a -> a_order a = Native -> a_bytes native_le a = Some d ->
    a_size a <= zlen d /\
    (zlen d = a_size a <->
     forall before p after, a_elems a = before ++ p :: after ->
       total_size before mod Z.of_nat (wire_size (p_kind p)) = 0).
Proof.
  intros nl a d R Ho H. apply reachable_inv in R. rewrite (ai_size _ R).
  unfold a_bytes in H. rewrite Ho in H.
  assert (G : forall l off d, pack nl Native off l = Some d ->
            total_size l <= zlen d /\
            (zlen d = total_size l <->
             forall before p after, l = before ++ p :: after ->
               (off + total_size before) mod Z.of_nat (wire_size (p_kind p)) = 0)).
  { clear. induction l as [|p l IH]; intros off d H.
    - cbn in H. injection H as <-. split; [cbn; lia|]. split; [|reflexivity].
      intros _ before p after E. destruct before; discriminate.
    - cbn [pack] in H. destruct (k_encode nl (p_kind p) Native (p_val p)) as [x|] eqn:Ex; [|discriminate].
      destruct (pack nl Native (off + Z.of_nat (pad_len Native off (p_kind p)) + p_size p) l) as [y|] eqn:Ey; [|discriminate].
      injection H as <-. destruct (IH _ _ Ey) as [I1 I2]. clear IH.
      assert (Lx : zlen x = p_size p).
      { unfold k_encode in Ex. destruct (k_accepts (p_kind p) (p_val p)); [|discriminate].
        injection Ex as <-. unfold zlen. rewrite order_length, le_bytes_length. reflexivity. }
      assert (Sz : p_size p = Z.of_nat (wire_size (p_kind p))) by (destruct p as [[]]; reflexivity).
      assert (Ps : 0 < p_size p) by (destruct p as [[]]; reflexivity).
      assert (Pd : pad_len Native off (p_kind p) = O <-> off mod p_size p = 0).
      { unfold pad_len. fold (p_size p). pose proof (Z.mod_pos_bound off (p_size p) Ps) as B.
        set (m := off mod p_size p) in *. clearbody m.
        destruct (Z.eq_dec m 0) as [->|N].
        - rewrite Z.sub_0_r, Z_mod_same_full. split; reflexivity.
        - rewrite Z.mod_small by lia. split; lia. }
      rewrite !zlen_app, zlen_repeat, Lx.
      change (Z.to_nat ((Z.of_nat (k_size (p_kind p)) - off mod Z.of_nat (k_size (p_kind p)))
                        mod Z.of_nat (k_size (p_kind p)))) with (pad_len Native off (p_kind p)).
      set (n := pad_len Native off (p_kind p)) in *.
      assert (Tl : forall m, total_size (p :: m) = p_size p + total_size m) by (intros m; rewrite Sz; reflexivity).
      rewrite (Tl l).
      split; [lia|]. split.
      + intros E. assert (Hn : n = O) by lia. assert (Hy : zlen y = total_size l) by lia.
        rewrite Hn in *. intros before q after Eq. destruct before as [|b before].
        * cbn [app] in Eq. injection Eq as <- <-. change (total_size []) with 0.
          rewrite Z.add_0_r, <- Sz. apply Pd. reflexivity.
        * cbn [app] in Eq. injection Eq as <- Eq. apply I2 with (after := after) in Eq; [|exact Hy].
          replace (off + total_size (p :: before)) with (off + Z.of_nat 0 + p_size p + total_size before)
            by (rewrite Tl; lia).
          exact Eq.
      + intros All. assert (Hn : n = O).
        { apply Pd. specialize (All [] p l eq_refl). rewrite <- Sz in All.
          change (total_size []) with 0 in All. rewrite Z.add_0_r in All. exact All. }
        assert (Hy : zlen y = total_size l).
        { apply I2. intros before q after Eq. specialize (All (p :: before) q after).
          cbn [app] in All. rewrite Eq in All. specialize (All eq_refl). rewrite Hn.
          replace (off + Z.of_nat 0 + p_size p + total_size before) with (off + total_size (p :: before))
            by (rewrite Tl; lia).
          exact All. }
        lia. }
  apply (G _ 0 d H).
Qed.
Print Assumptions C17_native_length_iff.
