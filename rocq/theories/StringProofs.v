(** Lemmas for C12 and C13. *)
From Coq Require Import ZifyBool ZifyNat.
From Verif Require Import Base BaseLemmas PrimModel PrimSpec PrimProofs Utf8Model Utf8Proofs
  StringModel.

Section Host.
  Context (native_le : bool).

  Lemma firstn_app_exact {A} (a b : list A) : firstn (List.length a) (a ++ b) = a.
  Proof. rewrite firstn_app, Nat.sub_diag, firstn_all. cbn. apply app_nil_r. Qed.
  Lemma skipn_app_exact {A} (a b : list A) : skipn (List.length a) (a ++ b) = b.
  Proof. rewrite skipn_app, Nat.sub_diag, skipn_all. reflexivity. Qed.

  Lemma stream_read_app n a b :
    n = zlen a -> stream_read n (a ++ b) = (a, b).
  Proof.
    intros ->. unfold stream_read, zlen.
    replace (Z.of_nat (List.length a) <? 0) with false by lia.
    rewrite Nat2Z.id, firstn_app_exact, skipn_app_exact. reflexivity.
  Qed.

  Lemma from_stream_encode k bo v a rest :
    k_value k v -> k_encode native_le k bo v = Some a ->
    prim_from_stream native_le k bo (a ++ rest) = Some (v, rest).
  Proof.
    intros Hv E. unfold prim_from_stream.
    rewrite (stream_read_app _ a rest).
    - rewrite (decode_encode _ _ _ _ _ Hv E), (store_id _ _ Hv). reflexivity.
    - unfold zlen. rewrite (encode_length _ _ _ _ _ E). reflexivity.
  Qed.

  Lemma sp_new_some k bo value s :
    sp_new k bo value = Some s ->
    k_is_int k = true /\ s = mkStr k value (k_store k (zlen value)) bo.
  Proof.
    unfold sp_new. destruct (k_is_int k); [|discriminate]. intros H; injection H; auto.
  Qed.

  Lemma int_store_value k v : k_is_int k = true -> k_value k (k_store k v).
  Proof. intros _. apply store_value. Qed.

  (** Writing always succeeds on encodable strings and has this shape. *)
  Lemma sp_write_shape k bo value s :
    sp_new k bo value = Some s -> Forall is_scalar value ->
    exists a b, k_encode native_le k bo (k_store k (zlen value)) = Some a /\
      utf8_encode value = Some b /\ sp_write native_le s = Some (a ++ b).
  Proof.
    intros H Hs. apply sp_new_some in H as [Hk ->].
    destruct (utf8_encode_some value Hs) as [b Hb].
    eexists. exists b. split; [apply encode_some, int_store_value; exact Hk|].
    split; [exact Hb|]. unfold sp_write; cbn.
    rewrite (encode_some _ _ _ _ (int_store_value k (zlen value) Hk)), Hb. reflexivity.
  Qed.

  Lemma sp_read_back k bo value s a b suffix :
    sp_new k bo value = Some s -> Forall is_scalar value ->
    k_encode native_le k bo (k_store k (zlen value)) = Some a ->
    utf8_encode value = Some b ->
    sp_from_stream native_le k bo ((a ++ b) ++ suffix) =
      (let '(data, rest') := stream_read (k_store k (zlen value)) (b ++ suffix) in
       match utf8_decode data with
       | Some v => Some (mkStr k v (k_store k (zlen value)) bo, rest')
       | None => None
       end).
  Proof.
    intros H Hs Ha Hb. apply sp_new_some in H as [Hk ->].
    unfold sp_from_stream, sp_new. rewrite Hk. unfold sp_read; cbn [sp_kind sp_order].
    rewrite <- app_assoc.
    rewrite (from_stream_encode k bo _ a (b ++ suffix) (int_store_value k _ Hk) Ha).
    reflexivity.
  Qed.

  Lemma int_range_nonneg k bits sg n :
    int_kind k bits sg -> 0 <= n -> 0 <= k_store k n ->
    k_store k n <= n.
  Proof.
    intros Hk Hn Hs. destruct (Z_le_gt_dec (k_store k n) n) as [|G]; [assumption|].
    destruct (store_spec k bits sg n Hk) as (Hr & _ & _ & Hid).
    rewrite Hid in G; [lia|].
    destruct sg; cbn in Hr |- *; [|lia].
    assert (0 < 2 ^ (bits - 1)) by (apply Z.pow_pos_nonneg; inversion Hk; lia). lia.
  Qed.

  (** The exact condition for a string to survive. *)
  Lemma string_roundtrip_iff k bo value s :
    sp_new k bo value = Some s -> Forall is_scalar value ->
    (forall suffix, is_bytes suffix ->
       exists w s', sp_write native_le s = Some w /\
         sp_from_stream native_le k bo (w ++ suffix) = Some (s', suffix) /\
         sp_value s' = value)
    <-> Forall is_ascii value /\ k_value k (zlen value).
  Proof.
    intros Hn Hs. destruct (sp_write_shape k bo value s Hn Hs) as (a & b & Ha & Hb & Hw).
    pose proof (sp_new_some _ _ _ _ Hn) as [Hk Hsq].
    destruct (is_int_kind k Hk) as (bits & sg & Hik).
    split.
    - intros H. set (n := k_store k (zlen value)) in *.
      assert (R : forall suffix, is_bytes suffix -> n >= 0 /\
                    skipn (Z.to_nat n) (b ++ suffix) = suffix).
      { intros suffix Hsuf. split.
        - destruct (H [0]) as (w & s' & Hw' & Hr & _).
          { repeat constructor; unfold is_byte; lia. }
          rewrite Hw in Hw'. injection Hw' as <-.
          rewrite (sp_read_back k bo value s a b _ Hn Hs Ha Hb) in Hr.
          fold n in Hr. unfold stream_read in Hr. destruct (Z.ltb_spec n 0); [|lia].
          destruct (utf8_decode (b ++ [0])); discriminate Hr.
        - destruct (H suffix Hsuf) as (w & s' & Hw' & Hr & _).
          rewrite Hw in Hw'. injection Hw' as <-.
          rewrite (sp_read_back k bo value s a b _ Hn Hs Ha Hb) in Hr.
          fold n in Hr. unfold stream_read in Hr. destruct (Z.ltb_spec n 0).
          + destruct (H [0]) as (w & s2 & Hw' & Hr2 & _).
            { repeat constructor; unfold is_byte; lia. }
            rewrite Hw in Hw'. injection Hw' as <-.
            rewrite (sp_read_back k bo value s a b _ Hn Hs Ha Hb) in Hr2.
            fold n in Hr2. unfold stream_read in Hr2. destruct (Z.ltb_spec n 0); [|lia].
            destruct (utf8_decode (b ++ [0])); discriminate Hr2.
          + destruct (utf8_decode (firstn (Z.to_nat n) (b ++ suffix))); [|discriminate].
            injection Hr as _ Hr. exact Hr. }
      assert (Hn0 : n >= 0) by (apply (R []); constructor).
      assert (Hlen : Z.to_nat n = List.length b).
      { assert (B0 : is_bytes [0]) by (repeat constructor; unfold is_byte; lia).
        destruct (R [0] B0) as [_ R0]. apply (f_equal (@List.length Z)) in R0.
        rewrite skipn_length, app_length in R0. cbn in R0.
        destruct (R []) as [_ R1]; [constructor|].
        apply (f_equal (@List.length Z)) in R1. rewrite skipn_length, app_length in R1.
        cbn in R1. lia. }
      pose proof (utf8_length value b Hb) as Hle.
      assert (Hnle : n <= zlen value).
      { apply (int_range_nonneg k bits sg); [exact Hik|unfold zlen; lia|].
        unfold n in *; lia. }
      assert (Heq : List.length b = List.length value) by (unfold zlen in Hnle; lia).
      split; [apply (utf8_length_ascii value b Hs Hb); exact Heq|].
      assert (zlen value = n) as -> by (unfold zlen; lia).
      apply int_store_value; exact Hk.
    - intros [Hasc Hval] suffix Hsuf. exists (a ++ b). eexists. split; [exact Hw|].
      rewrite (sp_read_back k bo value s a b _ Hn Hs Ha Hb).
      rewrite (store_id _ _ Hval).
      rewrite (utf8_ascii_id value Hasc) in Hb. injection Hb as <-.
      rewrite (stream_read_app _ value suffix eq_refl).
      rewrite (utf8_roundtrip value value Hs (utf8_ascii_id value Hasc)).
      split; reflexivity.
  Qed.

  (** PrefixedChunk. *)
  Lemma unsigned_value k bits n :
    int_kind k bits false -> 0 <= n -> (k_store k n = n <-> n < 2 ^ bits).
  Proof.
    intros Hk Hn. destruct (store_spec k bits false n Hk) as (Hr & _ & _ & Hid).
    cbn in Hr, Hid. split; intros H; [rewrite H in Hr; lia|apply Hid; lia].
  Qed.

  Lemma pc_update_result c bits data :
    int_kind (pc_kind c) bits false ->
    let '(c', ok) := pc_update c data in
    if zlen data <? 2 ^ bits
    then ok = true /\ pc_data c' = data /\ pc_prefix c' = zlen data /\
         pc_kind c' = pc_kind c /\ pc_order c' = pc_order c /\
         pc_size c' = Z.of_nat (wire_size (pc_kind c)) + zlen data
    else ok = false /\ pc_data c' = data.
  Proof.
    intros Hk. unfold pc_update, pc_update_size; cbn [pc_prefix pc_data pc_kind].
    pose proof (unsigned_value _ _ (zlen data) Hk (zlen_nonneg data)) as Hu.
    destruct (Z.eqb_spec (k_store (pc_kind c) (zlen data)) (zlen data)) as [E|E].
    - destruct (Z.ltb_spec (zlen data) (2 ^ bits)) as [L|L]; [|exfalso; apply Hu in E; lia].
      cbn. rewrite E. repeat split.
    - destruct (Z.ltb_spec (zlen data) (2 ^ bits)) as [L|L]; [exfalso; apply E, Hu, L|].
      cbn. auto.
  Qed.

  Lemma pc_roundtrip c bits data c1 d suffix :
    int_kind (pc_kind c) bits false ->
    pc_update c data = (c1, true) ->
    pc_kind d = pc_kind c -> pc_order d = pc_order c ->
    exists w d', pc_bytes native_le c1 = Some w /\ zlen w = pc_size c1 /\
      pc_from_stream native_le d (w ++ suffix) = Some (d', true, suffix) /\
      pc_data d' = data /\ pc_size d' = pc_size c1.
  Proof.
    intros Hk Hu Hdk Hdo. pose proof (pc_update_result c bits data Hk) as R.
    rewrite Hu in R.
    destruct (Z.ltb_spec (zlen data) (2 ^ bits)) as [L|L]; [|destruct R; discriminate].
    destruct R as (_ & R1 & R2 & R3 & R4 & R5).
    assert (Hv : k_value (pc_kind c) (zlen data)).
    { apply (int_kind_value _ _ _ _ Hk). cbn. pose proof (zlen_nonneg data). lia. }
    unfold pc_bytes. rewrite R3, R4, R2, (encode_some _ _ _ _ Hv).
    set (a := order_bytes native_le (pc_order c) (le_bytes (k_size (pc_kind c)) (zlen data))).
    assert (Ha : k_encode native_le (pc_kind c) (pc_order c) (zlen data) = Some a)
      by (apply encode_some; exact Hv).
    eexists (a ++ pc_data c1), _. split; [reflexivity|]. split.
    { rewrite zlen_app. unfold zlen at 1. rewrite (encode_length _ _ _ _ _ Ha), R5, R1.
      destruct (pc_kind c); reflexivity. }
    unfold pc_from_stream. rewrite Hdk, Hdo, R1, <- app_assoc.
    rewrite (from_stream_encode _ _ _ a (data ++ suffix) Hv Ha).
    rewrite (stream_read_app _ data suffix eq_refl).
    unfold pc_update_size; cbn [pc_prefix pc_data pc_kind]. rewrite Z.eqb_refl.
    split; [reflexivity|]. cbn. split; [reflexivity|]. rewrite R5.
    destruct (pc_kind c); reflexivity.
  Qed.

  (** A stream shorter than the announced length raises. *)
  Lemma pc_short d bits a data n :
    int_kind (pc_kind d) bits false -> k_value (pc_kind d) n ->
    k_encode native_le (pc_kind d) (pc_order d) n = Some a ->
    zlen data < n ->
    exists d', pc_from_stream native_le d (a ++ data) = Some (d', false, []).
  Proof.
    intros Hk Hv Ha Hlt. unfold pc_from_stream.
    rewrite (from_stream_encode _ _ _ a data Hv Ha). unfold stream_read.
    pose proof (zlen_nonneg data).
    replace (n <? 0) with false by lia. unfold zlen in *.
    rewrite firstn_all2, skipn_all2 by lia.
    unfold pc_update_size; cbn [pc_prefix pc_data]. unfold zlen.
    replace (n =? Z.of_nat (List.length data)) with false by lia. eauto.
  Qed.
End Host.
