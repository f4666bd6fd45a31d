(** Properties C12 and C13: length-prefixed strings and chunks. *)
From Verif Require Import Base BaseLemmas PrimModel PrimSpec PrimProofs Utf8Model StringModel StringProofs.

(** C12, full statement (every string of encodable code points whose length
    fits the prefix), is false: the prefix counts characters, the payload is
    UTF-8 bytes. *)
Theorem C12_string_self_delimiting_refuted :
  ~ (forall native_le k bo value s suffix,
       sp_new k bo value = Some s -> Forall is_scalar value -> k_value k (zlen value) ->
       is_bytes suffix ->
       exists w s', sp_write native_le s = Some w /\
         sp_from_stream native_le k bo (w ++ suffix) = Some (s', suffix) /\
         sp_value s' = value).
Proof.
  intros H.
  destruct (H true U16 Network [233; 97] _ [] eq_refl) as (w & s' & Hw & Hr & _).
  - repeat constructor; unfold is_cp; cbn; try lia; reflexivity.
  - vm_compute. split; congruence.
  - constructor.
  - vm_compute in Hw. injection Hw as <-. vm_compute in Hr. discriminate Hr.
Qed.
Print Assumptions C12_string_self_delimiting_refuted.

(** C12, exactly: a string survives for every continuation of the stream iff it
    is ASCII and its length fits the prefix. *)
Theorem C12_string_self_delimiting_iff :
  forall native_le k bo value s,
    sp_new k bo value = Some s -> Forall is_scalar value ->
    (forall suffix, is_bytes suffix ->
       exists w s', sp_write native_le s = Some w /\
         sp_from_stream native_le k bo (w ++ suffix) = Some (s', suffix) /\
         sp_value s' = value)
    <-> Forall is_ascii value /\ k_value k (zlen value).
Proof. exact string_roundtrip_iff. Qed.
Print Assumptions C12_string_self_delimiting_iff.

(** C12 for ASCII strings that fit. *)
Theorem C12_string_self_delimiting_partial :
  forall native_le k bo value s suffix,
    sp_new k bo value = Some s -> Forall is_ascii value -> k_value k (zlen value) ->
    is_bytes suffix ->
    exists w s', sp_write native_le s = Some w /\
      sp_from_stream native_le k bo (w ++ suffix) = Some (s', suffix) /\
      sp_value s' = value.
Proof.
  intros native_le k bo value s suffix Hn Ha Hv Hs.
  apply (string_roundtrip_iff native_le k bo value s Hn); auto.
  eapply Forall_impl; [|exact Ha]. unfold is_ascii, is_scalar, is_cp, is_surrogate.
  intros c Hc. split; [lia|]. apply andb_false_intro1. apply Z.leb_gt. lia.
Qed.
Print Assumptions C12_string_self_delimiting_partial.

(** C12 for a primitive that already held something else: assigning is as good
    as constructing (same exact condition). *)
Theorem C12_string_after_set_iff :
  forall native_le k bo v0 s0 values value s,
    sp_new k bo v0 = Some s0 -> s = fold_left sp_set (values ++ [value]) s0 ->
    Forall is_scalar value ->
    sp_total s = Z.of_nat (k_size k) + k_store k (zlen value) /\
    ((forall suffix, is_bytes suffix ->
       exists w s', sp_write native_le s = Some w /\
         sp_from_stream native_le k bo (w ++ suffix) = Some (s', suffix) /\
         sp_value s' = value)
     <-> Forall is_ascii value /\ k_value k (zlen value)).
Proof.
  intros native_le k bo v0 s0 values value s H -> Hs.
  assert (N : sp_new k bo value = Some (fold_left sp_set (values ++ [value]) s0)).
  { unfold sp_new in *. destruct (k_is_int k); [|discriminate]. injection H as <-.
    rewrite fold_left_app. cbn [fold_left]. unfold sp_set at 1.
    assert (G : forall l s, sp_kind (fold_left sp_set l s) = sp_kind s /\ sp_order (fold_left sp_set l s) = sp_order s).
    { induction l as [|x l IH]; intros s; cbn; [auto|]. destruct (IH (sp_set s x)) as [-> ->]. auto. }
    destruct (G values (mkStr k v0 (k_store k (zlen v0)) bo)) as [-> ->]. reflexivity. }
  split; [|apply (string_roundtrip_iff native_le k bo value _ N Hs)].
  unfold sp_new in N. destruct (k_is_int k); [|discriminate]. injection N as <-. unfold sp_total. cbn. lia.
Qed.
Print Assumptions C12_string_after_set_iff.

(** C13.  Updating a chunk succeeds exactly when the payload's length fits the
    prefix; an oversized payload raises (the chunk's data is replaced all the
    same). *)
Theorem C13_chunk_update :
  forall c bits data,
    int_kind (pc_kind c) bits false ->
    let '(c', ok) := pc_update c data in
    if zlen data <? 2 ^ bits
    then ok = true /\ pc_data c' = data /\ pc_prefix c' = zlen data /\
         pc_kind c' = pc_kind c /\ pc_order c' = pc_order c /\
         pc_size c' = Z.of_nat (wire_size (pc_kind c)) + zlen data
    else ok = false /\ pc_data c' = data.
Proof. exact pc_update_result. Qed.
Print Assumptions C13_chunk_update.

(** C13.  Serialised and followed by anything, a chunk reads back exactly and
    leaves the rest of the stream. *)
Theorem C13_chunk_roundtrip :
  forall native_le c bits data c1 d suffix,
    int_kind (pc_kind c) bits false ->
    pc_update c data = (c1, true) ->
    pc_kind d = pc_kind c -> pc_order d = pc_order c ->
    exists w d', pc_bytes native_le c1 = Some w /\ zlen w = pc_size c1 /\
      pc_from_stream native_le d (w ++ suffix) = Some (d', true, suffix) /\
      pc_data d' = data /\ pc_size d' = pc_size c1.
Proof. exact pc_roundtrip. Qed.
Print Assumptions C13_chunk_roundtrip.

(** C13.  A stream that ends before the announced length raises. *)
Theorem C13_truncated_stream_raises :
  forall native_le d bits a data n,
    int_kind (pc_kind d) bits false -> k_value (pc_kind d) n ->
    k_encode native_le (pc_kind d) (pc_order d) n = Some a ->
    zlen data < n ->
    exists d', pc_from_stream native_le d (a ++ data) = Some (d', false, []).
Proof. exact pc_short. Qed.
Print Assumptions C13_truncated_stream_raises.

Example string_demo :
  exists s w, sp_new U16 Network [104; 105] = Some s /\
    sp_write true s = Some w /\ w = [0; 2; 104; 105] /\
    sp_from_stream true U16 Network (w ++ [9; 9]) = Some (s, [9; 9]).
Proof. eexists _, _. repeat split. Qed.
Example chunk_demo :
  exists c c1, pc_new U8 Network 0 = Some c /\ int_kind (pc_kind c) 8 false /\
    pc_update c [1; 2; 3] = (c1, true) /\ pc_bytes true c1 = Some [3; 1; 2; 3].
Proof. eexists _, _. repeat split. constructor. Qed.

(** C13.  A chunk can be built exactly with an unsigned integer prefix; it then
    holds as many zero bytes as the prefix says, and its size counts the prefix
    too. *)
Theorem C13_chunk_new :
  forall k bo v,
    (forall bits, int_kind k bits false -> representable bits false v ->
       exists c, pc_new k bo v = Some c /\ pc_kind c = k /\ pc_order c = bo /\
         pc_prefix c = v /\ pc_data c = repeat 0 (Z.to_nat v) /\
         pc_size c = Z.of_nat (wire_size k) + v) /\
    ((forall bits, ~ int_kind k bits false) -> pc_new k bo v = None).
Proof.
  intros k bo v. split.
  - intros bits Hk Hv. assert (St : k_store k v = v) by (apply (store_spec k bits false v Hk); exact Hv).
    assert (Kk : k_is_int k && negb (k_signed k) = true) by (inversion Hk; reflexivity).
    unfold pc_new. rewrite Kk, St. eexists. split; [reflexivity|].
    unfold pc_update_size. cbn [pc_prefix pc_data].
    assert (Hz : 0 <= v) by (unfold representable in Hv; lia).
    rewrite zlen_repeat, Z2Nat.id by exact Hz. rewrite Z.eqb_refl. cbn.
    repeat split.
  - intros H. unfold pc_new.
    destruct k; cbn; try reflexivity; exfalso; eapply H; constructor.
Qed.
Print Assumptions C13_chunk_new.
Example chunk_new_demo :
  (exists c, pc_new U16 Network 3 = Some c /\ pc_data c = [0; 0; 0] /\ pc_size c = 5) /\
  pc_new I8 Network 3 = None.
Proof. split; [eexists; repeat split|reflexivity]. Qed.

Lemma decode_sound n : forall l s, (List.length l <= n)%nat -> is_bytes l ->
  utf8_decode l = Some s -> Forall is_scalar s /\ utf8_encode s = Some l.
Proof.
  induction n as [|n IH]; intros l s Hn Hb H.
  { destruct l; [|cbn in Hn; lia]. cbn in H. injection H as <-. split; [constructor|reflexivity]. }
  destruct l as [|b0 l1]; [cbn in H; injection H as <-; split; [constructor|reflexivity]|].
  inversion Hb as [|? ? B0 Hb1]; subst. unfold is_byte in B0.
  assert (Step : forall c rest tl, is_scalar c -> utf8_enc1 c ++ tl = b0 :: l1 ->
            option_map (cons c) (utf8_decode tl) = Some s -> is_bytes tl ->
            rest = tl -> (List.length tl <= n)%nat ->
            Forall is_scalar s /\ utf8_encode s = Some (b0 :: l1)).
  { intros c rest tl Hc Hl Ho Ht _ Hlen.
    destruct (utf8_decode tl) as [s'|] eqn:E; [|discriminate]. cbn in Ho. injection Ho as <-.
    destruct (IH tl s' Hlen Ht E) as [A B]. split; [constructor; assumption|].
    cbn [utf8_encode]. destruct Hc as [_ Hc]. rewrite Hc, B, Hl. reflexivity. }
  cbn [List.length] in Hn. cbn [utf8_decode] in H.
  destruct (Z.ltb_spec b0 128) as [A|A].
  { apply (Step b0 l1 l1); auto; try lia.
    - unfold is_scalar, is_cp, is_surrogate. lia.
    - unfold utf8_enc1. replace (b0 <? 128) with true by lia. reflexivity. }
  destruct ((194 <=? b0) && (b0 <=? 223)) eqn:R2.
  { destruct l1 as [|b1 l2]; [discriminate|]. destruct (is_cont b1) eqn:C1; [|discriminate].
    unfold is_cont in C1. inversion Hb1; subst. cbn [List.length] in Hn.
    apply (Step _ l2 l2) in H; auto; try lia.
    - unfold is_scalar, is_cp, is_surrogate. lia.
    - unfold utf8_enc1. set (c := (b0 - 192) * 64 + (b1 - 128)) in *.
      replace (c <? 128) with false by lia. replace (c <? 2048) with true by lia.
      cbn [app]. f_equal; [unfold c; lia|f_equal; unfold c; lia]. }
  destruct ((224 <=? b0) && (b0 <=? 239)) eqn:R3.
  { destruct l1 as [|b1 [|b2 l3]]; try discriminate.
    set (c := (b0 - 224) * 4096 + (b1 - 128) * 64 + (b2 - 128)) in *.
    destruct (is_cont b1 && is_cont b2 && (2048 <=? c) && negb (is_surrogate c)) eqn:C1; [|discriminate].
    inversion Hb1 as [|? ? B1 Hb2]; subst. inversion Hb2; subst. cbn [List.length] in Hn.
    apply andb_true_iff in C1 as [C1 Cs]. unfold is_cont in C1.
    apply (Step _ l3 l3) in H; auto; try lia.
    - split; [unfold is_cp; unfold c; lia|]. destruct (is_surrogate c); [discriminate|reflexivity].
    - unfold utf8_enc1.
      replace (c <? 128) with false by lia. replace (c <? 2048) with false by lia.
      replace (c <? 65536) with true by (unfold c; lia).
      cbn [app]. f_equal; [unfold c; lia|f_equal; [unfold c; lia|f_equal; unfold c; lia]]. }
  destruct ((240 <=? b0) && (b0 <=? 244)) eqn:R4; [|discriminate].
  destruct l1 as [|b1 [|b2 [|b3 l4]]]; try discriminate.
  set (c := (b0 - 240) * 262144 + (b1 - 128) * 4096 + (b2 - 128) * 64 + (b3 - 128)) in *.
  destruct (is_cont b1 && is_cont b2 && is_cont b3 && (65536 <=? c) && (c <? 1114112)) eqn:C1; [|discriminate].
  inversion Hb1 as [|? ? B1 Hb2]; subst. inversion Hb2 as [|? ? B2 Hb3]; subst. inversion Hb3; subst.
  cbn [List.length] in Hn. unfold is_cont in C1.
  apply (Step _ l4 l4) in H; auto; try lia.
  - unfold is_scalar, is_cp, is_surrogate. lia.
  - unfold utf8_enc1.
    replace (c <? 128) with false by lia. replace (c <? 2048) with false by lia.
    replace (c <? 65536) with false by lia.
    cbn [app]. f_equal; [unfold c; lia|f_equal; [unfold c; lia|f_equal; [unfold c; lia|f_equal; unfold c; lia]]].
Qed.

(** C12.  A text can be encoded exactly when it has no code point from U+D800
    to U+DFFF, and bytes decode to a text exactly when they are its
    encoding. *)
Theorem C12_utf8_exact :
  (forall s, utf8_encode s = None <-> exists c, In c s /\ 55296 <= c <= 57343) /\
  (forall l s, is_bytes l ->
     (utf8_decode l = Some s <->
      utf8_encode s = Some l /\ Forall (fun c => 0 <= c <= 1114111) s)).
Proof.
  assert (A : forall s, utf8_encode s = None <-> exists c, In c s /\ 55296 <= c <= 57343).
  { induction s as [|c s IH]; cbn [utf8_encode].
    - split; [discriminate|intros (c & [] & _)].
    - unfold is_surrogate. destruct ((55296 <=? c) && (c <=? 57343)) eqn:E.
      + split; [|reflexivity]. intros _. exists c. split; [left; reflexivity|lia].
      + destruct (utf8_encode s) as [r|].
        * split; [discriminate|]. intros (c' & [->|I] & R); [lia|].
          destruct IH as [_ IH]. discriminate IH. eauto.
        * split; [|reflexivity]. intros _. destruct IH as [IH _].
          destruct (IH eq_refl) as (c' & I & R). exists c'. split; [right; exact I|exact R]. }
  split; [exact A|]. intros l s Hb. split.
  - intros H. destruct (decode_sound (List.length l) l s (le_n _) Hb H) as [B C].
    split; [exact C|]. eapply Forall_impl; [|exact B]. intros c [Hc _]. unfold is_cp in Hc. cbv beta. lia.
  - intros [H F]. apply Utf8Proofs.utf8_roundtrip; [|exact H].
    apply Forall_forall. intros c Hc. rewrite Forall_forall in F. specialize (F c Hc). cbv beta in F.
    split; [unfold is_cp; lia|]. unfold is_surrogate.
    destruct ((55296 <=? c) && (c <=? 57343)) eqn:E; [|reflexivity].
    assert (N : utf8_encode s = None) by (apply A; exists c; split; [exact Hc|lia]). congruence.
Qed.
Print Assumptions C12_utf8_exact.
Example utf8_exact_demo :
  utf8_decode [237; 160; 128] = None /\ utf8_decode [244; 144; 128; 128] = None /\
  utf8_decode [244; 143; 191; 191] = Some [1114111] /\ utf8_encode [57343] = None.
Proof. repeat split; reflexivity. Qed.

Lemma split_at (a b : list Z) :
  firstn (List.length a) (a ++ b) = a /\ skipn (List.length a) (a ++ b) = b.
Proof. induction a as [|x a [IH1 IH2]]; cbn; [auto|]. rewrite IH1, IH2. auto. Qed.
Lemma encode_then_decode native_le k bo v : k_value k v ->
  exists a, k_encode native_le k bo v = Some a /\ List.length a = k_size k /\
            k_decode native_le k bo a = Some v.
Proof.
  intros H. eexists. split; [apply encode_some; exact H|]. split.
  - eapply encode_length. apply (encode_some native_le k bo v H).
  - eapply decode_encode; [exact H|]. apply encode_some. exact H.
Qed.

(** C12.  A string can be built exactly with an integer prefix. *)
Theorem C12_prefix_kinds :
  forall k bo value,
    (exists s, sp_new k bo value = Some s) <-> exists bits signed, int_kind k bits signed.
Proof.
  intros k bo value. unfold sp_new. split.
  - intros [s H]. destruct (k_is_int k) eqn:E; [|discriminate]. apply is_int_kind. exact E.
  - intros (b & sg & H). destruct H; cbn [k_is_int]; eexists; reflexivity.
Qed.
Print Assumptions C12_prefix_kinds.

(** C12.  What is read is the primitive that was written: text, size, kind of
    prefix and byte order, whatever the reader held before. *)
Theorem C12_read_is_written :
  forall native_le k bo value old s d suffix,
    sp_new k bo value = Some s -> sp_new k bo old = Some d ->
    Forall is_ascii value -> k_value k (zlen value) ->
    exists w, sp_write native_le s = Some w /\ zlen w = sp_total s /\
      sp_read native_le d (w ++ suffix) = Some (s, suffix).
Proof.
  intros native_le k bo value old s d suffix Hs Hd Ha Hv. unfold sp_new in Hs, Hd.
  destruct (k_is_int k) eqn:Ki; [|discriminate].
  assert (s = mkStr k value (k_store k (zlen value)) bo) as -> by congruence.
  assert (d = mkStr k old (k_store k (zlen old)) bo) as -> by congruence.
  unfold sp_write, sp_total, sp_read, prim_from_stream, stream_read.
  cbn [sp_kind sp_order sp_size sp_value]. rewrite (store_id k _ Hv).
  destruct (encode_then_decode native_le k bo (zlen value) Hv) as (a & E & L & D).
  rewrite E, (Utf8Proofs.utf8_ascii_id value Ha). exists (a ++ value).
  split; [reflexivity|]. split.
  { unfold zlen in *. rewrite app_length, L. lia. }
  replace (Z.of_nat (k_size k) <? 0) with false by lia. rewrite Nat2Z.id, <- app_assoc, <- L.
  destruct (split_at a (value ++ suffix)) as [-> ->]. rewrite D, (store_id k _ Hv).
  replace (zlen value <? 0) with false by (unfold zlen; lia).
  replace (Z.to_nat (zlen value)) with (List.length value) by (unfold zlen; lia).
  destruct (split_at value suffix) as [-> ->].
  rewrite (Utf8Proofs.utf8_roundtrip value value); [reflexivity| |apply Utf8Proofs.utf8_ascii_id; exact Ha].
  eapply Forall_impl; [|exact Ha]. unfold is_ascii, is_scalar, is_cp, is_surrogate.
  intros c Hc. split; [lia|]. apply andb_false_intro1. apply Z.leb_gt. lia.
Qed.
Print Assumptions C12_read_is_written.
Example read_is_written_demo :
  exists s d, sp_new U16 LittleEndian [104; 105] = Some s /\ sp_new U16 LittleEndian [120] = Some d /\
    sp_read true d [2; 0; 104; 105; 7] = Some (s, [7]) /\ sp_total s = 4.
Proof. eexists. eexists. repeat split. Qed.
