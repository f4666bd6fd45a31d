(** Round trip of the UTF-8 model. *)
From Coq Require Import ZifyBool.
From Verif Require Import Base BaseLemmas Utf8Model.
Ltac Zify.zify_post_hook ::= Z.div_mod_to_equations.

Lemma utf8_encode_some s : Forall is_scalar s -> exists b, utf8_encode s = Some b.
Proof.
  induction s as [|c s IH]; intros H; cbn; [eauto|].
  inversion H as [|? ? [_ Hc] Hs]; subst. rewrite Hc.
  destruct (IH Hs) as [b ->]. eauto.
Qed.

Lemma utf8_dec1 c rest :
  is_scalar c ->
  utf8_decode (utf8_enc1 c ++ rest) = option_map (cons c) (utf8_decode rest).
Proof.
  intros [[H0 H1] H2]. unfold is_surrogate in H2. unfold utf8_enc1.
  destruct (Z.ltb_spec c 128) as [A|A].
  { cbn [app utf8_decode]. destruct (Z.ltb_spec c 128); [reflexivity|lia]. }
  destruct (Z.ltb_spec c 2048) as [B|B].
  { cbn [app utf8_decode].
    replace (192 + c / 64 <? 128) with false by lia.
    replace ((194 <=? 192 + c / 64) && (192 + c / 64 <=? 223)) with true by lia.
    unfold is_cont. replace ((128 <=? 128 + c mod 64) && (128 + c mod 64 <=? 191)) with true by lia.
    do 2 f_equal. lia. }
  destruct (Z.ltb_spec c 65536) as [C|C].
  { cbn [app utf8_decode].
    replace (224 + c / 4096 <? 128) with false by lia.
    replace ((194 <=? 224 + c / 4096) && (224 + c / 4096 <=? 223)) with false by lia.
    replace ((224 <=? 224 + c / 4096) && (224 + c / 4096 <=? 239)) with true by lia.
    replace ((224 + c / 4096 - 224) * 4096 + (128 + c / 64 mod 64 - 128) * 64
             + (128 + c mod 64 - 128)) with c by lia.
    unfold is_cont, is_surrogate.
    replace ((128 <=? 128 + c / 64 mod 64) && (128 + c / 64 mod 64 <=? 191)) with true by lia.
    replace ((128 <=? 128 + c mod 64) && (128 + c mod 64 <=? 191)) with true by lia.
    rewrite H2. replace (2048 <=? c) with true by lia. reflexivity. }
  cbn [app utf8_decode].
  replace (240 + c / 262144 <? 128) with false by lia.
  replace ((194 <=? 240 + c / 262144) && (240 + c / 262144 <=? 223)) with false by lia.
  replace ((224 <=? 240 + c / 262144) && (240 + c / 262144 <=? 239)) with false by lia.
  replace ((240 <=? 240 + c / 262144) && (240 + c / 262144 <=? 244)) with true by lia.
  replace ((240 + c / 262144 - 240) * 262144 + (128 + c / 4096 mod 64 - 128) * 4096
           + (128 + c / 64 mod 64 - 128) * 64 + (128 + c mod 64 - 128)) with c by lia.
  unfold is_cont.
  replace ((128 <=? 128 + c / 4096 mod 64) && (128 + c / 4096 mod 64 <=? 191)) with true by lia.
  replace ((128 <=? 128 + c / 64 mod 64) && (128 + c / 64 mod 64 <=? 191)) with true by lia.
  replace ((128 <=? 128 + c mod 64) && (128 + c mod 64 <=? 191)) with true by lia.
  replace (65536 <=? c) with true by lia. replace (c <? 1114112) with true by lia.
  reflexivity.
Qed.

Lemma utf8_roundtrip_app s : forall b rest,
  Forall is_scalar s -> utf8_encode s = Some b ->
  utf8_decode (b ++ rest) = option_map (app s) (utf8_decode rest).
Proof.
  induction s as [|c s IH]; cbn; intros b rest H E.
  - injection E as <-. cbn. destruct (utf8_decode rest); reflexivity.
  - inversion H as [|? ? Hc Hs]; subst. destruct Hc as [Hc1 Hc2]. rewrite Hc2 in E.
    destruct (utf8_encode s) as [r|] eqn:Er; [|discriminate]. injection E as <-.
    rewrite <- app_assoc, utf8_dec1 by (split; assumption).
    rewrite (IH _ rest Hs eq_refl). destruct (utf8_decode rest); reflexivity.
Qed.

Lemma utf8_roundtrip s b :
  Forall is_scalar s -> utf8_encode s = Some b -> utf8_decode b = Some s.
Proof.
  intros H E. rewrite <- (app_nil_r b), (utf8_roundtrip_app s b [] H E). cbn.
  rewrite app_nil_r. reflexivity.
Qed.

Lemma enc1_length c : (1 <= List.length (utf8_enc1 c))%nat.
Proof. unfold utf8_enc1. repeat destruct (_ <? _); cbn; lia. Qed.
Lemma enc1_length_1 c : List.length (utf8_enc1 c) = 1%nat -> c < 128.
Proof. unfold utf8_enc1. destruct (Z.ltb_spec c 128); [auto|].
  repeat destruct (_ <? _); cbn; lia. Qed.

Lemma utf8_length s : forall b, utf8_encode s = Some b ->
  (List.length s <= List.length b)%nat.
Proof.
  induction s as [|c s IH]; cbn; intros b E.
  - injection E as <-. cbn; lia.
  - destruct (is_surrogate c); [discriminate|].
    destruct (utf8_encode s) as [r|]; [|discriminate]. injection E as <-.
    rewrite app_length. pose proof (enc1_length c). specialize (IH r eq_refl). lia.
Qed.

Lemma utf8_length_ascii s : forall b, Forall is_scalar s -> utf8_encode s = Some b ->
  (List.length b = List.length s <-> Forall is_ascii s).
Proof.
  induction s as [|c s IH]; cbn; intros b H E.
  - injection E as <-. cbn; split; auto.
  - inversion H as [|? ? Hc Hs]; subst. destruct Hc as [Hc1 Hc2]. rewrite Hc2 in E.
    destruct (utf8_encode s) as [r|] eqn:Er; [|discriminate]. injection E as <-.
    rewrite app_length. pose proof (enc1_length c). pose proof (utf8_length s r Er).
    specialize (IH r Hs eq_refl). split.
    + intros L. assert (L1 : List.length (utf8_enc1 c) = 1%nat) by lia.
      apply enc1_length_1 in L1. constructor; [unfold is_ascii, is_cp in *; lia|].
      apply IH. lia.
    + intros A. inversion A as [|? ? A1 A2]; subst. apply IH in A2. rewrite A2.
      unfold utf8_enc1. unfold is_ascii in A1.
      destruct (Z.ltb_spec c 128); [cbn; lia|lia].
Qed.

Lemma utf8_ascii_id s : Forall is_ascii s -> utf8_encode s = Some s.
Proof.
  induction s as [|c s IH]; cbn; intros H; [reflexivity|].
  inversion H as [|? ? Hc Hs]; subst. rewrite (IH Hs). unfold is_ascii in Hc.
  replace (is_surrogate c) with false by (unfold is_surrogate; lia).
  unfold utf8_enc1. replace (c <? 128) with true by lia. reflexivity.
Qed.

Lemma enc1_is_bytes c : is_cp c -> is_bytes (utf8_enc1 c).
Proof.
  unfold is_cp, utf8_enc1, is_bytes. intros H.
  destruct (Z.ltb_spec c 128); [repeat constructor; unfold is_byte; lia|].
  destruct (Z.ltb_spec c 2048); [repeat constructor; unfold is_byte; lia|].
  destruct (Z.ltb_spec c 65536); repeat constructor; unfold is_byte; lia.
Qed.
Lemma utf8_is_bytes s : forall b, Forall is_scalar s -> utf8_encode s = Some b -> is_bytes b.
Proof.
  induction s as [|c s IH]; cbn; intros b H E.
  - injection E as <-. constructor.
  - inversion H as [|? ? Hc Hs]; subst. destruct Hc as [Hc1 Hc2]. rewrite Hc2 in E.
    destruct (utf8_encode s) as [r|] eqn:Er; [|discriminate]. injection E as <-.
    apply Forall_app. split; [apply enc1_is_bytes; exact Hc1|apply IH; auto].
Qed.
