(** Lemmas about storage and encoding. *)
From Coq Require Import ZifyBool ZifyNat.
From Verif Require Import Base BaseLemmas PrimModel PrimSpec.
Ltac Zify.zify_post_hook ::= Z.div_mod_to_equations.

Lemma le_bytes_length n : forall v, List.length (le_bytes n v) = n.
Proof. induction n as [|n IH]; cbn; auto. Qed.

Lemma le_bytes_is_bytes n : forall v, is_bytes (le_bytes n v).
Proof.
  induction n as [|n IH]; cbn; intros v; constructor; [|apply IH].
  unfold is_byte. lia.
Qed.

Lemma pow256 n : 0 <= n -> 2 ^ (8 * n) = 256 ^ n.
Proof. intros. rewrite Z.pow_mul_r by lia. reflexivity. Qed.

Lemma le_value_bytes n : forall v, le_value (le_bytes n v) = v mod 256 ^ Z.of_nat n.
Proof.
  induction n as [|n IH]; intros v.
  - cbn. rewrite Z.mod_1_r. reflexivity.
  - cbn [le_bytes le_value]. rewrite IH.
    rewrite Nat2Z.inj_succ, Z.pow_succ_r by lia.
    rewrite Z.rem_mul_r by lia. ring.
Qed.

Lemma le_value_range l : is_bytes l -> 0 <= le_value l < 256 ^ zlen l.
Proof.
  unfold zlen. induction l as [|b l IH]; intros H; [cbn; lia|].
  cbn [le_value List.length]. inversion H as [|? ? Hb Hl]; subst.
  specialize (IH Hl). unfold is_byte in Hb.
  rewrite Nat2Z.inj_succ, Z.pow_succ_r by lia. nia.
Qed.

Lemma le_bytes_value l : is_bytes l -> le_bytes (List.length l) (le_value l) = l.
Proof.
  induction l as [|b l IH]; intros H; [reflexivity|].
  inversion H as [|? ? Hb Hl]; subst. unfold is_byte in Hb.
  cbn [le_bytes le_value List.length].
  replace ((b + 256 * le_value l) mod 256) with b by lia.
  replace ((b + 256 * le_value l) / 256) with (le_value l) by lia.
  rewrite IH by assumption. reflexivity.
Qed.

Lemma le_bytes_nth n : forall v i, (i < n)%nat ->
  nth i (le_bytes n v) 0 = v / 256 ^ Z.of_nat i mod 256.
Proof.
  induction n as [|n IH]; intros v i Hi; [lia|]. cbn [le_bytes].
  destruct i as [|i]; cbn [nth].
  - cbn. rewrite Z.div_1_r. reflexivity.
  - rewrite IH by lia. rewrite Nat2Z.inj_succ, Z.pow_succ_r, Z.div_div by lia.
    reflexivity.
Qed.

Lemma le_bytes_mod n v : le_bytes n (v mod 256 ^ Z.of_nat n) = le_bytes n v.
Proof.
  revert v. induction n as [|n IH]; intros v; [reflexivity|].
  cbn [le_bytes]. rewrite Nat2Z.inj_succ, Z.pow_succ_r, Z.rem_mul_r by lia.
  f_equal.
  - rewrite Z.mul_comm, Z_mod_plus_full. apply Z.mod_mod; lia.
  - rewrite Z.mul_comm, Z.div_add by lia.
    rewrite (Z.div_small (v mod 256)) by (apply Z.mod_pos_bound; lia).
    apply IH.
Qed.

(** Powers that appear as bounds, in normal form. *)
Ltac pows :=
  change (2 ^ 8) with 256 in *; change (2 ^ 7) with 128 in *;
  change (2 ^ 16) with 65536 in *; change (2 ^ 15) with 32768 in *;
  change (2 ^ 32) with 4294967296 in *; change (2 ^ 31) with 2147483648 in *;
  change (2 ^ 64) with 18446744073709551616 in *;
  change (2 ^ 63) with 9223372036854775808 in *.

Ltac kind_bits :=
  repeat match goal with
  | |- context [k_bits ?k] =>
      let x := eval vm_compute in (k_bits k) in change (k_bits k) with x
  | H : context [k_bits ?k] |- _ =>
      let x := eval vm_compute in (k_bits k) in change (k_bits k) with x in H
  end;
  cbn [Z.sub Z.pos_sub Z.add Z.opp Pos.pred_double Z.pred_double Pos.add] in *.

Lemma store_value k v : k_value k (k_store k v).
Proof.
  destruct k;
    unfold k_value, representable, k_store; cbn [k_signed andb];
    kind_bits; cbn -[Z.pow Z.modulo]; pows;
    try (destruct (v =? 0); [left|right]; reflexivity);
    match goal with
    | |- context [if ?c then _ else _] => destruct c eqn:E; lia
    | _ => lia
    end.
Qed.

Lemma store_congr k bits s v :
  int_kind k bits s -> (k_store k v - v) mod 2 ^ bits = 0.
Proof.
  intros H; inversion H; subst; unfold k_store; cbn [k_signed andb]; kind_bits;
    cbn -[Z.pow Z.modulo]; pows;
    match goal with
    | |- context [if ?c then _ else _] => destruct c eqn:E; lia
    | _ => lia
    end.
Qed.

Lemma int_kind_value k bits s v : int_kind k bits s -> (k_value k v <-> representable bits s v).
Proof. intros H; inversion H; subst; reflexivity. Qed.

Lemma representable_unique k bits s v w :
  int_kind k bits s ->
  representable bits s v -> representable bits s w -> (v - w) mod 2 ^ bits = 0 -> v = w.
Proof.
  intros H; inversion H; subst; unfold representable; cbn [Z.sub Z.pos_sub Z.add Z.opp Pos.pred_double]; 
   cbn -[Z.pow Z.modulo]; pows; lia.
Qed.

Lemma is_int_kind k : k_is_int k = true -> exists b s, int_kind k b s.
Proof. destruct k; intros H; try discriminate H; eauto using int_kind. Qed.

Lemma store_id k v : k_value k v -> k_store k v = v.
Proof.
  destruct k; cbn [k_value]; intros H;
    try (destruct H as [->| ->]; reflexivity);
    try (unfold k_store; kind_bits; apply Z.mod_small; exact H).
  all: match goal with |- k_store ?k _ = _ =>
         let H' := fresh in
         pose proof (is_int_kind k eq_refl) as H';
         destruct H' as (b & s & Hk);
         eapply (representable_unique k b s _ _ Hk);
         [ apply (int_kind_value k b s), store_value; exact Hk
         | apply (int_kind_value k b s); [exact Hk|exact H]
         | exact (store_congr k b s v Hk) ]
       end.
Qed.

Lemma store_spec k bits s v :
  int_kind k bits s ->
  representable bits s (k_store k v) /\
  (k_store k v - v) mod 2 ^ bits = 0 /\
  (forall w, representable bits s w -> (w - v) mod 2 ^ bits = 0 -> w = k_store k v) /\
  (representable bits s v -> k_store k v = v).
Proof.
  intros Hk. assert (Hr : representable bits s (k_store k v)).
  { apply (int_kind_value k), store_value; exact Hk. }
  pose proof (store_congr k bits s v Hk) as Hc.
  repeat split; [exact Hr|exact Hc| |].
  - intros w Hw Hwc. eapply representable_unique; eauto.
    assert (Hb : 2 ^ bits <> 0) by (inversion Hk; subst; discriminate).
    replace (w - k_store k v) with ((w - v) - (k_store k v - v)) by ring.
    rewrite Zminus_mod, Hwc, Hc. apply Z.mod_0_l; exact Hb.
  - intros H. apply store_id. apply (int_kind_value k bits s); assumption.
Qed.

Section Host.
  Context (native_le : bool).
  Notation enc := (k_encode native_le).
  Notation dec := (k_decode native_le).

  Lemma order_length bo l : List.length (order_bytes native_le bo l) = List.length l.
  Proof. unfold order_bytes. destruct (is_le _ _); [|rewrite rev_length]; reflexivity. Qed.
  Lemma order_order bo l : order_bytes native_le bo (order_bytes native_le bo l) = l.
  Proof. unfold order_bytes. destruct (is_le _ _); [|apply rev_involutive]; reflexivity. Qed.
  Lemma order_is_bytes bo l : is_bytes l -> is_bytes (order_bytes native_le bo l).
  Proof.
    unfold order_bytes. destruct (is_le _ _); [auto|]. unfold is_bytes.
    rewrite !Forall_forall. intros H x Hx. apply H. apply in_rev; exact Hx.
  Qed.

  Lemma accepts_value k v : k_value k v -> k_accepts k v = true.
  Proof.
    destruct k; cbn [k_value]; unfold k_accepts, k_bounds, bounds_create, representable, b_validate;
      intros H; try reflexivity; cbn -[Z.pow] in *; kind_bits; pows; lia.
  Qed.
  Lemma accepts_only k v : k <> KBool -> k_accepts k v = true -> k_value k v.
  Proof.
    intros Hk; destruct k; try congruence; cbn [k_value];
      unfold k_accepts, k_bounds, bounds_create, representable, b_validate;
      intros H; cbn -[Z.pow] in *; kind_bits; pows; lia.
  Qed.

  Lemma encode_some k bo v : k_value k v ->
    enc k bo v = Some (order_bytes native_le bo (le_bytes (k_size k) v)).
  Proof.
    intros H. unfold k_encode. rewrite (accepts_value _ _ H).
    destruct k; try reflexivity. destruct H as [->| ->]; reflexivity.
  Qed.

  Lemma encode_length k bo v bs : enc k bo v = Some bs -> List.length bs = k_size k.
  Proof.
    unfold k_encode. destruct (k_accepts k v); [|discriminate]. intros H; injection H as <-.
    rewrite order_length, le_bytes_length. reflexivity.
  Qed.
  Lemma encode_is_bytes k bo v bs : enc k bo v = Some bs -> is_bytes bs.
  Proof.
    unfold k_encode. destruct (k_accepts k v); [|discriminate]. intros H; injection H as <-.
    apply order_is_bytes, le_bytes_is_bytes.
  Qed.

  Lemma decode_encode k bo v bs :
    k_value k v -> enc k bo v = Some bs -> dec k bo bs = Some v.
  Proof.
    intros Hv H. pose proof (encode_length _ _ _ _ H) as Hl.
    rewrite (encode_some k bo v Hv) in H. injection H as <-.
    unfold k_decode. rewrite Hl, Nat.eqb_refl, order_order, le_value_bytes. f_equal.
    destruct k; cbn [k_value] in Hv; unfold representable in Hv; cbn [k_size k_signed andb];
      rewrite <- pow256 by lia; kind_bits; cbn -[Z.pow Z.modulo] in *; pows;
      try (destruct Hv as [->| ->]; reflexivity);
      match goal with
      | |- context [if ?c then _ else _] => destruct c eqn:E; lia
      | _ => rewrite Z.mod_small by lia; reflexivity
      end.
  Qed.

  Lemma decode_value k bo bs v :
    is_bytes bs -> dec k bo bs = Some v -> k_value k v.
  Proof.
    intros Hb. unfold k_decode. destruct (Nat.eqb_spec (List.length bs) (k_size k)) as [El|]; [|discriminate].
    intros H.
    assert (Hr : 0 <= le_value (order_bytes native_le bo bs) < 2 ^ k_bits k).
    { pose proof (le_value_range _ (order_is_bytes bo _ Hb)) as R.
      unfold zlen in R. rewrite order_length, El in R.
      unfold k_bits. rewrite pow256 by lia. exact R. }
    set (u := le_value (order_bytes native_le bo bs)) in *. clearbody u.
    destruct k; cbn [k_value]; unfold representable; kind_bits;
      cbn [k_signed andb] in H; cbn -[Z.pow] in *; pows;
      injection H as <-;
      try (destruct (u =? 0); [left|right]; reflexivity);
      match goal with
      | |- context [if ?c then _ else _] => destruct c eqn:E; lia
      | _ => lia
      end.
  Qed.

  Lemma encode_decode k bo bs v :
    k <> KBool ->
    is_bytes bs -> dec k bo bs = Some v -> enc k bo v = Some bs.
  Proof.
    intros Hk Hb H. pose proof (decode_value _ _ _ _ Hb H) as Hv.
    rewrite (encode_some _ _ _ Hv). f_equal.
    unfold k_decode in H. destruct (Nat.eqb_spec (List.length bs) (k_size k)) as [El|]; [|discriminate].
    transitivity (order_bytes native_le bo (order_bytes native_le bo bs)); [|apply order_order].
    f_equal.
    transitivity (le_bytes (k_size k) (le_value (order_bytes native_le bo bs))).
    2:{ rewrite <- El, <- (order_length bo bs). apply le_bytes_value, order_is_bytes, Hb. }
    set (u := le_value (order_bytes native_le bo bs)) in *. clearbody u.
    rewrite <- (le_bytes_mod _ v), <- (le_bytes_mod _ u). f_equal.
    rewrite <- pow256 by lia. change (8 * Z.of_nat (k_size k)) with (k_bits k).
    assert (G : forall a c, (if c : bool then u - a else u) mod a = u mod a).
    { intros a []; [|reflexivity]. replace (u - a) with (u + (-1) * a) by ring.
      apply Z_mod_plus_full. }
    destruct k; try congruence; injection H as <-; try reflexivity; apply G.
  Qed.

  Lemma decode_length_iff k bo bs :
    (exists v, dec k bo bs = Some v) <-> List.length bs = k_size k.
  Proof.
    unfold k_decode. destruct (Nat.eqb_spec (List.length bs) (k_size k)); split.
    - auto.
    - eauto.
    - intros [v H]; discriminate.
    - congruence.
  Qed.

  Lemma encode_raises k bo v :
    k <> KBool -> (enc k bo v = None <-> ~ k_value k v).
  Proof.
    intros Hk. unfold k_encode. destruct (k_accepts k v) eqn:E.
    - split; [discriminate|]. intros H; exfalso; apply H. apply accepts_only; assumption.
    - split; [|reflexivity]. intros _ H. rewrite (accepts_value _ _ H) in E. discriminate.
  Qed.

  Lemma encode_be_le k v le be :
    enc k LittleEndian v = Some le -> enc k BigEndian v = Some be ->
    be = rev le /\ enc k Network v = Some be /\
    enc k Native v = Some (if native_le then le else be).
  Proof.
    unfold k_encode. destruct (k_accepts k v); [|discriminate].
    unfold order_bytes; cbn. intros H1 H2; injection H1 as <-; injection H2 as <-.
    destruct native_le; auto.
  Qed.

  Lemma encode_nth k v le i :
    k_value k v -> enc k LittleEndian v = Some le -> (i < wire_size k)%nat ->
    nth i le 0 = v / 256 ^ Z.of_nat i mod 256.
  Proof.
    intros Hv H Hi. rewrite (encode_some _ _ _ Hv) in H. injection H as <-.
    unfold order_bytes; cbn [is_le]. apply le_bytes_nth.
    destruct k; exact Hi.
  Qed.

  Lemma transfer p q bo data :
    p_kind q = p_kind p -> k_value (p_kind p) (p_val p) ->
    p_binary native_le bo p = Some data ->
    List.length data = wire_size (p_kind p) /\
    p_update native_le bo q data = Some p.
  Proof.
    intros Hk Hv H. split.
    - unfold p_binary in H. rewrite (encode_length _ _ _ _ H). destruct (p_kind p); reflexivity.
    - unfold p_update. rewrite Hk, (decode_encode _ _ _ _ Hv H).
      unfold p_set. rewrite Hk, (store_id _ _ Hv). destruct p; reflexivity.
  Qed.
End Host.
