(** Property C44: traffic counters. *)
From Verif Require Import Base BaseLemmas PrimModel Utf8Model MetricsModel MetricsSpec.
From Coq Require Import ZifyBool ZifyNat Lia.
Ltac Zify.zify_post_hook ::= Z.div_mod_to_equations.
Open Scope list_scope.
Open Scope Z_scope.

Lemma ascii_encode s : Forall is_ascii s -> utf8_encode s = Some s.
Proof.
  induction 1 as [|c s H _ IH]; [reflexivity|]. cbn [utf8_encode]. rewrite IH. unfold is_ascii in H.
  unfold is_surrogate, utf8_enc1. replace ((55296 <=? c) && (c <=? 57343)) with false by lia. replace (c <? 128) with true by lia. reflexivity.
Qed.

Definition agrees (m : cmetrics) (w : list (list Z)) : Prop :=
  m_messages m = Z.of_nat (List.length w) mod 2 ^ 32 /\ m_bytes m = total w mod 2 ^ 64.
Lemma total_app a b : total (a ++ b) = total a + total b.
Proof. unfold total. induction a as [|x a IH]; cbn [app fold_right]; [lia|]. rewrite IH. lia. Qed.
Lemma agrees_inc m w b : agrees m w -> agrees (m_increment m (zlength b)) (w ++ [b]).
Proof.
  intros [A B]. unfold agrees, m_increment. cbn [m_messages m_bytes]. rewrite A, B, app_length, total_app. cbn [total fold_right List.length].
  unfold zlength. cbn [k_store k_signed andb]. unfold k_bits. cbn [k_size]. change (2 ^ (8 * Z.of_nat 4)) with (2 ^ 32). change (2 ^ (8 * Z.of_nat 8)) with (2 ^ 64).
  rewrite Z.add_0_r. rewrite !Z.add_mod_idemp_l by (vm_compute; discriminate). split; f_equal; lia.
Qed.
Lemma agrees_nil m : agrees (m_reset m) [].
Proof. split; reflexivity. Qed.

Lemma op_agrees k m o t r : nominal k o -> agrees (cm_tx m) t -> agrees (cm_rx m) r -> o <> MReset ->
  agrees (cm_tx (c_op k m o)) (t ++ opt_list (payload k o)) /\ agrees (cm_rx (c_op k m o)) (r ++ opt_list (received k o)).
Proof.
  intros N T R H. destruct o as [s ok|b ok|s ok|b ok| |]; [| | | |congruence|]; cbn [c_op payload received opt_list].
  - destruct k; cbn [nominal send_data] in *.
    + subst ok. destruct (utf8_encode s); cbn [opt_list]; rewrite ?app_nil_r; (split; [|assumption]); [apply agrees_inc|]; assumption.
    + destruct ok, (utf8_encode s); cbn [opt_list]; rewrite ?app_nil_r; (split; [|assumption]); try assumption. apply agrees_inc; assumption.
    + destruct N as [-> N]. rewrite (ascii_encode s N). cbn [opt_list]. rewrite app_nil_r. split; [apply agrees_inc|]; assumption.
  - destruct k; cbn [nominal send_data] in *.
    + subst ok. rewrite app_nil_r. split; [apply agrees_inc|]; assumption.
    + destruct ok; cbn [opt_list]; rewrite ?app_nil_r; (split; [|assumption]); try assumption. apply agrees_inc; assumption.
    + subst ok. rewrite app_nil_r. split; [apply agrees_inc|]; assumption.
  - destruct k; cbn [nominal] in *; cbn [opt_list]; rewrite ?app_nil_r; try (split; assumption).
    rewrite (ascii_encode s N). split; [assumption|]. apply agrees_inc; assumption.
  - destruct k; cbn [nominal] in *; cbn [opt_list]; rewrite ?app_nil_r; try (split; [assumption|]; apply agrees_inc; assumption).
    subst ok. split; [assumption|]. apply agrees_inc; assumption.
  - rewrite !app_nil_r. destruct m, k; split; assumption.
Qed.

(** C44.  After any history in which the transport takes what it is given (see
    [nominal]), the counters are the number of payloads on the wire since the
    last reset modulo 2^32 and their total length modulo 2^64. *)
Theorem C44_traffic_partial : forall k l, Forall (nominal k) l ->
  let m := c_ops k cm_new l in
  m_messages (cm_tx m) = Z.of_nat (List.length (wire_tx k l)) mod 2 ^ 32 /\
  m_bytes (cm_tx m) = total (wire_tx k l) mod 2 ^ 64 /\
  m_messages (cm_rx m) = Z.of_nat (List.length (wire_rx k l)) mod 2 ^ 32 /\
  m_bytes (cm_rx m) = total (wire_rx k l) mod 2 ^ 64.
Proof.
  intros k l N.
  assert (G : forall l m t r, Forall (nominal k) l -> agrees (cm_tx m) t -> agrees (cm_rx m) r ->
     agrees (cm_tx (c_ops k m l)) (since_reset (payload k) l t) /\ agrees (cm_rx (c_ops k m l)) (since_reset (received k) l r)).
  { clear. induction l as [|o l IH]; intros m t r N T R; [split; assumption|]. inversion N as [|? ? N1 N2]; subst.
    change (c_ops k m (o :: l)) with (c_ops k (c_op k m o) l).
    destruct o as [s ok|b ok|s ok|b ok| |]; cbn [since_reset];
      try (apply IH; [exact N2| |]; apply (op_agrees k m _ t r N1 T R); discriminate).
    apply IH; [exact N2| |]; apply agrees_nil. }
  destruct (G l cm_new [] [] N) as [[A B] [C D]]; [split; reflexivity|split; reflexivity|]. cbn zeta. auto.
Qed.
Print Assumptions C44_traffic_partial.

(** C44 is false for websockets: texts are counted in characters, not bytes,
    and a message that could not be sent is counted. *)
Theorem C44_websocket_refuted :
  (let l := [SendText [233; 233] true] in
   m_bytes (cm_tx (c_ops Websocket cm_new l)) = 2 /\ total (wire_tx Websocket l) = 4) /\
  (let l := [SendBinary [1; 2; 3] false] in
   m_messages (cm_tx (c_ops Websocket cm_new l)) = 1 /\ wire_tx Websocket l = []) /\
  (let l := [RecvBinary [1; 2; 3] false] in
   m_messages (cm_rx (c_ops Udp cm_new l)) = 0 /\ wire_rx Udp l = [[1; 2; 3]]).
Proof. vm_compute. repeat split. Qed.
Print Assumptions C44_websocket_refuted.

(** C44.  Copying counters from another instance copies them exactly. *)
Theorem C44_update : forall k l m, Forall (nominal k) l ->
  let o := cm_tx (c_ops k cm_new l) in m_update m o = o.
Proof.
  intros k l m N. destruct (C44_traffic_partial k l N) as (A & B & _). cbn zeta in *.
  destruct (cm_tx (c_ops k cm_new l)) as [a b]. cbn [m_messages m_bytes] in A, B. unfold m_update. cbn [m_messages m_bytes].
  cbn [k_store k_signed andb]. unfold k_bits. cbn [k_size]. change (2 ^ (8 * Z.of_nat 4)) with (2 ^ 32). change (2 ^ (8 * Z.of_nat 8)) with (2 ^ 64).
  subst a b. rewrite !Z.mod_mod by (vm_compute; discriminate). reflexivity.
Qed.
Print Assumptions C44_update.

Example C44_case :
  let l := [SendText [233; 104] true; RecvBinary [1] true; MReset; SendBinary [1; 2] true; MPoll; SendText [8364] true; SendText [55296] true] in
  Forall (nominal Tcp) l /\ wire_tx Tcp l = [[1; 2]; [226; 130; 172]] /\
  c_ops Tcp cm_new l = mkConnMetrics (mkMetrics 2 5) (mkMetrics 0 0).
Proof. split; [repeat constructor|]. vm_compute. repeat split. Qed.
