(** Property C22: message framing. *)
From Coq Require Import ZifyBool ZifyNat.
From Verif Require Import Base BaseLemmas PrimModel PrimSpec PrimProofs FifoModel
  MessageModel MessageSpec MessageProofs.

(** The processor as used: 32-bit lengths in network order. *)
Notation enc nl := (m_encode nl U32 Network).
Notation feed nl := (m_feed nl U32 Network all).
Notation process nl := (m_process nl U32 Network).

(** [encode] writes the frame of the specification. *)
Theorem C22_encode_is_frame :
  forall nl m, zlen m < 2 ^ 32 -> enc nl m = Some (frame m).
Proof.
  intros nl m L. pose proof (zlen_nonneg m).
  unfold m_encode. rewrite store_id by (cbn [k_value]; unfold representable; lia).
  rewrite encode_some by (cbn [k_value]; unfold representable; lia).
  unfold frame, order_bytes. cbn [is_le le_bytes rev app k_size].
  rewrite !Z.div_div by lia. reflexivity.
Qed.
Print Assumptions C22_encode_is_frame.

Lemma at_boundary nl l : m_turn nl U32 Network (mkMproc [] true l) = TStop.
Proof. reflexivity. Qed.

(** Everything delivered depends only on the bytes, not on their chunking:
    for every byte stream, well-formed or not. *)
Theorem C22_chunking_irrelevant :
  forall nl chunks chunks',
    List.concat chunks = List.concat chunks' ->
    feed nl m_init chunks = feed nl m_init chunks'.
Proof.
  intros nl c c' E.
  destruct (feed_concat nl U32 Network 32 ik_u32 c m_init ltac:(cbv; discriminate) eq_refl)
    as (ms & q & F & P & _).
  destruct (feed_concat nl U32 Network 32 ik_u32 c' m_init ltac:(cbv; discriminate) eq_refl)
    as (ms' & q' & F' & P' & _).
  rewrite F, F', E in *. congruence.
Qed.
Print Assumptions C22_chunking_irrelevant.

Lemma process_wire nl ms : forall l rest,
  0 <= l -> Forall (fun m => zlen m < 2 ^ 32) ms ->
  exists l', 0 <= l' /\
  process nl all (mkMproc [] true l) (wire ms ++ rest) =
    let '(r, q, e) := process nl all (mkMproc [] true l') rest in (ms ++ r, q, e).
Proof.
  induction ms as [|m ms IH]; intros l rest Hl H.
  - exists l. split; [exact Hl|]. cbn [wire map List.concat app].
    destruct (process nl all _ rest) as [[r q] e]. reflexivity.
  - inversion H as [|? ? Hm Hms]; subst. unfold wire. cbn [map List.concat]. fold (wire ms).
    rewrite <- app_assoc.
    rewrite (process_frame nl U32 Network 32 ik_u32 all (mkMproc [] true l) m (wire ms ++ rest)
      (frame m) Hl eq_refl eq_refl Hm (C22_encode_is_frame nl m Hm)).
    cbn [all]. destruct (IH (zlen m) rest (zlen_nonneg m) Hms) as (l' & Hl' & E).
    exists l'. split; [exact Hl'|]. rewrite E.
    destruct (process nl all (mkMproc [] true l') rest) as [[r q] e]. reflexivity.
Qed.

(** C22.  However the stream of a list of messages is chunked, exactly those
    messages are delivered, in order, once each, and the processor is back at a
    message boundary with nothing buffered. *)
Theorem C22_messages_delivered :
  forall nl ms chunks,
    Forall (fun m => zlen m < 2 ^ 32) ms ->
    List.concat chunks = wire ms ->
    exists p, feed nl m_init chunks = (ms, p) /\ m_buf p = [] /\ m_header p = true.
Proof.
  intros nl ms chunks H E.
  destruct (feed_concat nl U32 Network 32 ik_u32 chunks m_init ltac:(cbv; discriminate) eq_refl)
    as (ms' & q & F & P & _).
  destruct (process_wire nl ms 0 [] ltac:(lia) H) as (l' & Hl' & W).
  rewrite app_nil_r in W. rewrite E in P. unfold m_init in P. rewrite W in P.
  rewrite (process_nil nl U32 Network _ (at_boundary nl l')) in P.
  injection P as <- <-. rewrite app_nil_r in F.
  eexists. split; [exact F|]. split; reflexivity.
Qed.
Print Assumptions C22_messages_delivered.

Example C22_messages_delivered_case :
  List.concat [[0; 0]; [0; 2; 7]; []; [8; 0; 0; 0; 0; 0; 0]; [0; 1; 9]] = wire [[7; 8]; []; [9]].
Proof. reflexivity. Qed.

Lemma complete_in_app ms : forall w rest n,
  wire ms = w ++ rest -> zlen w = n ->
  exists tail, w = wire (complete_in n ms) ++ tail /\
    (tail = [] \/ exists m ms', ms = complete_in n ms ++ m :: ms' /\
       zlen tail < 4 + zlen m /\ exists t', frame m = tail ++ t').
Proof.
  induction ms as [|m ms IH]; intros w rest n E Hn.
  - exists []. symmetry in E. apply app_eq_nil in E as [-> ->]. split; [reflexivity|auto].
  - cbn [complete_in]. unfold wire in E. cbn [map List.concat] in E. fold (wire ms) in E.
    assert (Lf : zlen (frame m) = 4 + zlen m).
    { unfold frame. rewrite zlen_app. reflexivity. }
    destruct (Z.leb_spec (4 + zlen m) n) as [Hle|Hlt].
    + (* the frame is complete *)
      assert (Hw : w = frame m ++ skipn (List.length (frame m)) w).
      { rewrite <- (firstn_skipn (List.length (frame m)) w) at 1. f_equal.
        pose proof (f_equal (firstn (List.length (frame m))) E) as F.
        rewrite firstn_app, Nat.sub_diag, firstn_all in F. cbn [firstn] in F.
        rewrite app_nil_r in F. rewrite F at 2. rewrite firstn_app.
        replace (List.length (frame m) - List.length w)%nat with 0%nat by (unfold zlen in *; lia).
        cbn [firstn]. rewrite app_nil_r. reflexivity. }
      remember (skipn (List.length (frame m)) w) as w' eqn:Ew'. clear Ew'. subst w.
      rewrite <- app_assoc in E. apply app_inv_head in E.
      rewrite zlen_app in Hn.
      destruct (IH w' rest (n - 4 - zlen m) E ltac:(lia)) as (tail & Et & Hc).
      exists tail. split.
      * rewrite Et at 1. unfold wire. cbn [map List.concat]. rewrite app_assoc. reflexivity.
      * destruct Hc as [->|(m0 & ms0 & E0 & Hr)]; [left; reflexivity|right].
        exists m0, ms0. split; [|exact Hr]. cbn [app]. rewrite E0 at 1. reflexivity.
    + exists w. split; [reflexivity|right]. exists m, ms. split; [reflexivity|].
      split; [lia|].
      exists (skipn (List.length w) (frame m)).
      pose proof (f_equal (firstn (List.length w)) E) as F.
      rewrite !firstn_app, Nat.sub_diag, firstn_all in F. cbn [firstn] in F. rewrite app_nil_r in F.
      replace (List.length w - List.length (frame m))%nat with 0%nat in F by (unfold zlen in *; lia).
      cbn [firstn] in F. rewrite app_nil_r in F. rewrite <- F at 1. symmetry. apply firstn_skipn.
Qed.

Lemma process_incomplete nl m l tail t' :
  0 <= l -> zlen m < 2 ^ 32 -> frame m = tail ++ t' -> zlen tail < 4 + zlen m ->
  exists q, process nl all (mkMproc [] true l) tail = ([], q, EDone).
Proof.
  intros Hl Hm Ef Ht.
  destruct (process_done nl U32 Network 32 ik_u32 (mkMproc [] true l) tail Hl) as (r & q & P & Iq & Tq).
  destruct r as [|m0 r]; [eauto|exfalso].
  destruct (process_done nl U32 Network 32 ik_u32 q t' Iq) as (r' & q' & P' & _).
  pose proof (process_app nl U32 Network 32 ik_u32 (mkMproc [] true l) tail t' _ _ _ _ Hl P P') as A.
  rewrite <- Ef in A.
  pose proof (process_frame nl U32 Network 32 ik_u32 all (mkMproc [] true l) m [] (frame m)
    Hl eq_refl eq_refl Hm (C22_encode_is_frame nl m Hm)) as B.
  rewrite app_nil_r in B. cbn [all] in B.
  rewrite (process_nil nl U32 Network _ (at_boundary nl (zlen m))) in B.
  rewrite A in B. injection B as -> Er _. apply app_eq_nil in Er as [-> ->].
  (* the message cannot be yielded before its last byte has arrived *)
  unfold m_process in P. cbn [app m_buf m_header m_len] in P. unfold m_fuel in P. cbn [m_buf] in P.
  rewrite Nat.add_comm in P. cbn [Nat.add m_loop] in P.
  destruct (m_turn nl U32 Network (mkMproc tail true l)) as [|p'|m' p'|p'] eqn:T.
  - discriminate P.
  - unfold m_turn in T. cbn [m_header m_buf] in T.
    destruct (fifo_pop _ tail) as [[a b]|] eqn:Ep; [|discriminate T].
    destruct (k_decode nl U32 Network a) as [v|] eqn:D; [|discriminate T]. injection T as <-.
    apply pop_some in Ep as [-> La]; [|cbn; lia].
    (* the length read is that of [m] *)
    assert (Ea : a = firstn 4 (frame m)).
    { rewrite Ef, <- app_assoc.
      assert (Z4 : List.length a = 4%nat) by (unfold zlen in La; cbn in La; lia).
      rewrite firstn_app, Z4, Nat.sub_diag, <- Z4, firstn_all. cbn. rewrite app_nil_r. reflexivity. }
    destruct (encode_ok nl U32 Network 32 ik_u32 m Hm) as (h & Eh & Lh & Dh & Sh).
    rewrite (C22_encode_is_frame nl m Hm) in Eh. injection Eh as Eh.
    assert (a = h).
    { rewrite Ea, Eh. assert (Z4 : List.length h = 4%nat) by (unfold zlen in Lh; cbn in Lh; lia).
      rewrite firstn_app, Z4, Nat.sub_diag, <- Z4, firstn_all. cbn. apply app_nil_r. }
    subst h. rewrite Dh in D. injection D as <-.
    change (zlen m mod Z.pow_pos 2 32) with (k_store U32 (zlen m)) in P. rewrite Sh in P.
    rewrite zlen_app in Ht.
    unfold m_turn in P. cbn [m_header m_buf m_len] in P.
    destruct (fifo_pop (zlen m) b) as [[c d]|] eqn:Ec; [|discriminate P].
    apply pop_some in Ec as [-> Lc]; [|apply zlen_nonneg].
    rewrite zlen_app in Ht. pose proof (zlen_nonneg d). unfold zlen in La, Ht, Lc. cbn in La. lia.
  - unfold m_turn in T. cbn [m_header m_buf] in T. destruct (fifo_pop _ _) as [[]|]; [|discriminate].
    destruct (k_decode _ _ _ _); discriminate.
  - discriminate P.
Qed.

(** C22, at any point of the stream: after receiving some prefix of it, exactly
    the messages whose last byte has arrived have been delivered. *)
Theorem C22_prefix_delivered :
  forall nl ms chunks rest,
    Forall (fun m => zlen m < 2 ^ 32) ms ->
    List.concat chunks ++ rest = wire ms ->
    fst (feed nl m_init chunks) = complete_in (zlen (List.concat chunks)) ms.
Proof.
  intros nl ms chunks rest H E.
  destruct (feed_concat nl U32 Network 32 ik_u32 chunks m_init ltac:(cbv; discriminate) eq_refl)
    as (ms' & q & F & P & _).
  rewrite F; cbn [fst].
  destruct (complete_in_app ms (List.concat chunks) rest _ (eq_sym E) eq_refl) as (tail & Et & Hc).
  assert (Hcm : Forall (fun m => zlen m < 2 ^ 32) (complete_in (zlen (List.concat chunks)) ms)).
  { clear -H. revert H. generalize (zlen (List.concat chunks)).
    induction ms as [|m ms IH]; intros n H; cbn [complete_in]; [constructor|].
    inversion H; subst. destruct (_ <=? _); [|constructor]. constructor; [assumption|].
    apply IH; assumption. }
  set (cm := complete_in _ ms) in *. clearbody cm.
  destruct (process_wire nl cm 0 tail ltac:(lia) Hcm) as (l' & Hl' & W).
  rewrite Et in P. unfold m_init in P. rewrite W in P.
  assert (T : exists q', process nl all (mkMproc [] true l') tail = ([], q', EDone)).
  { destruct Hc as [->|(m & ms0 & Ems & Lt & t' & Ft)].
    - eexists. apply process_nil. reflexivity.
    - eapply process_incomplete; eauto.
      rewrite Forall_forall in H. apply H. rewrite Ems. apply in_or_app; right; left; reflexivity. }
  destruct T as [q' T]. rewrite T in P. injection P as <- _. apply app_nil_r.
Qed.
Print Assumptions C22_prefix_delivered.

Example C22_prefix_delivered_case :
  complete_in 11 [[7; 8]; []; [9]] = [[7; 8]; []] /\
  fst (feed true m_init [[0; 0; 0]; [2; 7; 8; 0; 0; 0; 0; 0]]) = [[7; 8]; []].
Proof. split; reflexivity. Qed.

(** JSON messages: when every message parses, [messages] delivers the parsed
    values in order. *)
Theorem C22_json_delivered :
  forall nl J (parse : list Z -> option J) ms js,
    Forall (fun m => zlen m < 2 ^ 32) ms ->
    map parse ms = map Some js ->
    exists p, m_messages nl U32 Network parse m_init (wire ms) = (js, p, EDone) /\
      m_buf p = [] /\ m_header p = true.
Proof.
  intros nl J parse ms js H Hp. unfold m_messages, m_init.
  set (acc := fun m => match parse m with Some _ => true | None => false end).
  assert (G : forall ms js l, 0 <= l -> Forall (fun m => zlen m < 2 ^ 32) ms ->
     map parse ms = map Some js ->
     exists l', process nl acc (mkMproc [] true l) (wire ms) = (ms, mkMproc [] true l', EDone) /\
       flat_map (fun m => match parse m with Some j => [j] | None => [] end) ms = js).
  { clear. induction ms as [|m ms IH]; intros js l Hl H Hp.
    - destruct js; [|discriminate]. exists l. split; reflexivity.
    - destruct js as [|j js]; [discriminate|]. injection Hp as Hj Hp.
      inversion H as [|? ? Hm Hms]; subst. unfold wire; cbn [map List.concat]; fold (wire ms).
      rewrite (process_frame nl U32 Network 32 ik_u32 acc (mkMproc [] true l) m (wire ms)
        (frame m) Hl eq_refl eq_refl Hm (C22_encode_is_frame nl m Hm)).
      assert (A : acc m = true) by (unfold acc; rewrite Hj; reflexivity). rewrite A.
      destruct (IH js (zlen m) (zlen_nonneg m) Hms Hp) as (l' & E & F). rewrite E.
      exists l'. split; [reflexivity|]. cbn [flat_map]. rewrite Hj, F. reflexivity. }
  destruct (G ms js 0 ltac:(lia) H Hp) as (l' & E & F). rewrite E, F.
  eexists. split; [reflexivity|]. split; reflexivity.
Qed.
Print Assumptions C22_json_delivered.

(** A consumer that fails on a message loses the framing: whatever follows, the
    next [zlen m] bytes, headers included, are taken for a message. *)
Theorem C22_failed_consumer_desynchronizes :
  forall nl accept m rest next,
    zlen m < 2 ^ 32 -> accept m = false -> zlen next = zlen m ->
    exists p, process nl accept m_init (frame m ++ rest) = ([m], p, ELeft) /\
      forall data, rest ++ data = next ++ skipn (List.length next) (rest ++ data) ->
        exists ms q e, process nl accept p data = (next :: ms, q, e).
Proof.
  intros nl acc m rest next Hm Ha Hn.
  exists (mkMproc rest false (zlen m)). split.
  - rewrite (process_frame nl U32 Network 32 ik_u32 acc m_init m rest (frame m)
      ltac:(cbv; discriminate) eq_refl eq_refl Hm (C22_encode_is_frame nl m Hm)), Ha. reflexivity.
  - intros data Hd. unfold m_process. cbn [m_buf m_header m_len]. rewrite Hd.
    unfold m_fuel. cbn [m_buf]. generalize (2 * List.length (next ++ skipn (List.length next) (rest ++ data)))%nat.
    intros fu0. replace (fu0 + 2)%nat with (S (S fu0)) by lia. generalize (S fu0). clear fu0. intros fu.
    cbn [m_loop].
    rewrite (turn_payload nl U32 Network next _ (zlen m) (eq_sym Hn)).
    destruct (acc next); [|eauto]. destruct (m_loop nl U32 Network acc fu _) as [[ms q] e]. eauto.
Qed.
Print Assumptions C22_failed_consumer_desynchronizes.

(** C22 read for JSON streams ("a bad message only affects itself") is false:
    after one message that is not JSON, a later good message is lost. *)
Theorem C22_bad_json_refuted :
  exists (parse : list Z -> option Z) bad good,
    parse bad = None /\ parse good = Some 1 /\
    let '(j1, p, e) := m_messages true U32 Network parse m_init (wire [bad; good]) in
    let '(j2, _, _) := m_messages true U32 Network parse p (wire [good; good]) in
    j1 = [] /\ e = ELeft /\ j2 = [].
Proof.
  exists (fun m => match m with [49] => Some 1 | _ => None end), [120], [49]. vm_compute. auto.
Qed.
Print Assumptions C22_bad_json_refuted.

(** The 2^32 bound is needed: a message of exactly 2^32 bytes is announced as
    empty. *)
Theorem C22_oversize_refuted :
  forall nl m, zlen m = 2 ^ 32 ->
    enc nl m = Some ([0; 0; 0; 0] ++ m) /\
    exists ms p, feed nl m_init [[0; 0; 0; 0] ++ m] = (ms, p) /\ ms <> [m].
Proof.
  intros nl m Hm. split.
  - unfold m_encode. rewrite Hm. reflexivity.
  - destruct (feed nl m_init [[0; 0; 0; 0] ++ m]) as [ms p] eqn:F. exists ms, p. split; [reflexivity|].
    intros ->. cbn [m_feed] in F.
    change ([0; 0; 0; 0] ++ m) with (frame [] ++ m) in F.
    rewrite (process_frame nl U32 Network 32 ik_u32 all m_init [] m (frame [])
      ltac:(cbv; discriminate) eq_refl eq_refl eq_refl (C22_encode_is_frame nl [] eq_refl)) in F.
    cbn [all] in F.
    destruct (process nl all (mkMproc [] true (zlen (@nil Z))) m) as [[r q] e].
    apply (f_equal fst) in F. cbn [fst app] in F.
    apply (f_equal (hd [])) in F. cbn [hd] in F. subst m. discriminate Hm.
Qed.
Print Assumptions C22_oversize_refuted.
