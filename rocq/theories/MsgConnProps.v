(** C87: which messages a connection processes over its life. *)
From Coq Require Import ZifyBool ZifyNat Lia.
From Verif Require Import Base BaseLemmas PrimModel FifoModel Utf8Model Utf8Proofs
  MessageModel MessageSpec MessageProofs MessageProps MsgConnModel MsgConnSpec MsgConnProofs.
Open Scope list_scope.
Open Scope Z_scope.

Lemma run_app {A} nl (h : list Z -> A -> outcome) s es es' : run nl h s (es ++ es') = run nl h (run nl h s es) es'.
Proof. apply fold_left_app. Qed.
Lemma arrived_app {A} (es es' : list (event A)) : arrived (es ++ es') = arrived es ++ arrived es'.
Proof. unfold arrived. rewrite map_app, concat_app. reflexivity. Qed.
Lemma stays_raise o : o_stays o = true <-> o <> RRaise.
Proof. destruct o; cbn; split; congruence. Qed.

(** What is processed and what is held back is what the specification says, whatever
    arrives, from whom, whenever the connection restarts and whatever is made of the
    messages. *)
Lemma C87_inv {A} nl (handler : list Z -> A -> outcome) es : bytes_only es ->
  let s := run nl handler mc_init es in
  is_bytes (m_buf (mc_proc s)) /\ wf (mc_proc s) /\ behaves handler es (held_of (mc_proc s)) (mc_on s) (mc_log s).
Proof.
  induction es as [|e es IH] using rev_ind; intros Hb.
  - repeat split; [constructor|left; reflexivity|constructor].
  - unfold bytes_only in Hb. rewrite arrived_app in Hb. apply bytes_app in Hb as [Hb He]. specialize (IH Hb).
    cbv zeta in *. rewrite run_app. destruct (run nl handler mc_init es) as [p on log]. cbn [mc_proc mc_on mc_log] in IH.
    destruct IH as (B & W & H). destruct e as [a data|]; cbn [run fold_left step mc_on mc_proc mc_log].
    + unfold arrived in He. cbn [map List.concat] in He. rewrite app_nil_r in He.
      destruct on; [|cbn [mc_proc mc_on mc_log]; repeat split; auto; apply B_off, H].
      unfold process_binary. cbn [mc_proc mc_log].
      destruct (process_spec nl (fun m => o_stays (handler m a)) p data B W He) as (ms & q & e & E & Bq & Wq & O).
      rewrite E. cbn [mc_proc mc_on mc_log]. split; [exact Bq|]. split; [exact Wq|].
      destruct O as [(-> & H1 & H2 & H3 & H4)|(ms0 & m & rest & -> & -> & H1 & H2 & H3 & H4 & H5)].
      * eapply B_data; eauto. eapply Forall_impl; [|exact H4]. intros m. cbn beta. apply stays_raise.
      * rewrite H2. eapply B_raise; eauto.
        -- eapply Forall_impl; [|exact H4]. intros x. cbn beta. apply stays_raise.
        -- destruct (handler m a); cbn in H5; congruence.
    + repeat split; auto. eapply B_restart; eauto.
Qed.
Theorem C87_behaves :
  forall {A} nl (handler : list Z -> A -> outcome) es, bytes_only es ->
  let s := run nl handler mc_init es in
  exists held, behaves handler es held (mc_on s) (mc_log s).
Proof. intros A nl handler es Hb s. exists (held_of (mc_proc s)). apply (C87_inv nl handler es Hb). Qed.
Print Assumptions C87_behaves.

Lemma split_raise {A} (handler : list Z -> A -> outcome) a : forall ms ms' m' t t',
  Forall (fun m => zlen m < 2 ^ 32) ms -> Forall (fun m => zlen m < 2 ^ 32) (ms' ++ [m']) ->
  Forall (fun m => handler m a <> RRaise) ms -> handler m' a = RRaise ->
  incomplete t -> wire ms ++ t = wire (ms' ++ [m']) ++ t' -> False.
Proof.
  induction ms as [|m ms IH]; intros ms' m' t t' F F' N R I E.
  - change (wire []) with (@nil Z) in E. cbn [app] in E. destruct ms' as [|x ms']; cbn [app] in *; rewrite wire_cons, <- app_assoc in E.
    + exact (I m' _ (Forall_inv F') E).
    + exact (I x _ (Forall_inv F') E).
  - rewrite wire_cons, frame_hdr, <- !app_assoc in E.
    assert (K : forall x r, zlen x < 2 ^ 32 -> hdr (zlen m) ++ m ++ wire ms ++ t = frame x ++ r -> x = m /\ r = wire ms ++ t).
    { intros x r Hx Q. rewrite frame_hdr, <- app_assoc in Q. pose proof (f_equal (firstn 4) Q) as Q1. rewrite !firstn_pre in Q1 by reflexivity.
      pose proof (zlen_nonneg m). pose proof (zlen_nonneg x). apply hdr_inj in Q1; [|pose proof (Forall_inv F); cbn beta in *; lia|lia].
      rewrite Q1 in Q. apply app_inv_head in Q. pose proof (f_equal (firstn (List.length m)) Q) as Q'.
      rewrite !firstn_pre in Q' by (unfold zlen in Q1; lia). subst x. split; [reflexivity|]. apply app_inv_head in Q. auto. }
    destruct ms' as [|x ms']; cbn [app] in *; rewrite wire_cons, <- app_assoc in E.
    + apply K in E as [-> _]; [|exact (Forall_inv F')]. exact (Forall_inv N R).
    + apply K in E as [-> E]; [|exact (Forall_inv F')]. symmetry in E.
      eapply (IH ms' m' t t'); eauto using Forall_inv_tail.
Qed.
Lemma split_raise2 {A} (handler : list Z -> A -> outcome) a : forall ms m ms' m' t t',
  Forall (fun m => zlen m < 2 ^ 32) (ms ++ [m]) -> Forall (fun m => zlen m < 2 ^ 32) (ms' ++ [m']) ->
  Forall (fun m => handler m a <> RRaise) ms -> handler m a = RRaise ->
  Forall (fun m => handler m a <> RRaise) ms' -> handler m' a = RRaise ->
  wire (ms ++ [m]) ++ t = wire (ms' ++ [m']) ++ t' -> ms = ms' /\ m = m' /\ t = t'.
Proof.
  intros ms m ms' m' t t'. revert ms'.
  assert (K : forall x y r s, zlen x < 2 ^ 32 -> zlen y < 2 ^ 32 -> frame x ++ r = frame y ++ s -> x = y /\ r = s).
  { intros x y r s Hx Hy Q. rewrite !frame_hdr, <- !app_assoc in Q. pose proof (f_equal (firstn 4) Q) as Q1. rewrite !firstn_pre in Q1 by reflexivity.
    pose proof (zlen_nonneg y). pose proof (zlen_nonneg x). apply hdr_inj in Q1; [|lia|lia].
    rewrite Q1 in Q. apply app_inv_head in Q. pose proof (f_equal (firstn (List.length x)) Q) as Q'.
    rewrite !firstn_pre in Q' by (unfold zlen in Q1; lia). subst y. split; [reflexivity|]. apply app_inv_head in Q. auto. }
  induction ms as [|x ms IH]; intros [|x' ms'] F F' N R N' R' E; cbn [app] in *; rewrite !wire_cons, <- !app_assoc in E;
    apply K in E as [-> E]; try exact (Forall_inv F); try exact (Forall_inv F').
  - auto.
  - exfalso. exact (Forall_inv N' R).
  - exfalso. exact (Forall_inv N R').
  - destruct (IH ms') as (-> & -> & ->); eauto using Forall_inv_tail.
Qed.

(** The specification leaves no choice: there is one outcome for the events. *)
Theorem C87_one_behaviour :
  forall {A} (handler : list Z -> A -> outcome) es held on log held' on' log',
  behaves handler es held on log -> behaves handler es held' on' log' -> held = held' /\ on = on' /\ log = log'.
Proof.
  intros A handler es held on log held' on' log' H. revert held' on' log'.
  induction H as [|es held log a data ms tail H IH E I F N|es held log a data ms m rest H IH E F N R|es held log a data H IH|es held on log H IH];
    intros held' on' log' H'.
  - inversion H' as [|? ? ? ? ? ? ? ? ? ? ? ? Q|? ? ? ? ? ? ? ? ? ? ? ? ? Q|? ? ? ? ? ? Q|? ? ? ? ? Q]; subst; auto;
      exfalso; eapply app_cons_not_nil; symmetry; eassumption.
  - inversion H' as [Q|es1 held1 log1 a1 d1 ms1 t1 H1 E1 I1 F1 N1 Q|es1 held1 log1 a1 d1 ms1 m1 r1 H1 E1 F1 N1 R1 Q|es1 held1 log1 a1 d1 H1 Q|es1 held1 on1 log1 H1 Q];
      [exfalso; eapply app_cons_not_nil; eassumption|..]; apply app_inj_tail in Q as [-> Q]; try discriminate; try (injection Q as -> ->);
      destruct (IH _ _ _ H1) as (-> & Eon & ->); try discriminate; rewrite E in E1.
    + destruct (split_unique _ _ _ _ F F1 I I1 E1) as [-> ->]. auto.
    + exfalso. eapply (split_raise handler a ms ms1 m1); eauto.
  - inversion H' as [Q|es1 held1 log1 a1 d1 ms1 t1 H1 E1 I1 F1 N1 Q|es1 held1 log1 a1 d1 ms1 m1 r1 H1 E1 F1 N1 R1 Q|es1 held1 log1 a1 d1 H1 Q|es1 held1 on1 log1 H1 Q];
      [exfalso; eapply app_cons_not_nil; eassumption|..]; apply app_inj_tail in Q as [-> Q]; try discriminate; try (injection Q as -> ->);
      destruct (IH _ _ _ H1) as (-> & Eon & ->); try discriminate; rewrite E in E1.
    + exfalso. eapply (split_raise handler a ms1 ms m); eauto.
    + destruct (split_raise2 handler a _ _ _ _ _ _ F F1 N R N1 R1 E1) as (-> & -> & ->). auto.
  - inversion H' as [Q|es1 held1 log1 a1 d1 ms1 t1 H1 E1 I1 F1 N1 Q|es1 held1 log1 a1 d1 ms1 m1 r1 H1 E1 F1 N1 R1 Q|es1 held1 log1 a1 d1 H1 Q|es1 held1 on1 log1 H1 Q];
      [exfalso; eapply app_cons_not_nil; eassumption|..]; apply app_inj_tail in Q as [-> Q]; try discriminate; try (injection Q as -> ->);
      destruct (IH _ _ _ H1) as (-> & Eon & ->); try discriminate. auto.
  - inversion H' as [Q|es1 held1 log1 a1 d1 ms1 t1 H1 E1 I1 F1 N1 Q|es1 held1 log1 a1 d1 ms1 m1 r1 H1 E1 F1 N1 R1 Q|es1 held1 log1 a1 d1 H1 Q|es1 held1 on1 log1 H1 Q];
      [exfalso; eapply app_cons_not_nil; eassumption|..]; apply app_inj_tail in Q as [-> Q]; try discriminate.
    destruct (IH _ _ _ H1) as (-> & -> & ->); auto.
Qed.
Print Assumptions C87_one_behaviour.

Lemma accepted_stream {A} (handler : list Z -> A -> outcome) es held on log :
  (forall m a, handler m a = RTrue) -> behaves handler es held on log ->
  on = true /\ arrived es = wire (map fst log) ++ held /\ incomplete held /\ Forall (fun m => zlen m < 2 ^ 32) (map fst log).
Proof.
  intros HT H.
  induction H as [|es held log a data ms tail H IH E I F N|es held log a data ms m rest H IH E F N R|es held log a data H IH|es held on log H IH].
  - repeat split; [|constructor]. apply incomplete_short. cbn. lia.
  - destruct IH as (_ & E0 & _ & F0). split; [apply forallb_forall; intros x _; rewrite HT; reflexivity|].
    rewrite map_app, map_map, map_id. rewrite arrived_app, E0. unfold arrived at 1. cbn [map List.concat]. rewrite app_nil_r.
    rewrite wire_app, <- !app_assoc, E. split; [reflexivity|]. split; [exact I|]. apply Forall_app; auto.
  - rewrite HT in R. discriminate.
  - destruct IH. discriminate.
  - destruct IH as (_ & E0 & I & F). rewrite arrived_app. unfold arrived at 2. cbn [map List.concat]. rewrite app_nil_r. auto.
Qed.

(** When every message is accepted: over all restarts and all senders, the messages
    processed are those of the one byte stream that all data make together. *)
Theorem C87_one_stream :
  forall {A} nl (handler : list Z -> A -> outcome) es, bytes_only es -> (forall m a, handler m a = RTrue) ->
  let s := run nl handler mc_init es in
  mc_on s = true /\ exists tail, arrived es = wire (map fst (mc_log s)) ++ tail /\ incomplete tail /\ Forall (fun m => zlen m < 2 ^ 32) (map fst (mc_log s)).
Proof.
  intros A nl handler es Hb HT s. destruct (C87_behaves nl handler es Hb) as (held & H). fold s in H.
  destruct (accepted_stream _ _ _ _ _ HT H) as (K1 & K2). eauto.
Qed.
Print Assumptions C87_one_stream.

(** When everything that arrives is whole messages (one datagram for each message, for
    instance; some may be lost, repeated or reordered, and senders may mix): exactly
    those messages are processed, in order of arrival, each for its sender. *)
Theorem C87_whole_messages :
  forall {A} nl (handler : list Z -> A -> outcome) es,
  (forall m a, handler m a = RTrue) ->
  (forall a ms m, In (Some (a, ms)) es -> In m ms -> is_bytes m /\ zlen m < 2 ^ 32) ->
  mc_log (run nl handler mc_init (map whole_event es)) = whole_log es.
Proof.
  intros A nl handler es HT. 
  assert (Wb : forall ms, (forall m, In m ms -> is_bytes m /\ zlen m < 2 ^ 32) -> is_bytes (wire ms)).
  { induction ms as [|m ms IH]; intros K; [constructor|]. rewrite wire_cons, frame_hdr, <- app_assoc. apply bytes_app. split.
    - repeat constructor; unfold is_byte; apply Z.mod_pos_bound; lia.
    - apply bytes_app. split; [apply K; left; reflexivity|]. apply IH. intros x Hx. apply K. right. exact Hx. }
  intros K. assert (B : behaves handler (map whole_event es) [] true (whole_log es) /\ bytes_only (map whole_event es)).
  { induction es as [|e es IH] using rev_ind; [split; [constructor|constructor]|].
    destruct IH as [IH Hb]. { intros a ms m H1 H2. apply (K a ms m); [apply in_or_app; auto|exact H2]. }
    rewrite map_app. cbn [map]. unfold whole_log, bytes_only. rewrite map_app, concat_app, arrived_app. cbn [map List.concat]. rewrite app_nil_r. destruct e as [[a ms]|]; cbn [whole_event].
    - assert (Km : forall m, In m ms -> is_bytes m /\ zlen m < 2 ^ 32) by (intros m Hm; apply (K a ms m); [apply in_or_app; right; left; reflexivity|exact Hm]).
      split.
      + replace true with (forallb (fun m => o_true (handler m a)) ms) by (apply forallb_forall; intros x _; rewrite HT; reflexivity).
        eapply B_data with (held := []); [exact IH|cbn [app]; rewrite app_nil_r; reflexivity|apply incomplete_short; cbn; lia|..].
        * apply Forall_forall. intros m Hm. apply Km. exact Hm.
        * apply Forall_forall. intros m Hm. rewrite HT. discriminate.
      + apply bytes_app. split; [exact Hb|]. unfold arrived. cbn [map List.concat]. rewrite app_nil_r. apply Wb, Km.
    - rewrite app_nil_r. split; [eapply B_restart; exact IH|]. apply bytes_app. split; [exact Hb|constructor]. }
  destruct B as [B Hb]. destruct (C87_behaves nl handler _ Hb) as (held & B').
  destruct (C87_one_behaviour _ _ _ _ _ _ _ _ B B') as (_ & _ & <-). reflexivity.
Qed.
Print Assumptions C87_whole_messages.

(** When a session ends, or another sender's datagram comes, within the body of a
    message (so that part of it has arrived): what arrives next counts as the rest of
    it. *)
Theorem C87_cut_message :
  forall {A} nl (handler : list Z -> A -> outcome) es mid ms1 m part b data,
  bytes_only (es ++ mid ++ [Data b data]) -> (forall m a, handler m a = RTrue) ->
  arrived es = wire ms1 ++ prefix_of m ++ part -> Forall (fun m => zlen m < 2 ^ 32) ms1 ->
  zlen m < 2 ^ 32 -> zlen part < zlen m -> (forall e, In e mid -> e = Restart) ->
  let before := mc_log (run nl handler mc_init es) in
  let after := mc_log (run nl handler mc_init (es ++ mid ++ [Data b data])) in
  map fst before = ms1 /\
  (zlen part + zlen data < zlen m -> after = before) /\
  (zlen m <= zlen part + zlen data ->
     exists more, after = before ++ (part ++ firstn (Z.to_nat (zlen m - zlen part)) data, b) :: more).
Proof.
  intros A nl handler es mid ms1 m part b data Hb HT Ea F1 Hm Hp Hmid before after.
  assert (Hb1 : bytes_only es) by (unfold bytes_only in *; rewrite arrived_app in Hb; apply bytes_app in Hb; tauto).
  destruct (C87_behaves nl handler es Hb1) as (held & B1). fold before in B1.
  destruct (C87_one_stream nl handler es Hb1 HT) as (On & tail & E1 & I1 & F1'). fold before in E1, F1'. rewrite On in B1.
  assert (Ip : incomplete (prefix_of m ++ part)) by (rewrite prefix_hdr; apply incomplete_body; [pose proof (zlen_nonneg m); lia|exact Hp]).
  rewrite Ea in E1. destruct (split_unique _ _ _ _ F1 F1' Ip I1 E1) as [Q <-]. split; [auto|].
  assert (Eh : held = prefix_of m ++ part).
  { destruct (accepted_stream _ _ _ _ _ HT B1) as (_ & E2 & I2 & F2). rewrite Ea in E2. destruct (split_unique _ _ _ _ F1 F2 Ip I2 E2) as [_ <-]. reflexivity. }
  subst held.
  assert (B2 : behaves handler (es ++ mid) (prefix_of m ++ part) true before).
  { clear - B1 Hmid. induction mid as [|e mid IH] using rev_ind; [rewrite app_nil_r; exact B1|].
    rewrite app_assoc. rewrite (Hmid e) by (apply in_or_app; right; left; reflexivity). eapply B_restart.
    apply IH. intros e' He'. apply Hmid, in_or_app. auto. }
  assert (Bd : is_bytes (part ++ data)).
  { unfold bytes_only in Hb. rewrite !arrived_app, Ea in Hb. rewrite !bytes_app in Hb. apply bytes_app. split; [tauto|].
    destruct Hb as (_ & _ & Hd). unfold arrived in Hd. cbn [map List.concat] in Hd. rewrite app_nil_r in Hd. exact Hd. }
  assert (Bm : forall ms tail, (prefix_of m ++ part) ++ data = wire ms ++ tail -> incomplete tail -> Forall (fun m => zlen m < 2 ^ 32) ms ->
    after = before ++ map (fun m => (m, b)) ms).
  { intros ms tail E I F. assert (B3 : behaves handler ((es ++ mid) ++ [Data b data]) tail (forallb (fun m => o_true (handler m b)) ms) (before ++ map (fun m => (m, b)) ms)).
    { eapply B_data; eauto. apply Forall_forall. intros x _. rewrite HT. discriminate. }
    rewrite <- app_assoc in B3. destruct (C87_behaves nl handler _ Hb) as (held' & B4).
    destruct (C87_one_behaviour _ _ _ _ _ _ _ _ B3 B4) as (_ & _ & E'). unfold after. symmetry. exact E'. }
  rewrite <- app_assoc in Bm. split.
  - intros L. rewrite (Bm [] (prefix_of m ++ part ++ data) eq_refl); [apply app_nil_r| |constructor].
    rewrite prefix_hdr. apply incomplete_body; [pose proof (zlen_nonneg m); lia|]. rewrite zlen_app. exact L.
  - intros L. set (k := Z.to_nat (zlen m - zlen part)).
    set (m' := part ++ firstn k data).
    assert (Lm : zlen m' = zlen m) by (unfold m', k; rewrite zlen_app; unfold zlen in *; rewrite firstn_length; lia).
    assert (E' : prefix_of m ++ part ++ data = frame m' ++ skipn k data).
    { rewrite frame_hdr, prefix_hdr, Lm, <- app_assoc. unfold m'. rewrite <- app_assoc, firstn_skipn. reflexivity. }
    assert (Bk : is_bytes (skipn k data)) by (rewrite <- (firstn_skipn k data) in Bd; rewrite !bytes_app in Bd; tauto).
    destruct (process_spec nl all (mkMproc [] true 0) (skipn k data)) as (ms & q & e & _ & _ & _ & O); [constructor|left; reflexivity|exact Bk|].
    destruct O as [(_ & H1 & H2 & H3 & _)|(ms0 & x & r & _ & _ & _ & _ & _ & _ & Q')]; [|discriminate]. cbn [held_of m_header m_buf app] in H1.
    exists (map (fun m => (m, b)) ms). rewrite (Bm (m' :: ms) (held_of q)); [reflexivity| |exact H2|constructor; [lia|exact H3]].
    rewrite E', wire_cons, <- app_assoc. f_equal. exact H1.
Qed.
Print Assumptions C87_cut_message.

(** So a message of a new session, or of another sender, need not be processed as sent:
    after any cut within a body, a complete message that follows is lost or comes out
    as other bytes (with another length, when the lengths differ). *)
Theorem C87_new_session_refuted :
  forall {A} nl (handler : list Z -> A -> outcome) (a b : A) m k m2,
  (forall m a, handler m a = RTrue) -> is_bytes m -> is_bytes m2 -> zlen m < 2 ^ 32 -> zlen m2 < 2 ^ 32 ->
  0 <= k < zlen m -> zlen m2 <> zlen m ->
  let es := [Data a (firstn (4 + Z.to_nat k) (frame m)); Restart; Data b (frame m2)] in
  forall x log, mc_log (run nl handler mc_init es) <> (m2, x) :: log.
Proof.
  intros A nl handler a b m k m2 HT Bm B2 Hm H2 Hk Hne es x log.
  assert (Ef : firstn (4 + Z.to_nat k) (frame m) = prefix_of m ++ firstn (Z.to_nat k) m) by reflexivity.
  assert (Bf : forall y, is_bytes y -> is_bytes (frame y)).
  { intros y By. rewrite frame_hdr. apply bytes_app. split; [|exact By]. repeat constructor; unfold is_byte; apply Z.mod_pos_bound; lia. }
  assert (Bfn : forall n y, is_bytes y -> is_bytes (firstn n y)).
  { intros n y By. rewrite <- (firstn_skipn n y) in By. apply bytes_app in By. tauto. }
  assert (Lk : zlen (firstn (Z.to_nat k) m) = k) by (unfold zlen in *; rewrite firstn_length; lia).
  destruct (C87_cut_message nl handler [Data a (firstn (4 + Z.to_nat k) (frame m))] [Restart] [] m (firstn (Z.to_nat k) m) b (frame m2)) as (Q0 & Q1 & Q2); auto.
  - unfold bytes_only, arrived. cbn [app map List.concat]. rewrite app_nil_r. apply bytes_app. auto.
  - unfold arrived. cbn [map List.concat]. rewrite app_nil_r. exact Ef.
  - lia.
  - intros e [<-|[]]; reflexivity.
  - unfold es. cbn [app] in *. apply map_eq_nil in Q0.
    destruct (Z.ltb_spec (zlen (firstn (Z.to_nat k) m) + zlen (frame m2)) (zlen m)) as [L|L].
    + rewrite Q1, Q0 by exact L. discriminate.
    + destruct (Q2 L) as (more & ->). rewrite Q0. cbn [app]. intros E. injection E as E _ _.
      apply (f_equal zlen) in E. rewrite zlen_app, Lk in E. unfold zlen at 1 in E. rewrite firstn_length in E. rewrite Lk in L. unfold zlen in *. lia.
Qed.
Print Assumptions C87_new_session_refuted.

(** A result of false: the other messages of the chunk are still processed, then
    nothing until the connection restarts. *)
Theorem C87_false_finishes_chunk :
  forall {A} nl (handler : list Z -> A -> outcome) es a data ignored,
  bytes_only (es ++ [Data a data]) -> (forall m a, handler m a <> RRaise) ->
  (forall e, In e ignored -> e <> Restart) ->
  let s := run nl handler mc_init es in
  let s' := run nl handler mc_init (es ++ [Data a data]) in
  mc_on s = true ->
  exists ms, mc_log s' = mc_log s ++ map (fun m => (m, a)) ms /\
    mc_on s' = forallb (fun m => o_true (handler m a)) ms /\
    (exists held tail, behaves handler es held true (mc_log s) /\ held ++ data = wire ms ++ tail /\ incomplete tail) /\
    (mc_on s' = false -> run nl handler mc_init (es ++ [Data a data] ++ ignored) = s').
Proof.
  intros A nl handler es a data ignored Hb HN Hi s s' On.
  assert (Hb1 : is_bytes (arrived es) /\ is_bytes data).
  { unfold bytes_only in Hb. rewrite arrived_app in Hb. unfold arrived at 2 in Hb. cbn [map List.concat] in Hb. rewrite app_nil_r in Hb. apply bytes_app in Hb. tauto. }
  destruct (C87_inv nl handler es (proj1 Hb1)) as (B & W & H). fold s in B, W, H. rewrite On in H.
  destruct (process_spec nl (fun m => o_stays (handler m a)) (mc_proc s) data B W (proj2 Hb1)) as (ms & q & e & E & _ & _ & O).
  assert (Es : s' = process_binary nl handler s a data).
  { unfold s'. rewrite run_app. fold s. cbn [run fold_left step]. rewrite On. reflexivity. }
  unfold process_binary in Es. rewrite E in Es.
  destruct O as [(-> & H1 & H2 & H3 & H4)|(ms0 & m & rest & -> & -> & _ & _ & _ & _ & H5)].
  - exists ms. rewrite Es. cbn [mc_log mc_on]. split; [reflexivity|]. split; [reflexivity|]. split; [eauto|].
    intros Off. rewrite app_assoc, run_app. change (run nl handler mc_init (es ++ [Data a data])) with s'. rewrite <- Es.
    assert (Off' : mc_on s' = false) by (rewrite Es; exact Off). clear - Hi Off'.
    induction ignored as [|e ig IH]; [reflexivity|]. cbn [run fold_left]. destruct e as [b d|]; [|exfalso; apply (Hi Restart); [left|]; reflexivity].
    cbn [step]. rewrite Off'. apply IH. intros e' He'. apply Hi. right. exact He'.
  - exfalso. destruct (handler m a) eqn:Q; cbn in H5; try discriminate. apply (HN m a Q).
Qed.
Print Assumptions C87_false_finishes_chunk.

(** An exception in the handling of a message of n bytes (text that is not UTF-8, for a
    string connection): after the restart the next n bytes count as one message, although
    the sender starts a new one. *)
Theorem C87_exception_misaligns_refuted :
  forall {A} nl (handler : list Z -> A -> outcome) (a b : A) m m2,
  handler m a = RRaise -> is_bytes m -> is_bytes m2 -> zlen m < 2 ^ 32 -> zlen m2 < 2 ^ 32 -> zlen m <= 4 + zlen m2 ->
  exists more, mc_log (run nl handler mc_init [Data a (frame m); Restart; Data b (frame m2)])
    = (m, a) :: (firstn (Z.to_nat (zlen m)) (frame m2), b) :: more.
Proof.
  intros A nl handler a b m m2 HR Bm B2 Hm H2 HL.
  assert (Bf : forall y, is_bytes y -> is_bytes (frame y)).
  { intros y By. rewrite frame_hdr. apply bytes_app. split; [|exact By]. repeat constructor; unfold is_byte; apply Z.mod_pos_bound; lia. }
  assert (Hb : bytes_only [Data a (frame m); Restart; Data b (frame m2)]).
  { unfold bytes_only, arrived. cbn [map List.concat app]. rewrite app_nil_r. apply bytes_app. auto. }
  destruct (C87_behaves nl handler _ Hb) as (held & B).
  assert (B1 : behaves handler [Data a (frame m)] (prefix_of m ++ []) false [(m, a)]).
  { apply (B_raise handler [] [] [] a (frame m) [] m []); [constructor| |constructor; [exact Hm|constructor]|constructor|exact HR]. cbn [app]. rewrite wire_cons. change (wire []) with (@nil Z). rewrite !app_nil_r. reflexivity. }
  rewrite app_nil_r in B1.
  assert (B2' : behaves handler [Data a (frame m); Restart] (prefix_of m) true [(m, a)]) by (apply (B_restart handler [Data a (frame m)] _ false), B1).
  set (y := firstn (Z.to_nat (zlen m)) (frame m2)) in *. set (r := skipn (Z.to_nat (zlen m)) (frame m2)).
  assert (Ly : zlen y = zlen m) by (unfold y; pose proof (frame_length m2); unfold zlen in *; rewrite firstn_length; lia).
  assert (Ey : prefix_of m ++ frame m2 = frame y ++ r).
  { rewrite (frame_hdr y), Ly, prefix_hdr, <- app_assoc. unfold y, r. rewrite firstn_skipn. reflexivity. }
  assert (Br : is_bytes r) by (pose proof (Bf m2 B2) as Q; rewrite <- (firstn_skipn (Z.to_nat (zlen m)) (frame m2)) in Q; apply bytes_app in Q; tauto).
  destruct (handler y b) eqn:Hy.
  3:{ assert (B3 : behaves handler ([Data a (frame m); Restart] ++ [Data b (frame m2)]) (prefix_of y ++ r) false ([(m, a)] ++ map (fun m => (m, b)) ([] ++ [y]))).
      { eapply B_raise; eauto; [|constructor; [lia|constructor]]. cbn [app]. rewrite wire_cons. change (wire []) with (@nil Z). rewrite app_nil_r. exact Ey. }
      destruct (C87_one_behaviour _ _ _ _ _ _ _ _ B3 B) as (_ & _ & <-). exists []. reflexivity. }
  all: destruct (process_spec nl (fun m => o_stays (handler m b)) (mkMproc [] true 0) r) as (ms & q & e & _ & _ & _ & O); [constructor|left; reflexivity|exact Br|];
    destruct O as [(_ & H1 & H2' & H3 & H4)|(ms0 & x & r' & -> & _ & H1 & _ & H3 & H4 & H5)]; cbn [held_of m_header m_buf app] in H1.
  1,3: assert (B3 : behaves handler ([Data a (frame m); Restart] ++ [Data b (frame m2)]) (held_of q) (forallb (fun m => o_true (handler m b)) (y :: ms)) ([(m, a)] ++ map (fun m => (m, b)) (y :: ms)))
         by (eapply B_data; eauto; [rewrite Ey, wire_cons, <- app_assoc; f_equal; exact H1|constructor; [lia|exact H3]|
              constructor; [congruence|]; eapply Forall_impl; [|exact H4]; intros z; cbn beta; apply stays_raise]);
       destruct (C87_one_behaviour _ _ _ _ _ _ _ _ B3 B) as (_ & _ & <-); eexists; reflexivity.
  all: assert (B3 : behaves handler ([Data a (frame m); Restart] ++ [Data b (frame m2)]) (prefix_of x ++ r') false ([(m, a)] ++ map (fun m => (m, b)) ((y :: ms0) ++ [x])))
         by (eapply B_raise; eauto; [rewrite Ey; cbn [app]; rewrite wire_cons, <- app_assoc; f_equal; exact H1|constructor; [lia|exact H3]|
              constructor; [congruence|]; eapply Forall_impl; [|exact H4]; intros z; cbn beta; apply stays_raise|destruct (handler x b); cbn in H5; congruence]);
       destruct (C87_one_behaviour _ _ _ _ _ _ _ _ B3 B) as (_ & _ & <-); eexists; reflexivity.
Qed.
Print Assumptions C87_exception_misaligns_refuted.

(** What is sent is one frame for each message, so an echo connection answers each
    message, to its sender, with the bytes of one message that is the same. *)
Theorem C87_echo :
  forall {A} nl (log : list (list Z * A)), Forall (fun e => zlen (fst e) < 2 ^ 32) log ->
  echo_sent nl log = map (fun e => (Some (frame (fst e)), snd e)) log.
Proof.
  intros A nl log F. unfold echo_sent. apply map_ext_in. intros e He. unfold send_message.
  rewrite Forall_forall in F. rewrite C22_encode_is_frame; [reflexivity|]. apply F, He.
Qed.
Print Assumptions C87_echo.

(** Texts sent to a string connection, one unit for each, by any senders: each reaches
    [process_message] as it was sent. *)
Theorem C87_strings :
  forall {A} nl (texts : list (A * list Z)),
  (forall a t, In (a, t) texts -> Forall is_scalar t /\ (exists u, utf8_encode t = Some u /\ zlen u < 2 ^ 32)) ->
  exists units, map (fun x => send_message_str nl (snd x)) texts = map Some units /\
  map (fun e => (snd e, utf8_decode (fst e)))
      (mc_log (run nl (string_handler (fun _ _ => RTrue)) mc_init (map (fun x => Data (fst x) (snd x)) (combine (map fst texts) units))))
  = map (fun x => (fst x, Some (snd x))) texts.
Proof.
  intros A nl texts K.
  assert (P : exists us, Forall2 (fun (x : A * list Z) u => utf8_encode (snd x) = Some u /\ zlen u < 2 ^ 32 /\ is_bytes u /\ utf8_decode u = Some (snd x)) texts us).
  { induction texts as [|[a t] texts IH]; [exists []; constructor|]. destruct IH as (us & Hu). { intros a' t' H. apply (K a' t'). right. exact H. }
    destruct (K a t) as (Sc & u & Eu & Lu); [left; reflexivity|]. exists (u :: us). constructor; [|exact Hu]. cbn [snd].
    split; [exact Eu|]. split; [exact Lu|]. split; [eapply utf8_is_bytes; eauto|eapply utf8_roundtrip; eauto]. }
  destruct P as (us & P). exists (map frame us). split.
  - clear K. induction P as [|x u texts us (E & L & _) P IH]; [reflexivity|]. cbn [map]. rewrite IH. f_equal.
    unfold send_message_str, send_message. rewrite E. apply C22_encode_is_frame, L.
  - set (h := string_handler (fun _ _ => RTrue)).
    assert (B : behaves h (map (fun x => Data (fst x) (snd x)) (combine (map fst texts) (map frame us))) [] true (combine us (map fst texts))
        /\ bytes_only (map (fun x => Data (fst x) (snd x)) (combine (map fst texts) (map frame us)))).
    { clear K. revert P. revert us. induction texts as [|x texts IH] using rev_ind; intros us P.
      - inversion P; subst. split; constructor.
      - apply Forall2_app_inv_l in P as (us1 & us2 & P1 & P2 & ->). inversion P2 as [|? u ? ? (E & L & Bu & D) P3]; subst. inversion P3; subst.
        destruct (IH _ P1) as [B Hb]. assert (Ln : List.length texts = List.length us1) by (clear - P1; induction P1; cbn; congruence). rewrite !map_app. cbn [map].
        assert (Cb : forall {X Y} (l1 l3 : list X) (l2 l4 : list Y), List.length l1 = List.length l2 -> combine (l1 ++ l3) (l2 ++ l4) = combine l1 l2 ++ combine l3 l4).
        { clear. intros X Y. induction l1 as [|p l1 IHl]; intros l3 [|q l2] l4 Q; cbn in *; try discriminate; [reflexivity|]. rewrite IHl by lia. reflexivity. }
        rewrite !Cb by (rewrite ?map_length; lia). rewrite map_app. cbn [combine map fst snd]. split.
        + replace true with (forallb (fun m => o_true (h m (fst x))) [u]) by (cbn [forallb]; unfold h, string_handler; rewrite D; reflexivity).
          change [(u, fst x)] with (map (fun m => (m, fst x)) [u]). eapply B_data; [exact B|cbn [app]; rewrite wire_cons; change (wire []) with (@nil Z); rewrite !app_nil_r; reflexivity|apply incomplete_short; cbn; lia|..].
          * constructor; [exact L|constructor].
          * constructor; [|constructor]. unfold h, string_handler. rewrite D. discriminate.
        + unfold bytes_only. rewrite arrived_app. apply bytes_app. split; [exact Hb|]. unfold arrived. cbn [map List.concat]. rewrite app_nil_r, frame_hdr.
          apply bytes_app. split; [|exact Bu]. repeat constructor; unfold is_byte; apply Z.mod_pos_bound; lia. }
    destruct B as [B' Hb]. destruct (C87_behaves nl h _ Hb) as (held & B2).
    destruct (C87_one_behaviour _ _ _ _ _ _ _ _ B' B2) as (_ & _ & <-). clear - P.
    induction P as [|x u texts us (E & L & _ & D) P IH]; [reflexivity|]. cbn [map combine fst snd]. rewrite D, IH. reflexivity.
Qed.
Print Assumptions C87_strings.

(** What [process_message] makes of the text decides whether the connection goes on. *)
Theorem C87_string_result :
  forall {A} nl (on_text : list Z -> A -> outcome) a t u, Forall is_scalar t -> send_message_str nl t = Some u -> zlen u < 2 ^ 32 ->
  mc_on (run nl (string_handler on_text) mc_init [Data a u]) = o_true (on_text t a).
Proof.
  intros A nl on_text a t u Sc E L. unfold send_message_str in E. destruct (utf8_encode t) as [b|] eqn:Eb; [|discriminate].
  pose proof (utf8_roundtrip t b Sc Eb) as D. pose proof (utf8_is_bytes t b Sc Eb) as Bb.
  assert (Lb : zlen b < 2 ^ 32).
  { unfold send_message, m_encode in E. destruct (k_encode _ _ _ _) as [h|]; [|discriminate]. injection E as <-. rewrite zlen_app in L. pose proof (zlen_nonneg h). lia. }
  unfold send_message in E. rewrite (C22_encode_is_frame nl b Lb) in E. injection E as <-.
  assert (Hb : bytes_only [Data a (frame b)]).
  { unfold bytes_only, arrived. cbn [map List.concat]. rewrite app_nil_r, frame_hdr. apply bytes_app. split; [|exact Bb].
    repeat constructor; unfold is_byte; apply Z.mod_pos_bound; lia. }
  set (h := string_handler on_text). destruct (C87_behaves nl h _ Hb) as (held & B2).
  assert (Eh : h b a = on_text t a) by (unfold h, string_handler; rewrite D; reflexivity).
  assert (Ew : [] ++ frame b = wire [b] ++ []) by (rewrite wire_cons; change (wire []) with (@nil Z); rewrite !app_nil_r; reflexivity).
  destruct (on_text t a) eqn:Et.
  3:{ assert (B3 : behaves h ([] ++ [Data a (frame b)]) (prefix_of b ++ []) false ([] ++ map (fun m => (m, a)) ([] ++ [b]))).
      { eapply B_raise; [constructor|exact Ew|constructor; [exact Lb|constructor]|constructor|exact Eh]. }
      destruct (C87_one_behaviour _ _ _ _ _ _ _ _ B3 B2) as (_ & <- & _). reflexivity. }
  all: assert (B3 : behaves h ([] ++ [Data a (frame b)]) [] (forallb (fun m => o_true (h m a)) [b]) ([] ++ map (fun m => (m, a)) [b]))
      by (eapply B_data; [constructor|exact Ew|apply incomplete_short; cbn; lia|constructor; [exact Lb|constructor]|constructor; [congruence|constructor]]);
    destruct (C87_one_behaviour _ _ _ _ _ _ _ _ B3 B2) as (_ & <- & _); cbn [forallb]; rewrite Eh; reflexivity.
Qed.
Print Assumptions C87_string_result.

(** A message that is not UTF-8 ends the reading of a string connection, and the text
    sent after a restart is misread. *)
Theorem C87_not_text_refuted :
  forall {A} nl (on_text : list Z -> A -> outcome) (a b : A) m m2,
  utf8_decode m = None -> is_bytes m -> is_bytes m2 -> zlen m < 2 ^ 32 -> zlen m2 < 2 ^ 32 -> zlen m <= 4 + zlen m2 ->
  mc_on (run nl (string_handler on_text) mc_init [Data a (frame m)]) = false /\
  exists more, mc_log (run nl (string_handler on_text) mc_init [Data a (frame m); Restart; Data b (frame m2)])
    = (m, a) :: (firstn (Z.to_nat (zlen m)) (frame m2), b) :: more.
Proof.
  intros A nl on_text a b m m2 D Bm B2 Hm H2 HL.
  assert (R : string_handler on_text m a = RRaise) by (unfold string_handler; rewrite D; reflexivity).
  split; [|apply C87_exception_misaligns_refuted; assumption].
  assert (Hb : bytes_only [Data a (frame m)]).
  { unfold bytes_only, arrived. cbn [map List.concat]. rewrite app_nil_r, frame_hdr. apply bytes_app. split; [|exact Bm].
    repeat constructor; unfold is_byte; apply Z.mod_pos_bound; lia. }
  destruct (C87_behaves nl (string_handler on_text) _ Hb) as (held & B).
  assert (B3 : behaves (string_handler on_text) ([] ++ [Data a (frame m)]) (prefix_of m ++ []) false ([] ++ map (fun m => (m, a)) ([] ++ [m]))).
  { eapply B_raise; [constructor| |constructor; [exact Hm|constructor]|constructor|exact R].
    cbn [app]. rewrite wire_cons. change (wire []) with (@nil Z). rewrite !app_nil_r. reflexivity. }
  destruct (C87_one_behaviour _ _ _ _ _ _ _ _ B3 B) as (_ & <- & _). reflexivity.
Qed.
Print Assumptions C87_not_text_refuted.

(** Concrete cases. *)
Example C87_example_text :
  let h := string_handler (fun s (_ : Z) => match s with [233] => RFalse | _ => RTrue end) in
  utf8_encode [233] = Some [195; 169] /\ mc_on (run true h mc_init [Data 1 (frame [195; 169])]) = false /\
  mc_on (run true h mc_init [Data 1 (frame [65])]) = true.
Proof. vm_compute. auto. Qed.
Definition ok (m : list Z) (a : Z) : outcome := RTrue.
Example C87_example_mixed :
  mc_log (run true ok mc_init [Data 1 (wire [[65]; []]); Data 2 (wire [[66; 67]]); Restart; Data 1 (wire [[68]])])
  = [([65], 1); ([], 1); ([66; 67], 2); ([68], 1)].
Proof. vm_compute. reflexivity. Qed.
Example C87_example_cut :
  mc_log (run true ok mc_init [Data 1 [0; 0; 0; 6; 65; 66]; Restart; Data 2 (frame [67; 68; 69; 70])])
  = [([65; 66; 0; 0; 0; 4], 2)].
Proof. vm_compute. reflexivity. Qed.
Example C87_example_false :
  let h := fun (m : list Z) (_ : Z) => if Z.eqb (zlen m) 2 then RFalse else RTrue in
  let s := run true h mc_init [Data 1 (wire [[65; 66]; [67]]); Data 1 (wire [[68]])] in
  mc_log s = [([65; 66], 1); ([67], 1)] /\ mc_on s = false.
Proof. vm_compute. auto. Qed.
Example C87_example_raise :
  mc_log (run true (string_handler (fun _ (_ : Z) => RTrue)) mc_init [Data 1 (frame [255; 255]); Restart; Data 1 (frame [72; 105])])
  = [([255; 255], 1); ([0; 0], 1)].
Proof. vm_compute. reflexivity. Qed.
