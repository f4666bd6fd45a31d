(** Lemmas for channel events. *)
From Coq Require Import ZifyBool ZifyNat.
From Verif Require Import Base BaseLemmas PrimModel PrimSpec PrimProofs FifoModel MessageProofs
  EventModel EventSpec.

Lemma big_endian_snoc n : forall v, big_endian (S n) v = big_endian n (v / 256) ++ [v mod 256].
Proof.
  induction n as [|n IH]; intros v.
  - cbn. rewrite Z.div_1_r. reflexivity.
  - cbn [big_endian app] in *. rewrite (IH v). f_equal.
    rewrite Z.div_div by lia. do 2 f_equal.
    rewrite Nat2Z.inj_succ, Z.pow_succ_r by lia. reflexivity.
Qed.
Lemma rev_le_bytes n : forall v, rev (le_bytes n v) = big_endian n v.
Proof.
  induction n as [|n IH]; intros v; [reflexivity|].
  rewrite big_endian_snoc. cbn [le_bytes rev]. rewrite IH. reflexivity.
Qed.
Lemma big_endian_length n : forall v, List.length (big_endian n v) = n.
Proof. induction n as [|n IH]; intros v; cbn; [|rewrite IH]; reflexivity. Qed.
Lemma zlen_big_endian n v : zlen (big_endian n v) = Z.of_nat n.
Proof. unfold zlen. rewrite big_endian_length. reflexivity. Qed.
Lemma size_wire k : k_size k = wire_size k.
Proof. destruct k; reflexivity. Qed.

Lemma encode_network nl k v : k_value k v ->
  k_encode nl k default_byte_order v = Some (big_endian (wire_size k) v).
Proof.
  intros H. unfold default_byte_order. rewrite (encode_some _ _ _ _ H).
  unfold order_bytes; cbn [is_le]. rewrite rev_le_bytes, size_wire. reflexivity.
Qed.
Lemma decode_network nl k v : k_value k v ->
  k_decode nl k default_byte_order (big_endian (wire_size k) v) = Some v.
Proof. intros H. eapply decode_encode; [exact H|]. apply encode_network, H. Qed.

Lemma header_bytes nl i t : 0 <= i < 2 ^ 16 -> 0 <= t < 2 ^ 64 ->
  e_header nl i t = Some (big_endian 2 i ++ big_endian 8 t).
Proof.
  intros Hi Ht. unfold e_header.
  rewrite (store_id U16 i Hi), (store_id U64 t Ht).
  rewrite (encode_network nl U16 i Hi), (encode_network nl U64 t Ht). reflexivity.
Qed.

(** ** The writer. *)
Lemma poll_emits nl e w force :
  0 <= ev_id e < 2 ^ 16 -> 0 <= w_ts w < 2 ^ 64 -> k_value (w_kind w) (w_val w) ->
  ev_poll nl e w force =
    if force || (ev_min e <=? w_ts w - ev_prev e)
    then Some (mkEvent (ev_id e) (w_ts w) (ev_min e) (ev_streaming e),
               event_bytes (mkSent (ev_id e) "" (w_kind w) (w_ts w) (w_val w)))
    else Some (e, []).
Proof.
  intros Hi Ht Hv. unfold ev_poll. destruct (_ || _); [|reflexivity].
  rewrite header_bytes, encode_network by assumption.
  unfold event_bytes; cbn. reflexivity.
Qed.

(** ** The reader. *)
Section Reader.
  Context (nl : bool) (names : Z -> option string) (fields chans : string -> option kind).
  Context (Hf : fields "" = None) (Hc : chans "" = None).
  Notation loop := (x_loop nl names fields chans).
  Notation parse := (x_parse nl names fields chans).
  Notation feed := (x_feed nl names fields chans).
  Notation ok := (agreed names fields chans).

  Definition elen (e : sent) : Z := 10 + Z.of_nat (wire_size (s_kind e)).

  Lemma zlen_event e : zlen (event_bytes e) = elen e.
  Proof. unfold event_bytes, elen. rewrite !zlen_app, !zlen_big_endian. lia. Qed.
  Lemma elen_pos e : 11 <= elen e.
  Proof. unfold elen. destruct (s_kind e); cbn; lia. Qed.

  Lemma agreed_kind e : ok e -> x_kind fields chans (s_name e) = Some (s_kind e).
  Proof.
    intros (_ & H & _). unfold x_kind. destruct H as [->|[-> H]]; auto.
  Qed.

  Lemma turn_header fuel e i0 t0 name rest : ok e ->
    loop (S fuel) (mkParser ((big_endian 2 (s_id e) ++ big_endian 8 (s_ts e)) ++ rest) false i0 t0) name =
    loop fuel (mkParser rest true (s_id e) (s_ts e)) (s_name e).
  Proof.
    intros (Hn & _ & Hi & Ht & _). cbn [x_loop x_ready negb x_fifo].
    rewrite pop_exact by (rewrite zlen_app, !zlen_big_endian; reflexivity).
    change (k_size U16) with 2%nat.
    assert (E1 : firstn 2 (big_endian 2 (s_id e) ++ big_endian 8 (s_ts e)) = big_endian 2 (s_id e))
      by reflexivity.
    assert (E2 : skipn 2 (big_endian 2 (s_id e) ++ big_endian 8 (s_ts e)) = big_endian 8 (s_ts e))
      by reflexivity.
    rewrite E1, E2.
    pose proof (decode_network nl U16 (s_id e) Hi) as D1.
    pose proof (decode_network nl U64 (s_ts e) Ht) as D2.
    cbn [wire_size] in D1, D2. rewrite D1, D2, Hn. reflexivity.
  Qed.

  Lemma turn_value fuel e rest : ok e ->
    loop (S fuel) (mkParser (big_endian (wire_size (s_kind e)) (s_val e) ++ rest) true (s_id e) (s_ts e))
      (s_name e) =
    let '(es, q, r) := loop fuel (mkParser rest false (s_id e) (s_ts e)) (s_name e) in
    (seen e :: es, q, r).
  Proof.
    intros H. cbn [x_loop x_ready negb x_fifo x_id x_ts]. rewrite (agreed_kind e H).
    rewrite pop_exact by (rewrite zlen_big_endian; destruct (s_kind e); reflexivity).
    destruct H as (_ & _ & _ & _ & Hv). rewrite (decode_network nl _ _ Hv). reflexivity.
  Qed.

  (** Where a call over complete events plus an incomplete tail ends. *)
  Lemma run_complete es : forall fuel i0 t0 name t,
    Forall ok es -> (2 * List.length es <= fuel)%nat ->
    exists i1 t1 nm,
      loop fuel (mkParser (event_stream es ++ t) false i0 t0) name =
      let '(r, q, b) := loop (fuel - 2 * List.length es) (mkParser t false i1 t1) nm in
      (map seen es ++ r, q, b).
  Proof.
    induction es as [|e es IH]; intros fuel i0 t0 name t H Hl.
    - exists i0, t0, name. cbn [event_stream map List.concat app List.length].
      replace (fuel - 2 * 0)%nat with fuel by lia.
      destruct (loop fuel _ _) as [[r q] b]. reflexivity.
    - inversion H as [|? ? He Hes]; subst. cbn [List.length] in Hl.
      destruct fuel as [|[|fuel]]; [lia|lia|].
      unfold event_stream; cbn [map List.concat]; fold (event_stream es).
      unfold event_bytes. rewrite <- !app_assoc. rewrite (app_assoc (big_endian 2 _)).
      rewrite turn_header by exact He. rewrite turn_value by exact He.
      destruct (IH fuel (s_id e) (s_ts e) (s_name e) t Hes ltac:(lia)) as (i1 & t1 & nm & E).
      exists i1, t1, nm. rewrite E. cbn [List.length].
      replace (S (S fuel) - 2 * S (List.length es))%nat with (fuel - 2 * List.length es)%nat by lia.
      destruct (loop (fuel - _) _ _) as [[r q] b]. reflexivity.
  Qed.

  Lemma events_in_split es : forall n w rest,
    event_stream es = w ++ rest -> zlen w = n ->
    exists es2 t, es = events_in n es ++ es2 /\ w = event_stream (events_in n es) ++ t /\
      event_stream es2 = t ++ rest /\
      inside_value n es = (10 <=? zlen t) /\
      match es2 with [] => t = [] | e :: _ => zlen t < elen e end.
  Proof.
    induction es as [|e es IH]; intros n w rest E Hn.
    - exists [], []. symmetry in E. apply app_eq_nil in E as [-> ->]. cbn. auto.
    - cbn [events_in inside_value]. unfold event_stream in E. cbn [map List.concat] in E.
      fold (event_stream es) in E. fold (elen e).
      destruct (Z.leb_spec (elen e) n) as [Hle|Hlt].
      + pose proof (zlen_event e) as L.
        assert (Hw : w = event_bytes e ++ skipn (List.length (event_bytes e)) w).
        { rewrite <- (firstn_skipn (List.length (event_bytes e)) w) at 1. f_equal.
          pose proof (f_equal (firstn (List.length (event_bytes e))) E) as F.
          rewrite firstn_app, Nat.sub_diag, firstn_all in F. cbn [firstn] in F.
          rewrite app_nil_r in F. rewrite F at 2. rewrite firstn_app.
          replace (List.length (event_bytes e) - List.length w)%nat with 0%nat by (unfold zlen in *; lia).
          cbn [firstn]. rewrite app_nil_r. reflexivity. }
        remember (skipn (List.length (event_bytes e)) w) as w' eqn:Ew'. clear Ew'. subst w.
        rewrite <- app_assoc in E. apply app_inv_head in E. rewrite zlen_app in Hn.
        destruct (IH (n - elen e) w' rest E ltac:(lia)) as (es2 & t & E1 & E2 & E3 & E4 & E5).
        exists es2, t. split; [cbn [app]; rewrite E1 at 1; reflexivity|].
        split; [rewrite E2 at 1; unfold event_stream; cbn [map List.concat]; apply app_assoc|].
        auto.
      + exists (e :: es), w. subst n. split; [reflexivity|]. split; [reflexivity|].
        split; [exact E|]. split; [reflexivity|exact Hlt].
  Qed.

  (** The incomplete tail: left in the buffer when the header is incomplete,
      header taken otherwise. *)
  Lemma run_tail fuel es2 t rest i0 t0 nm : Forall ok es2 ->
    event_stream es2 = t ++ rest ->
    match es2 with [] => t = [] | e :: _ => zlen t < elen e end -> (2 <= fuel)%nat ->
    (zlen t < 10 -> loop fuel (mkParser t false i0 t0) nm = ([], mkParser t false i0 t0, false)) /\
    (10 <= zlen t -> exists q, loop fuel (mkParser t false i0 t0) nm = ([], q, false) /\
        x_ready q = true).
  Proof.
    intros Ho E Hlen Hfu. destruct fuel as [|[|fuel]]; [lia|lia|]. split; intros Ht.
    - cbn [x_loop x_ready negb x_fifo].
      rewrite (proj2 (pop_none e_header_size t)) by exact Ht. reflexivity.
    - destruct es2 as [|e es2]; [subst t; cbn in Ht; lia|].
      inversion Ho as [|? ? He _]; subst.
      set (h := big_endian 2 (s_id e) ++ big_endian 8 (s_ts e)).
      assert (Lh : List.length h = 10%nat) by reflexivity.
      set (v := skipn 10 t).
      assert (Et : t = h ++ v).
      { unfold v. rewrite <- (firstn_skipn 10 t) at 1. f_equal.
        pose proof (f_equal (firstn 10) E) as F.
        unfold event_stream in F. cbn [map List.concat] in F. unfold event_bytes in F.
        rewrite <- !app_assoc, (app_assoc (big_endian 2 _)) in F. fold h in F.
        rewrite firstn_app, Lh, Nat.sub_diag, <- Lh, firstn_all in F. cbn [firstn] in F.
        rewrite app_nil_r in F. rewrite F, Lh, firstn_app.
        replace (10 - List.length t)%nat with 0%nat by (unfold zlen in Ht; lia).
        cbn [firstn]. rewrite app_nil_r. reflexivity. }
      rewrite Et. unfold h. rewrite turn_header by exact He.
      exists (mkParser v true (s_id e) (s_ts e)). split; [|reflexivity].
      cbn [x_loop x_ready negb x_fifo]. rewrite (agreed_kind e He).
      assert (Lv : zlen v < Z.of_nat (k_size (s_kind e))).
      { rewrite Et, zlen_app in Hlen. unfold zlen in Hlen at 1. rewrite Lh in Hlen.
        unfold elen in Hlen. rewrite size_wire. lia. }
      rewrite (proj2 (pop_none _ v)) by exact Lv. reflexivity.
  Qed.

  Lemma stream_length es : Forall ok es -> (2 * List.length es <= List.length (event_stream es))%nat.
  Proof.
    induction 1 as [|e es He _ IH]; [cbn; lia|].
    unfold event_stream; cbn [map List.concat List.length]; fold (event_stream es).
    rewrite app_length. pose proof (zlen_event e). pose proof (elen_pos e).
    unfold zlen in *. lia.
  Qed.

  Lemma in_sub n es : Forall ok es -> Forall ok (events_in n es).
  Proof.
    intros H. revert n. induction H; intros n; cbn [events_in]; [constructor|].
    destruct (_ <=? _); constructor; auto.
  Qed.

  (** One call, starting with an incomplete header buffered. *)
  Lemma parse_step es t0 i0 ts0 c rest :
    Forall ok es -> event_stream es = (t0 ++ c) ++ rest ->
    let n := zlen (t0 ++ c) in
    exists es2 t q,
      es = events_in n es ++ es2 /\
      t0 ++ c = event_stream (events_in n es) ++ t /\
      event_stream es2 = t ++ rest /\
      match es2 with [] => t = [] | e :: _ => zlen t < elen e end /\
      parse (mkParser t0 false i0 ts0) c = (map seen (events_in n es), q, false) /\
      inside_value n es = x_ready q /\
      (x_ready q = false -> x_fifo q = t) /\ (x_ready q = true -> es2 <> []).
  Proof.
    intros Ho E n.
    destruct (events_in_split es n (t0 ++ c) rest E eq_refl) as (es2 & t & E1 & E2 & E3 & E4 & E5).
    pose proof (in_sub n es Ho) as Ho1.
    assert (Ho2 : Forall ok es2).
    { rewrite E1 in Ho. apply Forall_app in Ho. tauto. }
    set (es1 := events_in n es) in *. clearbody es1.
    exists es2, t. unfold x_parse. cbn [x_fifo x_ready x_id x_ts].
    pose proof (stream_length es1 Ho1) as SL.
    assert (F2 : (2 * List.length es1 <= List.length (t0 ++ c) + 2)%nat).
    { rewrite E2, app_length. lia. }
    destruct (run_complete es1 (List.length (t0 ++ c) + 2) i0 ts0 "" t Ho1 F2) as (i1 & t1 & nm & R).
    rewrite <- E2 in R. rewrite R.
    (* there is fuel for two more turns *)
    assert (F3 : (2 <= List.length (t0 ++ c) + 2 - 2 * List.length es1)%nat).
    { assert (L1 : (11 * List.length es1 <= List.length (event_stream es1))%nat).
      { clear -es1. induction es1 as [|e es1 IH]; [cbn; lia|].
        unfold event_stream; cbn [map List.concat List.length]; fold (event_stream es1).
        rewrite app_length. pose proof (zlen_event e). pose proof (elen_pos e). unfold zlen in *. lia. }
      rewrite E2, app_length in *. lia. }
    destruct (run_tail (List.length (t0 ++ c) + 2 - 2 * List.length es1) es2 t rest i1 t1 nm Ho2 E3 E5 F3)
      as [Rs Rl].
    rewrite E4.
    destruct (Z.leb_spec 10 (zlen t)) as [Hb|Hb].
    - destruct (Rl Hb) as (q & Eq & Rq). exists q. rewrite Eq, app_nil_r.
      split; [exact E1|]. split; [exact E2|]. split; [exact E3|]. split; [exact E5|].
      split; [reflexivity|]. rewrite Rq. split; [reflexivity|]. split; [discriminate|].
      intros _ ->. subst t. cbn in Hb. lia.
    - exists (mkParser t false i1 t1). rewrite (Rs Hb), app_nil_r.
      split; [exact E1|]. split; [exact E2|]. split; [exact E3|]. split; [exact E5|].
      split; [reflexivity|]. cbn. split; [reflexivity|]. split; [auto|discriminate].
  Qed.

  (** A call that starts with a header taken delivers nothing, whatever
      arrives; this is for ever. *)
  Lemma parse_stuck p d : x_ready p = true ->
    exists q, parse p d = ([], q, false) /\ x_ready q = true.
  Proof.
    intros H. unfold x_parse. cbn [x_fifo]. rewrite Nat.add_comm. cbn [Nat.add x_loop x_ready].
    rewrite H; cbn [negb]. unfold x_kind. rewrite Hf, Hc. eexists. split; [reflexivity|reflexivity].
  Qed.
  Lemma feed_stuck chunks : forall p, x_ready p = true -> fst (feed p chunks) = [].
  Proof.
    induction chunks as [|c cs IH]; intros p H; [reflexivity|].
    cbn [x_feed]. destruct (parse_stuck p c H) as (q & -> & Hq).
    specialize (IH q Hq). destruct (feed q cs) as [r s]. cbn in *. exact IH.
  Qed.
End Reader.
