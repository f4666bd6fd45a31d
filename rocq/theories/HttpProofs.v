(** Lemmas for HTTP processing. *)
From Coq Require Import ZifyBool ZifyNat.
From Verif Require Import Base BaseLemmas PyStrModel PyStrProofs FifoModel MessageProofs
  HttpModel HttpSpec.

Section Stream.
  Context {H : Type} (parse : list str -> option H) (clen : H -> option Z).
  Notation service := (h_service parse).
  Notation turn_ := (h_turn parse clen).
  Notation loop := (h_loop parse clen).
  Notation ingest := (h_ingest parse clen).
  Notation feed := (h_feed parse clen).

  Lemma service_app buf : forall lines line d,
    service lines line (buf ++ d) =
    match service lines line buf with
    | SNone ls l => service ls l d
    | SHeader h l rest => SHeader h l (rest ++ d)
    | SRaise rest ls l => SRaise (rest ++ d) ls l
    end.
  Proof.
    induction buf as [|b buf IH]; intros lines line d; [reflexivity|].
    cbn [app h_service]. destruct (_ || _); [reflexivity|].
    destruct (b =? 10).
    - destruct line; [|apply IH]. destruct (parse lines); reflexivity.
    - destruct (b =? 13); apply IH.
  Qed.
  Lemma service_rest buf : forall lines line h l rest,
    service lines line buf = SHeader h l rest -> (List.length rest < List.length buf)%nat.
  Proof.
    induction buf as [|b buf IH]; intros lines line h l rest; cbn [h_service]; [discriminate|].
    cbn [List.length]. destruct (_ || _); [discriminate|].
    destruct (b =? 10).
    - destruct line.
      + destruct (parse lines); [|discriminate]. intros E; injection E as <- <- <-. lia.
      + intros E; apply IH in E. lia.
    - destruct (b =? 13); intros E; apply IH in E; lia.
  Qed.

  Lemma payload_app h lines line buf d :
    match h_payload clen h lines line buf with
    | HStop q => h_payload clen h lines line (buf ++ d) = h_payload clen h lines line (h_buf q ++ d) /\
        q = mkHproc buf lines line (Some h) /\ h_payload clen h lines line [] =
        HStop (mkHproc [] lines line (Some h))
    | HYield m q => h_payload clen h lines line (buf ++ d) = HYield m (h_add q d)
    | HRaise q => h_payload clen h lines line (buf ++ d) = HRaise (h_add q d)
    end.
  Proof.
    unfold h_payload. destruct (clen h) as [n|]; [|reflexivity].
    destruct ((n =? 0) || (n <=? zlen buf)) eqn:E.
    - assert (E' : (n =? 0) || (n <=? zlen (buf ++ d)) = true).
      { rewrite zlen_app. pose proof (zlen_nonneg d). lia. }
      destruct (0 <? n) eqn:P.
      + destruct (fifo_pop n buf) as [[a b]|] eqn:F.
        * rewrite E'. rewrite (pop_app n buf d a b ltac:(lia) F). reflexivity.
        * apply pop_none in F. lia.
      + rewrite E'. reflexivity.
    - cbn [h_buf]. split; [reflexivity|]. split; [reflexivity|].
      pose proof (zlen_nonneg buf). change (zlen (@nil Z)) with 0.
      destruct ((n =? 0) || (n <=? 0)) eqn:E2; [lia|reflexivity].
  Qed.

  Lemma payload_measure h lines line buf m q :
    h_payload clen h lines line buf = HYield m q ->
    (List.length (h_buf q) <= List.length buf)%nat /\ h_cur q = None.
  Proof.
    unfold h_payload. destruct (clen h) as [n|]; [|discriminate].
    destruct (_ || _); [|discriminate]. destruct (0 <? n) eqn:P.
    - destruct (fifo_pop n buf) as [[a b]|] eqn:F; [|discriminate].
      intros E; injection E as <- <-. cbn. apply pop_some in F as [-> _]; [|lia].
      rewrite app_length. split; [lia|reflexivity].
    - intros E; injection E as <- <-. cbn. auto.
  Qed.

  Definition meas (p : hproc H) : nat :=
    (2 * List.length (h_buf p) + match h_cur p with Some _ => 1 | None => 0 end)%nat.

  Lemma turn_nonempty p : h_buf p <> [] ->
    turn_ p =
    match h_cur p with
    | Some h => h_payload clen h (h_lines p) (h_line p) (h_buf p)
    | None =>
        match service (h_lines p) (h_line p) (h_buf p) with
        | SNone lines line => HStop (mkHproc [] lines line None)
        | SRaise rest lines line => HRaise (mkHproc rest lines line None)
        | SHeader h line rest => h_payload clen h [] line rest
        end
    end.
  Proof. unfold h_turn. destruct (h_buf p); [congruence|reflexivity]. Qed.
  Lemma turn_add p d : h_buf p <> [] ->
    turn_ (h_add p d) =
    match h_cur p with
    | Some h => h_payload clen h (h_lines p) (h_line p) (h_buf p ++ d)
    | None =>
        match service (h_lines p) (h_line p) (h_buf p ++ d) with
        | SNone lines line => HStop (mkHproc [] lines line None)
        | SRaise rest lines line => HRaise (mkHproc rest lines line None)
        | SHeader h line rest => h_payload clen h [] line rest
        end
    end.
  Proof. intros N. rewrite turn_nonempty; [reflexivity|]. cbn. destruct (h_buf p); [congruence|discriminate]. Qed.

  Lemma turn_yield p m q : turn_ p = HYield m q ->
    (meas q < meas p)%nat /\ forall d, turn_ (h_add p d) = HYield m (h_add q d).
  Proof.
    destruct (h_buf p) as [|b0 buf0] eqn:Eb; [unfold h_turn; rewrite Eb; discriminate|].
    assert (N : h_buf p <> []) by congruence. rewrite (turn_nonempty p N). unfold meas.
    destruct (h_cur p) as [h|] eqn:Ec.
    - intros E. pose proof (payload_measure _ _ _ _ _ _ E) as [M ->].
      split; [lia|]. intros d. rewrite (turn_add p d N), Ec.
      pose proof (payload_app h (h_lines p) (h_line p) (h_buf p) d) as A. rewrite E in A. exact A.
    - destruct (service _ _ _) as [|h l rest|] eqn:S; try discriminate.
      intros E. pose proof (payload_measure _ _ _ _ _ _ E) as [M ->].
      pose proof (service_rest _ _ _ _ _ _ S). split; [lia|].
      intros d. rewrite (turn_add p d N), Ec, service_app, S.
      pose proof (payload_app h [] l rest d) as A. rewrite E in A. exact A.
  Qed.

  Lemma turn_raise p q d : turn_ p = HRaise q -> turn_ (h_add p d) = HRaise (h_add q d).
  Proof.
    destruct (h_buf p) as [|b0 buf0] eqn:Eb; [unfold h_turn; rewrite Eb; discriminate|].
    assert (N : h_buf p <> []) by congruence. rewrite (turn_nonempty p N), (turn_add p d N).
    intros E. destruct (h_cur p) as [h|] eqn:Ec.
    - pose proof (payload_app h (h_lines p) (h_line p) (h_buf p) d) as A. rewrite E in A. exact A.
    - rewrite service_app. destruct (service _ _ _) as [|h l rest|rest ls l]; try discriminate.
      + pose proof (payload_app h [] l rest d) as A. rewrite E in A. exact A.
      + injection E as <-. reflexivity.
  Qed.

  Lemma turn_stop p q d : turn_ p = HStop q -> turn_ (h_add p d) = turn_ (h_add q d).
  Proof.
    destruct (h_buf p) as [|b0 buf0] eqn:Eb.
    - unfold h_turn at 1. rewrite Eb. intros E; injection E as <-. reflexivity.
    - assert (N : h_buf p <> []) by congruence. rewrite (turn_nonempty p N), (turn_add p d N).
      destruct (h_cur p) as [h|] eqn:Ec.
      + intros E. pose proof (payload_app h (h_lines p) (h_line p) (h_buf p) d) as A.
        rewrite E in A. destruct A as (_ & -> & _).
        rewrite turn_add by exact N. reflexivity.
      + rewrite service_app. destruct (service _ _ _) as [ls l|h l rest|] eqn:S; try discriminate.
        * intros E; injection E as <-.
          destruct d as [|d0 d]; [reflexivity|].
          rewrite turn_nonempty by discriminate. reflexivity.
        * intros E. pose proof (payload_app h [] l rest d) as A. rewrite E in A.
          destruct A as (_ & -> & A).
          unfold h_turn, h_add. cbn [h_buf h_cur h_lines h_line].
          destruct (rest ++ d) eqn:Er; [exact A|reflexivity].
  Qed.

  Lemma loop_fuel fuel : forall p, (meas p < fuel)%nat -> forall fuel', (meas p < fuel')%nat ->
    loop fuel p = loop fuel' p.
  Proof.
    induction fuel as [|fuel IH]; intros p L [|fuel'] L'; [lia|lia|lia|].
    cbn [h_loop]. destruct (turn_ p) as [q|m q|q] eqn:T; try reflexivity.
    pose proof (proj1 (turn_yield _ _ _ T)).
    rewrite (IH q ltac:(lia) fuel' ltac:(lia)). reflexivity.
  Qed.
  Lemma ingest_fuel p d fuel : (meas (h_add p d) < fuel)%nat -> ingest p d = loop fuel (h_add p d).
  Proof.
    intros L. unfold h_ingest. apply loop_fuel; [|exact L].
    unfold meas, h_fuel. destruct (h_cur _); lia.
  Qed.

  (** What a call leaves behind has nothing more to give. *)
  Lemma loop_add fuel : forall p d ms q e,
    (meas p < fuel)%nat -> loop fuel p = (ms, q, e) ->
    forall fuel', (meas (h_add p d) < fuel')%nat ->
    loop fuel' (h_add p d) =
    if e then (ms, h_add q d, true)
    else let '(ms', r, e') := loop (S (meas (h_add q d))) (h_add q d) in (ms ++ ms', r, e').
  Proof.
    induction fuel as [|fuel IH]; intros p d ms q e L E fuel' L'; [lia|].
    cbn [h_loop] in E. destruct fuel' as [|fuel']; [lia|].
    destruct (turn_ p) as [q0|m q0|q0] eqn:T.
    - injection E as <- <- <-.
      rewrite (loop_fuel (S fuel') (h_add p d) L' (S fuel' + S (meas (h_add q0 d))) ltac:(lia)).
      rewrite (loop_fuel (S (meas (h_add q0 d))) (h_add q0 d) ltac:(lia)
                 (S fuel' + S (meas (h_add q0 d))) ltac:(lia)).
      cbn [Nat.add h_loop]. rewrite (turn_stop p q0 d T).
      destruct (turn_ (h_add q0 d)) as [|m' q'|]; try reflexivity.
      destruct (loop _ q') as [[a b] c]. reflexivity.
    - destruct (loop fuel q0) as [[ms0 q1] e0] eqn:E0. injection E as <- <- <-.
      destruct (turn_yield _ _ _ T) as [M Ty].
      remember (S (meas (h_add q1 d))) as F eqn:EF. cbn [h_loop]. rewrite Ty. subst F.
      assert (M' : (meas (h_add q0 d) < meas (h_add p d))%nat).
      { pose proof (proj1 (turn_yield _ _ _ (Ty d))). exact H0. }
      rewrite (IH q0 d ms0 q1 e0 ltac:(lia) E0 fuel' ltac:(lia)).
      destruct e0; [reflexivity|].
      destruct (loop (S (meas (h_add q1 d))) (h_add q1 d)) as [[a b] c]. reflexivity.
    - injection E as <- <- <-. cbn [h_loop]. rewrite (turn_raise p q0 d T). reflexivity.
  Qed.

  Lemma add_add (p : hproc H) a b : h_add (h_add p a) b = h_add p (a ++ b).
  Proof. unfold h_add. cbn. rewrite app_assoc. reflexivity. Qed.

  Lemma ingest_app p a b ms q e : ingest p a = (ms, q, e) ->
    ingest p (a ++ b) =
    if e then (ms, h_add q b, true)
    else let '(ms', r, e') := ingest q b in (ms ++ ms', r, e').
  Proof.
    intros E. unfold h_ingest in E at 1.
    rewrite (ingest_fuel p (a ++ b) (S (meas (h_add p (a ++ b)))) ltac:(lia)).
    rewrite (ingest_fuel q b (S (meas (h_add q b))) ltac:(lia)).
    rewrite <- add_add.
    apply (loop_add (h_fuel (h_add p a)) (h_add p a) b ms q e); auto.
    unfold meas, h_fuel. destruct (h_cur _); lia.
  Qed.

  Definition quiet (p : hproc H) : Prop := turn_ p = HStop p.

  Lemma loop_quiet fuel : forall p ms q, (meas p < fuel)%nat -> loop fuel p = (ms, q, false) -> quiet q.
  Proof.
    induction fuel as [|fuel IH]; intros p ms q L; [lia|]. cbn [h_loop].
    destruct (turn_ p) as [q0|m q0|q0] eqn:T; [|  |discriminate].
    - intros E; injection E as <- <-. unfold quiet.
      pose proof (turn_stop p q0 [] T) as A.
      assert (N : forall x, h_add x [] = x :> hproc H)
        by (intros x; unfold h_add; rewrite app_nil_r; destruct x; reflexivity).
      rewrite !N in A. congruence.
    - destruct (loop fuel q0) as [[a b] c] eqn:E0. intros E; injection E as <- <- ->.
      eapply IH; [|exact E0]. pose proof (proj1 (turn_yield _ _ _ T)). lia.
  Qed.
  Lemma ingest_quiet p d ms q : ingest p d = (ms, q, false) -> quiet q.
  Proof.
    intros E. eapply loop_quiet; [|exact E]. unfold meas, h_fuel. destruct (h_cur _); lia.
  Qed.
  Lemma ingest_nil p : quiet p -> ingest p [] = ([], p, false).
  Proof.
    intros Q. unfold h_ingest.
    assert (N : h_add p [] = p) by (unfold h_add; rewrite app_nil_r; destruct p; reflexivity).
    rewrite N. unfold h_fuel. rewrite Nat.add_comm. cbn [Nat.add h_loop]. rewrite Q. reflexivity.
  Qed.

  Lemma feed_concat chunks : forall p, quiet p ->
    let '(ms, q, e) := feed p chunks in
    let '(ms', q', e') := ingest p (List.concat chunks) in
    ms = ms' /\ e = e' /\ (e = false -> q = q' /\ quiet q).
  Proof.
    induction chunks as [|c cs IH]; intros p Q; cbn [h_feed List.concat].
    - rewrite ingest_nil by exact Q. auto.
    - destruct (ingest p c) as [[ms q] e] eqn:E.
      rewrite (ingest_app _ _ (List.concat cs) _ _ _ E). destruct e.
      + repeat split; discriminate.
      + pose proof (ingest_quiet _ _ _ _ E) as Q'. specialize (IH q Q').
        destruct (feed q cs) as [[ms1 q1] e1].
        destruct (ingest q (List.concat cs)) as [[ms2 q2] e2].
        destruct IH as (-> & -> & Hq). auto.
  Qed.

  (** ** Lines *)
  Lemma service_text t : forall lines line rest, text t ->
    service lines line (t ++ rest) = service lines (line ++ t) rest.
  Proof.
    induction t as [|x t IH]; intros lines line rest Ht.
    - rewrite app_nil_r. reflexivity.
    - inversion Ht as [|? ? (Hr & H10 & H13) Ht']; subst. cbn [app h_service].
      destruct ((x <? 0) || (127 <? x)) eqn:E; [lia|].
      destruct (Z.eqb_spec x 10); [congruence|]. destruct (Z.eqb_spec x 13); [congruence|].
      rewrite (IH _ _ _ Ht'), <- app_assoc. reflexivity.
  Qed.
  Lemma service_line l lines rest : text l -> l <> [] ->
    service lines [] (l ++ crlf ++ rest) = service (lines ++ [l]) [] rest.
  Proof.
    intros Ht N. rewrite service_text by exact Ht. cbn [app crlf h_service].
    change ((13 <? 0) || (127 <? 13)) with false. change ((10 <? 0) || (127 <? 10)) with false.
    cbn. destruct l; [congruence|reflexivity].
  Qed.
  Lemma service_end lines rest h : parse lines = Some h ->
    service lines [] (crlf ++ rest) = SHeader h [] rest.
  Proof. intros E. cbn. rewrite E. reflexivity. Qed.

  (** A header's text with its field lines, then a payload of the announced
      length. *)
  Definition field_line (kv : str * str) : str := fst kv ++ [58; 32] ++ snd kv.

  Lemma service_fields hs : forall lines rest,
    (forall k v, In (k, v) hs -> text k /\ text v) ->
    service lines [] (hd_write hs ++ rest) = service (lines ++ map field_line hs) [] rest.
  Proof.
    induction hs as [|[k v] hs IH]; intros lines rest Hw.
    - cbn. rewrite app_nil_r. reflexivity.
    - unfold hd_write. cbn [map List.concat fst snd]. fold (hd_write hs).
      destruct (Hw k v (or_introl eq_refl)) as [Hk Hv].
      assert (E : ((k ++ [58; 32] ++ v ++ crlf) ++ hd_write hs) ++ rest =
                  field_line (k, v) ++ crlf ++ (hd_write hs ++ rest)).
      { unfold field_line. cbn [fst snd]. rewrite <- !app_assoc. reflexivity. }
      rewrite E, service_line.
      + rewrite IH by (intros; apply Hw; right; assumption).
        rewrite <- app_assoc. reflexivity.
      + unfold field_line. cbn [fst snd]. unfold text. rewrite !Forall_app. split; [exact Hk|].
        split; [|exact Hv]. constructor; [lia|constructor; [lia|constructor]].
      + unfold field_line. destruct k; discriminate.
  Qed.

  Lemma ingest_message start hs h d more n :
    text start -> start <> [] ->
    (forall k v, In (k, v) hs -> text k /\ text v) ->
    parse (start :: map field_line hs) = Some h -> clen h = Some n ->
    n = zlen d -> 
    ingest h_init ((start ++ crlf ++ hd_write hs ++ crlf) ++ d ++ more) =
    let '(ms, q, e) := ingest h_init more in
    ((h, match d with [] => None | _ => Some d end) :: ms, q, e).
  Proof.
    intros Ht N Hw Hp Hc Hn.
    set (w := (start ++ crlf ++ hd_write hs ++ crlf) ++ d ++ more).
    assert (T : turn_ (h_add h_init w) =
      HYield (h, match d with [] => None | _ => Some d end) (mkHproc more [] [] None)).
    { unfold h_turn, h_add, h_init. cbn [h_buf h_cur h_lines h_line app].
      assert (S : service [] [] w = SHeader h [] (d ++ more)).
      { unfold w. rewrite <- !app_assoc.
        rewrite service_line by assumption.
        rewrite service_fields by exact Hw. cbn [app]. apply service_end. exact Hp. }
      destruct w as [|w0 w'] eqn:Ew; [unfold w in Ew; destruct start; [congruence|discriminate]|].
      rewrite <- Ew in *. rewrite S. unfold h_payload. rewrite Hc. subst n.
      destruct d as [|d0 d]; [reflexivity|].
      set (dd := d0 :: d) in *. pose proof (zlen_nonneg more).
      assert (L : 0 < zlen dd) by (unfold dd; rewrite zlen_cons; pose proof (zlen_nonneg d); lia).
      rewrite zlen_app. destruct ((zlen dd =? 0) || (zlen dd <=? zlen dd + zlen more)) eqn:E1; [|lia].
      destruct (0 <? zlen dd) eqn:E2; [|lia].
      rewrite (pop_exact (zlen dd) dd more eq_refl). reflexivity. }
    rewrite (ingest_fuel h_init w (S (meas (h_add h_init w))) ltac:(lia)).
    rewrite (ingest_fuel h_init more (S (meas (h_add h_init more))) ltac:(lia)).
    remember (S (meas (h_add h_init more))) as F eqn:EF. cbn [h_loop]. rewrite T. subst F.
    pose proof (proj1 (turn_yield _ _ _ T)) as M.
    change (mkHproc more [] [] (@None H)) with (h_add (@h_init H) more) in *.
    rewrite (loop_fuel (meas (h_add h_init w)) (h_add h_init more) M
              (S (meas (h_add h_init more))) ltac:(lia)).
    destruct (loop _ (h_add h_init more)) as [[a b] c]. reflexivity.
  Qed.
End Stream.

(** ** Parsing what was written *)
Lemma text_app a b : text (a ++ b) <-> text a /\ text b.
Proof. apply Forall_app. Qed.
Lemma text_lit_ok s : forallb (fun x => (0 <=? x) && (x <? 128) && negb (x =? 10) && negb (x =? 13)) s = true ->
  text s.
Proof. rewrite forallb_forall. intros H. apply Forall_forall. intros x Hx. specialize (H x Hx). lia. Qed.
Lemma text_dec n : text (dec n).
Proof.
  apply Forall_forall. intros x Hx. apply dec_chars in Hx. unfold is_digit in Hx. lia.
Qed.
Lemma not_in_dec c n : c <> 45 -> ~ is_digit c -> ~ In c (dec n).
Proof. intros A B Hx. apply dec_chars in Hx as [->|Hx]; [congruence|auto]. Qed.

Lemma ver_roundtrip v : ver_parse (ver_str v) = Some v.
Proof.
  unfold ver_parse, ver_str.
  assert (E : lit "HTTP/" ++ dec (v_major v) ++ [46] ++ dec (v_minor v) =
              lit "HTTP" ++ 47 :: (dec (v_major v) ++ 46 :: dec (v_minor v))) by reflexivity.
  rewrite E, split_on_app by (cbn; lia).
  rewrite split_on_none.
  2:{ rewrite in_app_iff. intros [H|[H|H]]; [|discriminate|]; revert H; apply not_in_dec;
      unfold is_digit; lia. }
  rewrite str_eqb_refl.
  rewrite split_on_app by (apply not_in_dec; unfold is_digit; lia).
  rewrite split_on_none by (apply not_in_dec; unfold is_digit; lia).
  rewrite !py_int_dec. destruct v; reflexivity.
Qed.
Lemma ver_chars v x : In x (ver_str v) -> x <> 32 /\ 0 <= x < 128 /\ x <> 10 /\ x <> 13.
Proof.
  unfold ver_str. rewrite !in_app_iff. cbn [lit In].
  intros [H|[H|[H|H]]]; [|apply dec_chars in H; unfold is_digit in H; lia| |
    apply dec_chars in H; unfold is_digit in H; lia].
  - cbn in H. lia.
  - cbn in H. lia.
Qed.

Lemma fields_parse hs : forall acc,
  NoDup (map fst acc ++ map fst hs) ->
  (forall k v, In (k, v) hs -> ~ In 58 k /\ lower k = k /\ strip v = v) ->
  hd_parse acc (map field_line hs) = Some (acc ++ hs).
Proof.
  induction hs as [|[k v] hs IH]; intros acc N Hw; cbn [map hd_parse].
  - rewrite app_nil_r. reflexivity.
  - destruct (Hw k v (or_introl eq_refl)) as (Hc & Hl & Hs).
    unfold field_line at 1. cbn [fst snd app].
    change (k ++ 58 :: 32 :: v) with (k ++ 58 :: (32 :: v)). rewrite split_once_app by exact Hc.
    unfold hd_set. rewrite Hl. rewrite strip_space, Hs.
    cbn [map fst] in N.
    assert (Nk : ~ In k (map fst acc)).
    { apply NoDup_remove_2 in N. intros X; apply N. apply in_or_app; left; exact X. }
    rewrite dset_notin by (apply dget_None_notin; exact Nk).
    rewrite IH.
    + rewrite <- app_assoc. reflexivity.
    + rewrite map_app. cbn [map fst]. rewrite <- app_assoc. exact N.
    + intros k' v' Hin. apply Hw. right; exact Hin.
Qed.

Lemma wf_set k v hs : text k -> ~ In 58 k -> lower k = k -> text v -> strip v = v ->
  well_formed_fields hs -> well_formed_fields (dset k v hs).
Proof.
  intros H1 H2 H3 H4 H5 [N Hw]. split.
  - apply (NoDup_dset k v hs N).
  - intros k' v' Hin. destruct (eq_dec k' k) as [->|Ne].
    + pose proof (NoDup_dset k v hs N) as N'.
      assert (E : dget k (dset k v hs) = Some v') by (apply In_dget; assumption).
      rewrite dget_dset_eq in E. injection E as <-. auto.
    + apply Hw. 
      assert (E : dget k' (dset k v hs) = Some v').
      { apply In_dget; [apply NoDup_dset; exact N|exact Hin]. }
      rewrite dget_dset in E. destruct (eq_dec k' k); [congruence|]. apply dget_In. exact E.
Qed.

Lemma wf_send hs data : well_formed_fields hs -> well_formed_fields (send_headers hs data).
Proof.
  intros Hw. unfold send_headers.
  assert (W0 : well_formed_fields (hd_set (lit "content-length") (lit "0") hs)).
  { unfold hd_set. apply wf_set; auto; try reflexivity.
    - apply text_lit_ok. reflexivity.
    - vm_compute. intuition discriminate.
    - apply text_lit_ok. reflexivity. }
  destruct data as [[|d0 d]|]; auto.
  unfold hd_set at 1. rewrite (dec_stripped (zlen (d0 :: d))). apply wf_set; auto; try reflexivity.
  - apply text_lit_ok. reflexivity.
  - vm_compute. intuition discriminate.
  - apply text_dec.
  - apply dec_stripped.
Qed.

Lemma get_send hs data :
  fields_received hs (send_headers hs data) (length_of data).
Proof.
  intros k. unfold send_headers.
  change (dec 0) with (lit "0").
  assert (E : forall v, hd_set (lit "content-length") v hs = dset (lit "content-length") (strip v) hs)
    by reflexivity.
  destruct data as [[|d0 d]|]; unfold hd_set; cbn [length_of];
    change (lower (lit "content-length")) with (lit "content-length").
  - rewrite dget_dset. destruct (list_eq_dec Z.eq_dec k (lit "content-length")) as [->|N];
      destruct (eq_dec _ _); try congruence; reflexivity.
  - rewrite !dget_dset, (dec_stripped (zlen (d0 :: d))).
    destruct (list_eq_dec Z.eq_dec k (lit "content-length")) as [->|N];
      destruct (eq_dec _ _); try congruence; reflexivity.
  - rewrite dget_dset. destruct (list_eq_dec Z.eq_dec k (lit "content-length")) as [->|N];
      destruct (eq_dec _ _); try congruence; reflexivity.
Qed.
Lemma clen_send hs data : hd_length (send_headers hs data) = Some (length_of data).
Proof.
  unfold hd_length, hd_get. change (lower (lit "content-length")) with (lit "content-length").
  rewrite (get_send hs data (lit "content-length")).
  destruct (list_eq_dec _ _ _) as [_|N]; [|congruence]. apply py_int_dec.
Qed.

Lemma in_split_first (c : Z) s : In c s -> exists a b, s = a ++ c :: b /\ ~ In c a.
Proof.
  induction s as [|x s IH]; [intros []|]. intros H. destruct (Z.eq_dec x c) as [->|N].
  - exists [], s. split; [reflexivity|intros []].
  - destruct H as [H|H]; [congruence|]. destruct (IH H) as (a & b & -> & Na).
    exists (x :: a), b. split; [reflexivity|]. intros [X|X]; auto.
Qed.
Lemma split_first c s : exists a, ~ In c a /\ (s = a /\ split_on c s = [a] \/
  exists b, s = a ++ c :: b /\ split_on c s = a :: split_on c b).
Proof.
  destruct (in_dec Z.eq_dec c s) as [I|N].
  - apply in_split_first in I as (a & b & -> & Na). exists a. split; [exact Na|]. right.
    exists b. split; [reflexivity|]. apply split_on_app, Na.
  - exists s. split; [exact N|]. left. split; [reflexivity|]. apply split_on_none, N.
Qed.

Lemma lit_star_no_colon host port : lit "*" <> host ++ 58 :: port.
Proof.
  intros H. assert (In 58 (lit "*")) as [X|[]] by (rewrite H; apply in_elt). discriminate X.
Qed.

Lemma target_iff m raw f : target_parse m raw = Some f <-> target_means m raw f.
Proof.
  unfold target_parse. split.
  - destruct (str_eqb raw (lit "*")) eqn:S1.
    { apply str_eqb_eq in S1. subst. intros [= <-]. constructor. }
    assert (N1 : raw <> lit "*") by (intros ->; rewrite str_eqb_refl in S1; discriminate).
    destruct (str_eqb m (lit "CONNECT")) eqn:S2.
    + apply str_eqb_eq in S2. destruct (split_first 58 raw) as (a & Na & [[-> E]|(b & -> & E)]).
      { rewrite E. discriminate. }
      rewrite E. destruct (split_first 58 b) as (a' & Na' & [[-> E']|(b' & -> & E')]); rewrite E'.
      * destruct (py_int a') as [n|] eqn:P; [|discriminate]. intros [= <-]. constructor; auto.
      * destruct (split_first 58 b') as (a3 & _ & [[_ E3]|(b3 & _ & E3)]); rewrite E3; discriminate.
    + assert (N2 : m <> lit "CONNECT") by (intros ->; rewrite str_eqb_refl in S2; discriminate).
      destruct (starts_with 47 raw) eqn:S3.
      * destruct raw as [|c s]; [discriminate|]. cbn [starts_with] in S3. apply Z.eqb_eq in S3. subst c.
        destruct (split_first 63 s) as (a & Na & [[-> E]|(b & -> & E)]);
          cbn [split_on]; change (47 =? 63) with false; cbv iota; rewrite E.
        { intros [= <-]. constructor; auto. }
        destruct (split_first 63 b) as (a' & Na' & [[-> E']|(b' & -> & E')]); rewrite E';
          intros [= <-]; constructor; auto.
      * intros [= <-]. constructor; auto. intros s ->. discriminate S3.
  - intros H. destruct H as [|host port n C Nh Np P|path C Np|path q C Np Nq|path q rest C Np Nq|raw C Ns Nl].
    + reflexivity.
    + destruct (str_eqb _ (lit "*")) eqn:S1.
      { apply str_eqb_eq in S1. destruct (lit_star_no_colon host port). auto. }
      subst m. rewrite str_eqb_refl, split_on_app, split_on_none by assumption. rewrite P. reflexivity.
    + change (str_eqb (47 :: path) (lit "*")) with false. cbv iota.
      destruct (str_eqb m (lit "CONNECT")) eqn:S2; [apply str_eqb_eq in S2; congruence|].
      cbn [starts_with]. change (47 =? 47) with true. cbv iota.
      rewrite split_on_none; [reflexivity|]. intros [X|X]; [discriminate|auto].
    + change (str_eqb (47 :: path ++ 63 :: q) (lit "*")) with false. cbv iota.
      destruct (str_eqb m (lit "CONNECT")) eqn:S2; [apply str_eqb_eq in S2; congruence|].
      cbn [starts_with]. change (47 =? 47) with true. cbv iota.
      change (47 :: path ++ 63 :: q) with ((47 :: path) ++ 63 :: q).
      rewrite split_on_app, split_on_none; [reflexivity|exact Nq|]. intros [X|X]; [discriminate|auto].
    + change (str_eqb (47 :: path ++ 63 :: q ++ 63 :: rest) (lit "*")) with false. cbv iota.
      destruct (str_eqb m (lit "CONNECT")) eqn:S2; [apply str_eqb_eq in S2; congruence|].
      cbn [starts_with]. change (47 =? 47) with true. cbv iota.
      change (47 :: path ++ 63 :: q ++ 63 :: rest) with ((47 :: path) ++ 63 :: q ++ 63 :: rest).
      rewrite split_on_app, split_on_app; [reflexivity|exact Nq|]. intros [X|X]; [discriminate|auto].
    + destruct (str_eqb raw (lit "*")) eqn:S1; [apply str_eqb_eq in S1; congruence|].
      destruct (str_eqb m (lit "CONNECT")) eqn:S2; [apply str_eqb_eq in S2; congruence|].
      destruct raw as [|c s]; [reflexivity|]. cbn [starts_with].
      destruct (Z.eqb_spec c 47) as [->|]; [destruct (Nl s); reflexivity|reflexivity].
Qed.
