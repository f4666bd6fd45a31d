(** Lemmas for C73 to C75. *)
From Coq Require Import ZifyBool ZifyNat Lia.
From Verif Require Import Base BaseLemmas PrimModel PrimSpec PrimProofs FifoModel
  MessageModel MessageSpec MessageProofs MessageProps EventModel EventSpec EventProofs
  SubprocModel SubprocSpec.

Lemma full_app a b : full (a ++ b) = full a ++ full b.
Proof. unfold full. apply filter_app. Qed.
Lemma full_full a : full (full a) = full a.
Proof.
  unfold full. induction a as [|c a IH]; [reflexivity|]. cbn [filter].
  destruct (is_full c) eqn:E; [|exact IH]. cbn [filter]. rewrite E, IH. reflexivity.
Qed.
Lemma concat_full a : List.concat (full a) = List.concat a.
Proof.
  unfold full. induction a as [|c a IH]; [reflexivity|]. cbn [filter].
  destruct c; cbn [is_full]; [exact IH|]. cbn [List.concat]. rewrite IH. reflexivity.
Qed.
Lemma waiting_put d q : waiting (q_put d q) = match q with Some l => full l ++ full [d] | None => [] end.
Proof. destruct q; [|reflexivity]. cbn [q_put waiting]. apply full_app. Qed.

Section Host.
  Context (nl : bool) (names : Z -> option string) (fields chans : string -> option kind)
    (ingests : parsed -> bool) (parses : list Z -> bool).
  Notation step := (sub_step nl names fields chans ingests parses).
  Notation run := (sub_run nl names fields chans ingests parses).
  Notation herr := (handle_err nl names fields chans ingests).
  Notation drain := (drain_err nl names fields chans ingests).
  Notation parse := (x_parse nl names fields chans).

  Lemma run_app s a b : run s (a ++ b) = run (run s a) b.
  Proof. apply fold_left_app. Qed.
  Lemma run_cons s o b : run s (o :: b) = run (step s o) b.
  Proof. reflexivity. Qed.
  Lemma run_snoc s a o : run s (a ++ [o]) = step (run s a) o.
  Proof. rewrite run_app. reflexivity. Qed.

  (** What [handle_stderr] leaves alone. *)
  Lemma herr_keeps c s : let s' := fst (herr c s) in
    s_spawned s' = s_spawned s /\ s_out s' = s_out s /\ s_err s' = s_err s /\
    s_exited s' = s_exited s /\ s_raised s' = s_raised s /\ s_poll s' = s_poll s /\
    s_proc s' = s_proc s /\ s_known s' = s_known s /\ s_mout s' = s_mout s /\
    s_gout s' = s_gout s /\ s_msgs s' = s_msgs s /\ s_lout s' = s_lout s /\ s_lerr s' = s_lerr s /\
    s_gerr s' = s_gerr s ++ [(s_known s, c)].
  Proof.
    unfold handle_err. destruct c as [|x c].
    - cbn. repeat split.
    - destruct (s_known s) eqn:K.
      + destruct (parse _ _) as [[es p] bad]. destruct (ingest_all _ _) as [dn ok].
        cbn. repeat split; auto.
      + cbn. repeat split; auto.
  Qed.

  Lemma drain_keeps l : forall s, let s' := fst (drain l s) in
    s_spawned s' = s_spawned s /\ s_out s' = s_out s /\
    s_exited s' = s_exited s /\ s_raised s' = s_raised s /\ s_poll s' = s_poll s /\
    s_proc s' = s_proc s /\ s_known s' = s_known s /\ s_mout s' = s_mout s /\
    s_gout s' = s_gout s /\ s_msgs s' = s_msgs s /\ s_lout s' = s_lout s /\ s_lerr s' = s_lerr s.
  Proof.
    induction l as [|c l IH]; intros s; cbn [drain_err].
    - cbn. repeat split.
    - pose proof (herr_keeps c (with_queues (s_out s) (Some l) s)) as H. cbv zeta in H.
      destruct (herr c _) as [s1 ok]. cbn [fst] in *.
      cbn [with_queues s_spawned s_out s_err s_exited s_raised s_poll s_proc s_known s_mout s_gout
           s_msgs s_lout s_lerr s_gerr] in H.
      destruct H as (A1 & A2 & A3 & A4 & A5 & A6 & A7 & A8 & A9 & A10 & A11 & A12 & A13 & A14).
      destruct ok; [|cbn [fst]; repeat split; assumption].
      specialize (IH s1). cbv zeta in IH. rewrite A1, A2, A4, A5, A6, A7, A8, A9, A10, A11, A12, A13 in IH.
      exact IH.
  Qed.

  Lemma drain_err_queue l : forall s, s_err s = Some l ->
    let s' := fst (drain l s) in
    (exists l', s_err s' = Some l' /\ (snd (drain l s) = true -> l' = [])) /\
    full (map snd (s_gerr s')) ++ waiting (s_err s') =
      full (map snd (s_gerr s)) ++ full l.
  Proof.
    induction l as [|c l IH]; intros s E; cbn [drain_err].
    - cbn [fst snd]. rewrite E. split; [exists []; auto|reflexivity].
    - pose proof (herr_keeps c (with_queues (s_out s) (Some l) s)) as H. cbv zeta in H.
      destruct (herr c _) as [s1 ok]. cbn [fst] in *.
      cbn [with_queues s_err s_gerr s_known] in H.
      destruct H as (_ & _ & A3 & _ & _ & _ & _ & _ & _ & _ & _ & _ & _ & A14).
      assert (G : full (map snd (s_gerr s1)) = full (map snd (s_gerr s)) ++ full [c]).
      { rewrite A14, map_app, full_app. reflexivity. }
      destruct ok.
      + destruct (IH s1 A3) as [B1 B2]. cbv zeta in *. split; [exact B1|].
        rewrite B2, G, <- app_assoc, <- full_app. reflexivity.
      + cbn [fst snd]. rewrite A3. split; [exists l; split; [reflexivity|discriminate]|].
        rewrite G. cbn [waiting]. rewrite <- app_assoc, <- full_app. reflexivity.
  Qed.

  Definition over (p : poll) : Prop := p = PFailed \/ p = PEnded.
  (** Once the remains have been logged the polling task is over. *)
  Definition closed_ok (s : sub) : Prop := (s_lout s = [] /\ s_lerr s = []) \/ over (s_poll s).

  Definition outs (s : sub) : list chunk := full (s_gout s) ++ s_lout s ++ waiting (s_out s).
  Definition errs (s : sub) : list chunk := full (map snd (s_gerr s)) ++ s_lerr s ++ waiting (s_err s).

  Definition new_out (s : sub) (o : sop) : list chunk :=
    match o with
    | OData fd d => if (fd =? 1) && match s_out s with Some _ => true | None => false end
                    then full [d] else []
    | _ => []
    end.
  Definition new_err (s : sub) (o : sop) : list chunk :=
    match o with
    | OData fd d => if (fd =? 2) && match s_err s with Some _ => true | None => false end
                    then full [d] else []
    | _ => []
    end.
  Definition has {A} (q : option A) : bool := match q with Some _ => true | None => false end.

  Lemma wake_over s : over (s_poll s) -> sub_wake nl names fields chans ingests s = s.
  Proof. unfold sub_wake. intros [-> | ->]; reflexivity. Qed.

  Lemma step_streams s o : closed_ok s -> (s_spawned s = true \/ forall a b, o <> OAttach a b) ->
    let s' := step s o in
    closed_ok s' /\ outs s' = outs s ++ new_out s o /\ errs s' = errs s ++ new_err s o /\
    has (s_out s') = has (s_out s) /\ has (s_err s') = has (s_err s) /\ s_spawned s' = s_spawned s.
  Proof.
    intros C SP. cbv zeta. destruct o; cbn [sub_step].
    - (* data *)
      unfold sub_data, outs, errs, new_out, new_err.
      destruct (fd =? 1) eqn:F1.
      + assert (F2 : (fd =? 2) = false) by lia. rewrite F2.
        destruct (s_out s) as [l|] eqn:O; cbn [andb].
        * cbn [with_queues s_gout s_lout s_gerr s_lerr s_spawned s_err s_out s_poll].
          rewrite waiting_put. cbn [waiting]. rewrite !app_nil_r, !app_assoc.
          repeat split; auto.
        * destruct (s_err s) as [l|] eqn:E; cbn [with_raise s_gout s_lout s_gerr s_lerr s_spawned s_err s_out s_poll];
            rewrite ?O, ?E, !app_nil_r; repeat split; auto.
      + cbn [andb].
        assert (K : match s_err s with
                    | Some _ => if fd =? 2 then with_queues (s_out s) (q_put data (s_err s)) s else with_raise s
                    | None => s end =
                    match s_out s, s_err s with
                    | Some _, Some _ | None, Some _ => if fd =? 2 then with_queues (s_out s) (q_put data (s_err s)) s else with_raise s
                    | _, None => s end) by (destruct (s_out s), (s_err s); reflexivity).
        destruct (s_err s) as [l|] eqn:E.
        * replace (match s_out s with Some _ | _ => if fd =? 2 then with_queues (s_out s) (q_put data (Some l)) s else with_raise s end)
            with (if fd =? 2 then with_queues (s_out s) (q_put data (Some l)) s else with_raise s)
            by (destruct (s_out s); reflexivity).
          destruct (fd =? 2); cbn [andb with_queues with_raise s_gout s_lout s_gerr s_lerr s_spawned s_err s_out s_poll].
          -- rewrite waiting_put. cbn [waiting]. rewrite !app_nil_r, !app_assoc. repeat split; auto.
          -- rewrite E, !app_nil_r. repeat split; auto.
        * replace (match s_out s with Some _ | _ => s end) with s by (destruct (s_out s); reflexivity).
          rewrite E. rewrite andb_false_r, !app_nil_r. repeat split; auto.
    - (* lost *)
      unfold sub_lost, outs, errs, new_out, new_err. rewrite !app_nil_r.
      destruct (fd =? 1); [|destruct (fd =? 2)];
        cbn [with_queues s_gout s_lout s_gerr s_lerr s_spawned s_err s_out s_poll];
        rewrite ?waiting_put; destruct (s_out s), (s_err s); cbn [waiting has q_put full filter is_full];
        rewrite ?app_nil_r; repeat split; auto.
    - (* exit *)
      unfold sub_exit, outs, errs, new_out, new_err. rewrite !app_nil_r.
        cbn [with_queues s_gout s_lout s_gerr s_lerr s_spawned s_err s_out s_poll];
        rewrite ?waiting_put; destruct (s_out s), (s_err s); cbn [waiting has q_put full filter is_full];
        rewrite ?app_nil_r; repeat split; auto.
    - (* attach *)
      destruct SP as [SP|SP]; [|destruct (SP _ _ eq_refl)].
      unfold sub_attach, new_out, new_err. rewrite SP, !app_nil_r. repeat split; auto.
    - (* peer *)
      unfold sub_peer, outs, errs, new_out, new_err. rewrite !app_nil_r.
      destruct (s_known s); cbn; repeat split; auto.
    - (* wake *)
      unfold new_out, new_err. rewrite !app_nil_r. unfold sub_wake.
      destruct (s_poll s) eqn:P; try (repeat split; auto; fail).
      destruct C as [[C1 C2]|[C|C]]; [|congruence|congruence].
      destruct (s_err s) as [l|] eqn:E.
      + pose proof (drain_keeps l s) as K. pose proof (drain_err_queue l s E) as Q.
        destruct (drain l s) as [s1 ok]. cbn [fst snd] in *. cbv zeta in *.
        destruct K as (K1 & K2 & K3 & K4 & K5 & K6 & K7 & K8 & K9 & K10 & K11 & K12).
        destruct Q as [(l' & Q1 & Q2) Q3].
        assert (outs s1 = outs s) by (unfold outs; rewrite K2, K9, K11; reflexivity).
        assert (errs s1 = errs s).
        { unfold errs. rewrite K12, C2. cbn [app]. rewrite Q3, E. reflexivity. }
        assert (closed_ok s1) by (left; rewrite K11, K12; auto).
        assert (L : s_lout s1 = [] /\ s_lerr s1 = []) by (rewrite K11, K12; auto).
        assert (W : forall p, closed_ok (with_poll p s1) /\ outs (with_poll p s1) = outs s /\
                    errs (with_poll p s1) = errs s /\ has (s_out (with_poll p s1)) = has (s_out s) /\
                    has (s_err (with_poll p s1)) = has (Some l) /\ s_spawned (with_poll p s1) = s_spawned s).
        { intros p. split; [left; exact L|]. split; [assumption|]. split; [assumption|].
          cbn [with_poll s_out s_err s_spawned]. rewrite K2, Q1. auto. }
        destruct ok; [|apply W].
        rewrite Q1, K2.
        destruct (s_out s) eqn:O; [apply W|].
        rewrite Q1, K2. cbn [has]. repeat split; auto.
      + destruct (s_out s) eqn:O; rewrite ?E; unfold outs, errs, closed_ok in *; cbn in *; rewrite ?O, ?E in *; repeat split; auto; rewrite ?E; auto.
    - (* take *)
      unfold sub_take, new_out, new_err. rewrite !app_nil_r.
      destruct (s_poll s) as [|[|? ?]| |] eqn:P; try (repeat split; auto; fail).
      destruct C as [[C1 C2]|[C|C]]; [|congruence|congruence].
      destruct (s_out s) as [[|d rest]|] eqn:O.
      + unfold outs, errs, closed_ok; cbn. rewrite O. cbn. repeat split; auto.
      + destruct d as [|x d].
        * unfold outs, errs, closed_ok; cbn. rewrite O, full_app. cbn. rewrite app_nil_r. repeat split; auto.
        * destruct (m_process _ _ _ _ _ _) as [[ms p] e].
          unfold outs, errs, closed_ok; cbn. rewrite O, full_app, C1, C2. cbn. rewrite <- app_assoc. repeat split; auto.
      + rewrite O. repeat split; auto. left; auto.
    - (* msg *)
      unfold sub_msg, new_out, new_err. rewrite !app_nil_r.
      destruct (s_poll s) as [|[|m ms]| |] eqn:P; try (repeat split; auto; fail).
      destruct C as [[C1 C2]|[C|C]]; [|congruence|congruence].
      destruct (parses m); unfold outs, errs, closed_ok; cbn; repeat split; auto.
    - (* cancel *)
      unfold sub_cancel, new_out, new_err. rewrite !app_nil_r.
      destruct (s_poll s) eqn:P; unfold outs, errs, closed_ok, over; cbn; repeat split; auto; right; auto.
    - (* close *)
      unfold sub_close, new_out, new_err. rewrite !app_nil_r.
      destruct (s_exited s); [|repeat split; auto].
      destruct (s_poll s) eqn:P; try (repeat split; auto; fail);
        unfold outs, errs, closed_ok, over; cbn;
        (repeat split; [right; auto|destruct (s_out s)|destruct (s_err s)|destruct (s_out s)|destruct (s_err s)]);
        cbn; rewrite ?app_nil_r, ?app_assoc; auto.
  Qed.

  (** Before the queues are assigned nothing happens to them. *)
  Definition virgin (s : sub) : Prop :=
    s_spawned s = false /\ s_out s = None /\ s_err s = None /\ outs s = [] /\ errs s = [] /\
    s_raised s = 0%nat /\ closed_ok s.
  Lemma virgin_step s o : virgin s -> (forall a b, o <> OAttach a b) -> virgin (step s o).
  Proof.
    intros (V1 & V2 & V3 & V4 & V5 & V6 & V7) N.
    destruct (step_streams s o V7 (or_intror N)) as (A & B & C & D & E & F).
    assert (No : new_out s o = []) by (destruct o; try reflexivity; cbn; rewrite V2, andb_false_r; reflexivity).
    assert (Ne : new_err s o = []) by (destruct o; try reflexivity; cbn; rewrite V3, andb_false_r; reflexivity).
    rewrite No, V4 in B. rewrite Ne, V5 in C. rewrite V2 in D. rewrite V3 in E.
    unfold virgin. repeat split; auto; try congruence.
    - destruct (s_out (step s o)); [discriminate D|reflexivity].
    - destruct (s_err (step s o)); [discriminate E|reflexivity].
    - clear -V2 V3 V6. destruct o; cbn [sub_step]; auto.
      + unfold sub_data. rewrite V2, V3. destruct (fd =? 1); exact V6.
      + unfold sub_lost. destruct (fd =? 1); [exact V6|]. destruct (fd =? 2); exact V6.
      + unfold sub_attach. destruct (s_spawned s); exact V6.
      + unfold sub_peer. destruct (s_known s); exact V6.
      + unfold sub_wake. destruct (s_poll s); try exact V6. rewrite V3, V2, V3. exact V6.
      + unfold sub_take. rewrite V2. destruct (s_poll s) as [|[|? ?]| |]; exact V6.
      + unfold sub_msg. destruct (s_poll s) as [|[|? ?]| |]; try exact V6. destruct (parses _); exact V6.
      + unfold sub_cancel. destruct (s_poll s); exact V6.
      + unfold sub_close. destruct (s_exited s); [|exact V6]. destruct (s_poll s); exact V6.
  Qed.
  Lemma virgin_init : virgin sub_init.
  Proof. repeat split; try reflexivity. left; split; reflexivity. Qed.
  Lemma virgin_run ops : forall s, virgin s -> no_attach ops -> virgin (run s ops).
  Proof.
    induction ops as [|o ops IH]; intros s V N; [exact V|]. rewrite run_cons. apply IH.
    - apply virgin_step; [exact V|]. intros a b ->. apply (N a b). left; reflexivity.
    - intros a b H. apply (N a b). right; exact H.
  Qed.

  (** Just after the assignment. *)
  Definition fresh (o e : bool) (s : sub) : Prop :=
    s_spawned s = true /\ s_out s = (if o then Some [] else None) /\
    s_err s = (if e then Some [] else None) /\ outs s = [] /\ errs s = [] /\
    s_raised s = 0%nat /\ closed_ok s.
  Lemma attach_fresh s o e : virgin s -> fresh o e (step s (OAttach o e)).
  Proof.
    intros (V1 & V2 & V3 & V4 & V5 & V6 & V7). cbn [sub_step]. unfold sub_attach. rewrite V1.
    unfold fresh, outs, errs, closed_ok in *. cbn. rewrite V2 in V4. rewrite V3 in V5. cbn in V4, V5.
    repeat split; auto.
    - destruct o; exact V4.
    - destruct e; exact V5.
  Qed.
  Lemma start_fresh before o e : no_attach before -> fresh o e (run sub_init (before ++ [OAttach o e])).
  Proof. intros N. rewrite run_snoc. apply attach_fresh, virgin_run; [apply virgin_init|exact N]. Qed.

  Lemma streams_run after : forall s, s_spawned s = true -> closed_ok s ->
    let s' := run s after in
    outs s' = outs s ++ (if has (s_out s) then chunks_of 1 after else []) /\
    errs s' = errs s ++ (if has (s_err s) then chunks_of 2 after else []) /\
    closed_ok s' /\ s_spawned s' = true /\ has (s_out s') = has (s_out s) /\
    has (s_err s') = has (s_err s).
  Proof.
    induction after as [|o after IH]; intros s SP C; cbv zeta.
    - cbn [sub_run fold_left chunks_of]. destruct (has (s_out s)), (has (s_err s)); rewrite !app_nil_r; repeat split; auto.
    - rewrite run_cons. destruct (step_streams s o C (or_introl SP)) as (A & B & D & E & F & G).
      rewrite SP in G. destruct (IH _ G A) as (H1 & H2 & H3 & H4 & H5 & H6). cbv zeta in *.
      rewrite H1, H2, H5, H6, E, F, B, D, <- !app_assoc. repeat split; auto; f_equal.
      + unfold new_out. destruct o; cbn [chunks_of app]; try reflexivity.
        destruct (fd =? 1); cbn [andb]; [|reflexivity].
        unfold has. destruct (s_out s); reflexivity.
      + unfold new_err. destruct o; cbn [chunks_of app]; try reflexivity.
        destruct (fd =? 2); cbn [andb]; [|reflexivity].
        unfold has. destruct (s_err s); reflexivity.
  Qed.

  Lemma raised_step s o : s_spawned s = true ->
    s_raised (step s o) = (s_raised s + misplaced (has (s_out s)) (has (s_err s)) [o])%nat.
  Proof.
    intros SP. destruct o; cbn [sub_step misplaced]; rewrite ?Nat.add_0_r; try reflexivity.
    - unfold sub_data, has. destruct (fd =? 1) eqn:F1.
      + assert (F2 : (fd =? 2) = false) by lia. rewrite F2.
        destruct (s_out s), (s_err s); cbn; lia.
      + destruct (fd =? 2); destruct (s_out s), (s_err s); cbn; lia.
    - unfold sub_lost. destruct (fd =? 1); [reflexivity|]. destruct (fd =? 2); reflexivity.
    - unfold sub_attach. rewrite SP. reflexivity.
    - unfold sub_peer. destruct (s_known s); reflexivity.
    - unfold sub_wake. destruct (s_poll s); try reflexivity.
      destruct (s_err s) as [l|] eqn:E.
      + destruct (drain_keeps l s) as (_ & _ & _ & K & _). destruct (drain l s) as [s1 ok]. cbn [fst] in K.
        destruct ok; [|exact K]. destruct (s_out s1); [exact K|]. destruct (s_err s1); exact K.
      + destruct (s_out s); [reflexivity|]. rewrite E. reflexivity.
    - unfold sub_take. destruct (s_poll s) as [|[|? ?]| |]; try reflexivity.
      destruct (s_out s) as [[|[|? ?] ?]|]; try reflexivity.
      destruct (m_process _ _ _ _ _ _) as [[ms p] e]. reflexivity.
    - unfold sub_msg. destruct (s_poll s) as [|[|? ?]| |]; try reflexivity. destruct (parses _); reflexivity.
    - unfold sub_cancel. destruct (s_poll s); reflexivity.
    - unfold sub_close. destruct (s_exited s); [|reflexivity]. destruct (s_poll s); reflexivity.
  Qed.
  Lemma raised_run after : forall s, s_spawned s = true -> closed_ok s ->
    s_raised (run s after) = (s_raised s + misplaced (has (s_out s)) (has (s_err s)) after)%nat.
  Proof.
    induction after as [|o after IH]; intros s SP C.
    - cbn. lia.
    - rewrite run_cons. destruct (step_streams s o C (or_introl SP)) as (A & B & D & E & F & G).
      rewrite IH by (congruence || assumption). rewrite raised_step by exact SP. rewrite E, F.
      destruct o; cbn [misplaced]; lia.
  Qed.

  (** ** Messages *)
  Notation process := (m_process nl U32 Network all).
  Lemma process_fix p d : m_process nl U32 Network (fun _ => true) p d = process p d.
  Proof. reflexivity. Qed.

  Definition prefix {A} (a b : list A) : Prop := exists c, a ++ c = b.
  Definition PInv (s : sub) : Prop := exists ms,
    process m_init (List.concat (s_gout s)) = (ms, s_proc s, EDone) /\
    MInv (s_proc s) /\ m_turn nl U32 Network (s_proc s) = TStop /\
    match s_poll s with
    | PAsleep => s_msgs s = ms
    | PBusy pend => s_msgs s ++ pend = ms
    | _ => prefix (s_msgs s) ms
    end.
  Lemma pinv_init : PInv sub_init.
  Proof. exists []. repeat split; try reflexivity. cbn. unfold MInv; cbn. lia. Qed.

  Lemma pinv_same s s' : s_gout s' = s_gout s -> s_proc s' = s_proc s -> s_msgs s' = s_msgs s ->
    s_poll s' = s_poll s -> PInv s -> PInv s'.
  Proof. unfold PInv. intros -> -> -> ->. auto. Qed.
  Lemma pinv_over s s' : s_gout s' = s_gout s -> s_proc s' = s_proc s -> s_msgs s' = s_msgs s ->
    over (s_poll s') -> PInv s -> PInv s'.
  Proof.
    unfold PInv. intros -> -> -> O (ms & A & B & C & D). exists ms. repeat split; auto.
    assert (P : prefix (s_msgs s) ms).
    { destruct (s_poll s); [exists []; rewrite app_nil_r; exact D|eexists; exact D|exact D|exact D]. }
    destruct O as [-> | ->]; exact P.
  Qed.

  Lemma pinv_step s o : PInv s -> PInv (step s o).
  Proof.
    intros I. destruct o; cbn [sub_step].
    - unfold sub_data. destruct (fd =? 1); destruct (s_out s), (s_err s); try destruct (fd =? 2);
        try exact I; eapply pinv_same; try exact I; reflexivity.
    - unfold sub_lost. destruct (fd =? 1); [|destruct (fd =? 2)]; try exact I;
        eapply pinv_same; try exact I; reflexivity.
    - eapply pinv_same; try exact I; reflexivity.
    - unfold sub_attach. destruct (s_spawned s); [exact I|]. eapply pinv_same; try exact I; reflexivity.
    - unfold sub_peer. destruct (s_known s); [exact I|]. eapply pinv_same; try exact I; reflexivity.
    - unfold sub_wake. destruct (s_poll s) eqn:P; try exact I.
      assert (G : forall s1 : sub, s_gout s1 = s_gout s -> s_proc s1 = s_proc s -> s_msgs s1 = s_msgs s ->
               s_poll s1 = s_poll s -> PInv s1 /\ PInv (with_poll (PBusy []) s1) /\
               PInv (with_poll PEnded s1) /\ PInv (with_poll PFailed s1)).
      { intros s1 A B C D. split; [eapply pinv_same; eauto|]. split; [|split].
        - destruct I as (ms & I1 & I2 & I3 & I4). rewrite P in I4. exists ms. cbn.
          rewrite A, B, C, app_nil_r. auto.
        - apply (pinv_over s); cbn; auto. right; reflexivity.
        - apply (pinv_over s); cbn; auto. left; reflexivity. }
      destruct (s_err s) as [l|] eqn:E.
      + destruct (drain_keeps l s) as (_ & _ & _ & _ & K5 & K6 & _ & _ & K9 & K10 & _).
        destruct (drain l s) as [s1 ok]. cbn [fst] in *.
        destruct (G s1 K9 K6 K10 K5) as (G1 & G2 & G3 & G4).
        destruct ok; [|exact G4]. destruct (s_out s1); [exact G2|]. destruct (s_err s1); assumption.
      + destruct (G s eq_refl eq_refl eq_refl eq_refl) as (G1 & G2 & G3 & G4).
        destruct (s_out s); [exact G2|]. destruct (s_err s); assumption.
    - unfold sub_take. destruct (s_poll s) as [|[|? ?]| |] eqn:P; try exact I.
      destruct I as (ms & I1 & I2 & I3 & I4). rewrite P, app_nil_r in I4.
      destruct (s_out s) as [[|d rest]|] eqn:O.
      + exists ms. cbn. auto.
      + destruct d as [|x d].
        * exists ms. cbn. rewrite ?P, concat_app. cbn. rewrite !app_nil_r. auto.
        * rewrite process_fix.
          destruct (process_done nl U32 Network 32 ik_u32 (s_proc s) (x :: d) I2) as (ms' & q & E & Iq & Tq).
          rewrite E. exists (ms ++ ms'). cbn [s_gout s_proc s_poll s_msgs]. rewrite concat_app. cbn [List.concat]. rewrite app_nil_r.
          split; [|split; [exact Iq|split; [exact Tq|rewrite I4; reflexivity]]].
          eapply (process_app nl U32 Network 32 ik_u32); try exact I1; try exact E.
          unfold MInv; cbn; lia.
      + exists ms. rewrite P, app_nil_r. auto.
    - unfold sub_msg. destruct (s_poll s) as [|[|m pend]| |] eqn:P; try exact I.
      destruct I as (ms & I1 & I2 & I3 & I4). rewrite P in I4.
      destruct (parses m).
      + exists ms. cbn. split; [exact I1|]. split; [exact I2|]. split; [exact I3|].
        destruct ok; [rewrite <- app_assoc; exact I4|]. exists pend. rewrite <- app_assoc. exact I4.
      + exists ms. cbn. split; [exact I1|]. split; [exact I2|]. split; [exact I3|]. eexists; exact I4.
    - unfold sub_cancel. destruct (s_poll s) eqn:P; try exact I; apply (pinv_over s); auto; right; reflexivity.
    - unfold sub_close. destruct (s_exited s); [|exact I].
      destruct (s_poll s) eqn:P; try exact I; eapply pinv_same; try exact I; cbn; auto.
  Qed.
  Lemma pinv_run ops : forall s, PInv s -> PInv (run s ops).
  Proof.
    induction ops as [|o ops IH]; intros s I; [exact I|]. rewrite run_cons. apply IH, pinv_step, I.
  Qed.

  (** ** Events *)
  Notation feed := (x_feed nl names fields chans).
  Definition known_chunks (l : list (bool * chunk)) : list chunk :=
    full (map snd (filter fst l)).
  Lemma known_chunks_app a b : known_chunks (a ++ b) = known_chunks a ++ known_chunks b.
  Proof. unfold known_chunks. rewrite filter_app, map_app, full_app. reflexivity. Qed.

  Lemma xfeed_app a : forall p b,
    feed p (a ++ b) = let '(e1, q) := feed p a in let '(e2, r) := feed q b in (e1 ++ e2, r).
  Proof.
    induction a as [|c a IH]; intros p b; cbn [app x_feed].
    - destruct (feed p b) as [e r]. reflexivity.
    - destruct (parse p c) as [[es q] bad]. rewrite IH. destruct (feed q a) as [e1 q1].
      destruct (feed q1 b) as [e2 r]. rewrite app_assoc. reflexivity.
  Qed.
  Lemma ingest_split es : exists more, fst (ingest_all ingests es) ++ more = es /\
    (snd (ingest_all ingests es) = true -> more = []).
  Proof.
    induction es as [|e es (more & A & B)]; cbn [ingest_all].
    - exists []. auto.
    - destruct (ingests e).
      + destruct (ingest_all ingests es) as [d ok]. cbn [fst snd] in *. exists more. cbn [app].
        rewrite A. auto.
      + exists (e :: es). cbn. split; [reflexivity|discriminate].
  Qed.

  (** [ok]: the last call returned. *)
  Definition EvOk (ok : bool) (s : sub) : Prop :=
    (s_known s = false -> known_chunks (s_gerr s) = [] /\ s_events s = []) /\
    (s_known s = true ->
       if ok then feed x_init (known_chunks (s_gerr s)) = (s_events s, s_parser s)
       else prefix (s_events s) (fst (feed x_init (known_chunks (s_gerr s))))).
  Definition EvInv (s : sub) : Prop :=
    match s_poll s with PFailed => EvOk false s | _ => EvOk true s end.

  Lemma evok_weaken s : EvOk true s -> EvOk false s.
  Proof. intros [A B]. split; [exact A|]. intros K. rewrite (B K). exists []. cbn. apply app_nil_r. Qed.

  Lemma evok_herr c s : EvOk true s -> EvOk (snd (herr c s)) (fst (herr c s)).
  Proof.
    intros [A B]. unfold handle_err. destruct c as [|x c].
    - cbn [fst snd]. unfold EvOk; cbn [s_known s_gerr s_events s_parser].
      assert (N : known_chunks (s_gerr s ++ [(s_known s, [])]) = known_chunks (s_gerr s)).
      { rewrite known_chunks_app. destruct (s_known s); apply app_nil_r. }
      split; intros K; [rewrite <- N in A; exact (A K)|rewrite <- N in B; exact (B K)].
    - destruct (s_known s) eqn:K.
      + specialize (B eq_refl). destruct (parse (s_parser s) (x :: c)) as [[es p] bad] eqn:X.
        destruct (ingest_split es) as (more & M1 & M2).
        destruct (ingest_all ingests es) as [dn ok]. cbn [fst snd] in *.
        unfold EvOk; cbn [s_known s_gerr s_events s_parser]. split; [congruence|]. intros _.
        rewrite known_chunks_app, xfeed_app, B.
        change (known_chunks [(true, x :: c)]) with [x :: c]. cbn [x_feed]. rewrite X.
        destruct ok; cbn [andb].
        * rewrite (M2 eq_refl), app_nil_r in M1. subst dn. rewrite app_nil_r.
          destruct bad; cbn [negb fst]; [|reflexivity]. exists []. apply app_nil_r.
        * cbn [fst]. exists more. rewrite app_nil_r, <- app_assoc, M1. reflexivity.
      + cbn [fst snd]. unfold EvOk; cbn [s_known s_gerr s_events s_parser].
        split; [|congruence]. intros _. destruct (A eq_refl) as [A1 A2].
        rewrite known_chunks_app, A1. auto.
  Qed.
  Lemma evok_same b s s' : s_known s' = s_known s -> s_gerr s' = s_gerr s ->
    s_events s' = s_events s -> s_parser s' = s_parser s -> EvOk b s -> EvOk b s'.
  Proof. unfold EvOk. intros -> -> -> ->. auto. Qed.
  Lemma evok_drain l : forall s, EvOk true s -> EvOk (snd (drain l s)) (fst (drain l s)).
  Proof.
    induction l as [|c l IH]; intros s I; cbn [drain_err]; [exact I|].
    pose proof (evok_herr c (with_queues (s_out s) (Some l) s)) as H.
    destruct (herr c _) as [s1 ok]. cbn [fst snd] in H.
    assert (I' : EvOk true (with_queues (s_out s) (Some l) s)).
    { eapply evok_same; try exact I; reflexivity. }
    specialize (H I'). destruct ok; [apply IH; exact H|exact H].
  Qed.

  Lemma evinv_step s o : EvInv s -> EvInv (step s o).
  Proof.
    intros I.
    assert (W : EvOk false s).
    { unfold EvInv in I. destruct (s_poll s); auto using evok_weaken. }
    assert (G : forall s', s_known s' = s_known s -> s_gerr s' = s_gerr s ->
      s_events s' = s_events s -> s_parser s' = s_parser s ->
      s_poll s' = PFailed \/ s_poll s <> PFailed -> EvInv s').
    { intros s' A B C D E. unfold EvInv in *. destruct (s_poll s') eqn:P'.
      4: { destruct E as [E|E]; [congruence|]. eapply evok_same; eauto.
           destruct (s_poll s); auto. congruence. }
      3: { eapply evok_same; eauto. }
      all: eapply evok_same; eauto; destruct E as [E|E]; [congruence|]; destruct (s_poll s); auto; congruence. }
    assert (F : forall s', s_known s' = s_known s -> s_gerr s' = s_gerr s ->
      s_events s' = s_events s -> s_parser s' = s_parser s -> s_poll s' = s_poll s -> EvInv s').
    { intros s' A B C D E. apply G; auto. destruct (s_poll s) eqn:P; auto; right; congruence. }
    destruct o; cbn [sub_step].
    - unfold sub_data. destruct (fd =? 1); destruct (s_out s), (s_err s); try destruct (fd =? 2);
        try exact I; apply F; reflexivity.
    - unfold sub_lost. destruct (fd =? 1); [|destruct (fd =? 2)]; try exact I; apply F; reflexivity.
    - apply F; reflexivity.
    - unfold sub_attach. destruct (s_spawned s); [exact I|]. apply F; reflexivity.
    - unfold sub_peer. destruct (s_known s) eqn:K; [exact I|].
      destruct W as [W _]. destruct (W K) as [W1 W2].
      unfold EvInv. cbn [s_poll].
      assert (forall b, EvOk b (mkSub (s_spawned s) (s_out s) (s_err s) (s_exited s) (s_raised s)
        (s_poll s) (s_proc s) true x_init (s_mout s) (s_merr s) (s_gout s) (s_gerr s)
        (s_msgs s) (s_events s) (s_lout s) (s_lerr s))).
      { intros b. unfold EvOk; cbn [s_known s_gerr s_events s_parser]. split; [discriminate|]. intros _.
        rewrite W1, W2. destruct b; [reflexivity|]. exists []. reflexivity. }
      destruct (s_poll s); auto.
    - unfold sub_wake. destruct (s_poll s) eqn:P; try exact I.
      unfold EvInv in I. rewrite P in I.
      assert (H : forall b s1 p, EvOk b s1 -> (b = true \/ p = PFailed) -> EvInv (with_poll p s1)).
      { intros b s1 p X Y. unfold EvInv. cbn [with_poll s_poll].
        assert (EvOk b (with_poll p s1)) by (eapply evok_same; try exact X; reflexivity).
        destruct Y as [-> | ->]; [|destruct b; auto using evok_weaken].
        destruct p; auto using evok_weaken. }
      destruct (s_err s) as [l|] eqn:E.
      + pose proof (evok_drain l s I) as D. destruct (drain_keeps l s) as (_ & _ & _ & _ & K5 & _).
        destruct (drain l s) as [s1 ok]. cbn [fst snd] in *.
        destruct ok; [|apply (H false); auto].
        destruct (s_out s1); [apply (H true); auto|]. destruct (s_err s1); [|apply (H true); auto].
        unfold EvInv. rewrite K5, P. exact D.
      + destruct (s_out s); [apply (H true); auto|]. rewrite E. apply (H true); auto.
    - unfold sub_take. destruct (s_poll s) as [|[|? ?]| |] eqn:P; try exact I.
      destruct (s_out s) as [[|[|? ?] ?]|] eqn:O; try exact I.
      + apply G; try reflexivity. right; congruence.
      + apply F; cbn; auto.
      + destruct (m_process _ _ _ _ _ _) as [[ms p] e]. apply G; try reflexivity. right; congruence.
    - unfold sub_msg. destruct (s_poll s) as [|[|? ?]| |] eqn:P; try exact I.
      destruct (parses _); apply G; try reflexivity; right; congruence.
    - unfold sub_cancel. destruct (s_poll s) eqn:P; try exact I; apply G; try reflexivity; right; congruence.
    - unfold sub_close. destruct (s_exited s); [|exact I].
      destruct (s_poll s) eqn:P; try exact I; apply F; cbn; auto.
  Qed.
  Lemma evinv_run ops : forall s, EvInv s -> EvInv (run s ops).
  Proof.
    induction ops as [|o ops IH]; intros s I; [exact I|]. rewrite run_cons. apply IH, evinv_step, I.
  Qed.
  Lemma evinv_init : EvInv sub_init.
  Proof. unfold EvInv; cbn. split; cbn; [auto|discriminate]. Qed.
End Host.

Section Alive.
  Context (nl : bool) (names : Z -> option string) (fields chans : string -> option kind)
    (ingests : parsed -> bool) (parses : list Z -> bool).
  Notation step := (sub_step nl names fields chans ingests parses).
  Notation run := (sub_run nl names fields chans ingests parses).
  Notation herr := (handle_err nl names fields chans ingests).
  Notation drain := (drain_err nl names fields chans ingests).
  Notation parse := (x_parse nl names fields chans).
  Context (Hf : fields "" = None) (Hc : chans "" = None).

  Definition ok_event (e : sent) : Prop := agreed names fields chans e /\ ingests (seen e) = true.

  (** The parser can go on with the bytes to come. *)
  Definition EG (p : parser) (rest : list Z) : Prop :=
    x_ready p = true \/
    exists es tail, Forall ok_event es /\ x_ready p = false /\ event_stream es = x_fifo p ++ rest ++ tail.

  Lemma ingest_ok es : Forall (fun e => ingests e = true) es -> ingest_all ingests es = (es, true).
  Proof.
    induction 1 as [|e es H _ IH]; [reflexivity|]. cbn [ingest_all]. rewrite H, IH. reflexivity.
  Qed.

  Lemma eg_parse p c rest : EG p (c ++ rest) ->
    exists es q, parse p c = (es, q, false) /\ ingest_all ingests es = (es, true) /\ EG q rest.
  Proof.
    intros [R|(es & tail & F & R & E)].
    - destruct (parse_stuck nl names fields chans Hf Hc p c R) as (q & P & Rq).
      exists [], q. split; [exact P|]. split; [reflexivity|left; exact Rq].
    - destruct p as [t r i ts]. cbn [x_ready x_fifo] in *. subst r.
      assert (Fa : Forall (agreed names fields chans) es).
      { eapply Forall_impl; [|exact F]. intros e [A _]; exact A. }
      rewrite <- app_assoc, app_assoc in E.
      destruct (parse_step nl names fields chans es t i ts c (rest ++ tail) Fa E)
        as (es2 & t' & q & E1 & E2 & E3 & E5 & Ep & Er & Eq & En).
      exists (map seen (events_in (zlen (t ++ c)) es)), q. split; [exact Ep|].
      set (es1 := events_in (zlen (t ++ c)) es) in *. clearbody es1.
      rewrite E1 in F. apply Forall_app in F as [F1 F2]. split.
      + apply ingest_ok. apply Forall_map. eapply Forall_impl; [|exact F1]. intros e [_ B]; exact B.
      + destruct (x_ready q) eqn:Rq; [left; exact Rq|right]. exists es2, tail.
        rewrite (Eq eq_refl). auto.
  Qed.

  Lemma eg_nil p rest : EG p ([] ++ rest) -> EG p rest. Proof. auto. Qed.

  Lemma herr_alive c s rest : s_known s = true -> EG (s_parser s) (c ++ rest) ->
    snd (herr c s) = true /\ EG (s_parser (fst (herr c s))) rest.
  Proof.
    intros K G. unfold handle_err. destruct c as [|x c].
    - cbn. auto.
    - rewrite K. destruct (eg_parse _ _ _ G) as (es & q & P & I & G'). rewrite P, I. cbn. auto.
  Qed.
  Lemma drain_alive l : forall s rest, s_known s = true -> EG (s_parser s) (List.concat l ++ rest) ->
    snd (drain l s) = true /\ EG (s_parser (fst (drain l s))) rest.
  Proof.
    induction l as [|c l IH]; intros s rest K G; cbn [drain_err]; [auto|].
    cbn [List.concat] in G. rewrite <- app_assoc in G.
    destruct (herr_alive c (with_queues (s_out s) (Some l) s) (List.concat l ++ rest) K G) as [A B].
    pose proof (herr_keeps nl names fields chans ingests c (with_queues (s_out s) (Some l) s)) as H. cbv zeta in H.
    destruct (herr c _) as [s1 ok]. cbn [fst snd] in *. subst ok.
    apply IH; [|exact B]. destruct H as (_ & _ & _ & _ & _ & _ & _ & H & _). rewrite H. exact K.
  Qed.

  Definition bytes (q : option (list chunk)) : list Z := List.concat (waiting q).
  Lemma bytes_some l : bytes (Some l) = List.concat l.
  Proof. unfold bytes. cbn [waiting]. apply concat_full. Qed.

  (** The polling task has not failed, and has nothing bad ahead. *)
  Definition Sound (s : sub) (later1 later2 : list Z) : Prop :=
    s_poll s = PEnded \/
    (s_poll s <> PFailed /\ s_spawned s = true /\ s_out s <> None /\ s_err s <> None /\ s_known s = true /\ PInv nl s /\
     EG (s_parser s) (bytes (s_err s) ++ later2) /\
     exists ms rest, Forall (fun m => zlen m < 2 ^ 32 /\ parses m = true) ms /\
       List.concat (s_gout s) ++ bytes (s_out s) ++ later1 ++ rest = wire ms).

  Lemma ended_step s o : s_poll s = PEnded -> s_poll (step s o) = PEnded.
  Proof.
    intros P. destruct o; cbn [sub_step].
    - unfold sub_data. destruct (fd =? 1); destruct (s_out s), (s_err s); try destruct (fd =? 2); exact P.
    - unfold sub_lost. destruct (fd =? 1); [exact P|]. destruct (fd =? 2); exact P.
    - exact P.
    - unfold sub_attach. destruct (s_spawned s); exact P.
    - unfold sub_peer. destruct (s_known s); exact P.
    - unfold sub_wake. rewrite P. exact P.
    - unfold sub_take. rewrite P. exact P.
    - unfold sub_msg. rewrite P. exact P.
    - unfold sub_cancel. rewrite P. reflexivity.
    - unfold sub_close. destruct (s_exited s); [|exact P]. rewrite P. reflexivity.
  Qed.

  Lemma in_complete m ms : forall n, In m (complete_in n ms) -> In m ms.
  Proof.
    induction ms as [|a ms IH]; intros n; cbn [complete_in]; [auto|].
    destruct (_ <=? _); [|intros []]. intros [->|H]; [left; reflexivity|right; eapply IH; exact H].
  Qed.
  Lemma prefix_messages chunks rest ms r q :
    Forall (fun m => zlen m < 2 ^ 32) ms ->
    List.concat chunks ++ rest = wire ms ->
    m_process nl U32 Network all m_init (List.concat chunks) = (r, q, EDone) ->
    r = complete_in (zlen (List.concat chunks)) ms.
  Proof.
    intros F E P. pose proof (C22_prefix_delivered nl ms chunks rest F E) as D.
    destruct (feed_concat nl U32 Network 32 ik_u32 chunks m_init ltac:(cbv; discriminate) eq_refl)
      as (ms' & q' & F' & P' & _).
    rewrite F' in D. cbn [fst] in D. rewrite P' in P. injection P as <- _. exact D.
  Qed.

  Definition now (fd : Z) (o : sop) : list Z := List.concat (chunks_of fd [o]).
  Lemma now_other fd o : (forall n d, o <> OData n d) -> now fd o = [].
  Proof. destruct o; intros H; try reflexivity. destruct (H _ _ eq_refl). Qed.
  Lemma bytes_put d q : q <> None -> bytes (q_put d q) = bytes q ++ d.
  Proof.
    destruct q as [l|]; [|congruence]. intros _. cbn [q_put]. rewrite !bytes_some, concat_app.
    cbn. rewrite app_nil_r. reflexivity.
  Qed.
  Lemma concat_one d : List.concat (full [d]) = d.
  Proof. rewrite concat_full. cbn. apply app_nil_r. Qed.

  Lemma sound_same s s' later1 later2 : s_poll s' = s_poll s -> s_spawned s' = s_spawned s ->
    s_out s' = s_out s -> s_err s' = s_err s -> s_known s' = s_known s -> s_gout s' = s_gout s ->
    s_proc s' = s_proc s -> s_msgs s' = s_msgs s -> s_parser s' = s_parser s ->
    Sound s later1 later2 -> Sound s' later1 later2.
  Proof. unfold Sound, PInv. intros -> -> -> -> -> -> -> -> ->. auto. Qed.

  Lemma sound_step s o later1 later2 : o <> OMsg false ->
    Sound s (now 1 o ++ later1) (now 2 o ++ later2) -> Sound (step s o) later1 later2.
  Proof.
    intros NF [P|(P & SP & No & Ne & K & I & G & ms & rest & Hm & Hw)].
    { left. apply ended_step; exact P. }
    pose proof (pinv_step nl names fields chans ingests parses s o I) as I'.
    destruct o; cbn [sub_step] in *.
    - (* data *)
      unfold sub_data in *. unfold now in *. cbn [chunks_of] in *.
      destruct (s_out s) as [lo|] eqn:O; [|congruence]. destruct (s_err s) as [le|] eqn:E; [|congruence].
      destruct (fd =? 1) eqn:F1.
      + assert (F2 : (fd =? 2) = false) by lia. rewrite F2 in G. cbn [List.concat app] in G.
        rewrite app_nil_r, concat_one in Hw.
        right. cbn [with_queues s_poll s_spawned s_out s_err s_known s_parser s_gout].
        split; [exact P|]. split; [exact SP|]. split; [discriminate|]. split; [congruence|].
        split; [exact K|]. split; [exact I'|]. split; [exact G|].
        exists ms, rest. split; [exact Hm|].
        change (Some (lo ++ [data])) with (q_put data (Some lo)). rewrite bytes_put by discriminate.
        rewrite <- Hw, <- !app_assoc. reflexivity.
      + cbn [List.concat app] in Hw.
        destruct (fd =? 2) eqn:F2.
        * rewrite app_nil_r, concat_one in G.
          right. cbn [with_queues s_poll s_spawned s_out s_err s_known s_parser s_gout].
          split; [exact P|]. split; [exact SP|]. split; [congruence|]. split; [discriminate|].
          split; [exact K|]. split; [exact I'|]. split; [|exists ms, rest; split; [exact Hm|exact Hw]].
          change (Some (le ++ [data])) with (q_put data (Some le)). rewrite bytes_put by discriminate.
          rewrite <- app_assoc. exact G.
        * cbn [List.concat app] in G. right.
          cbn [with_raise s_poll s_spawned s_out s_err s_known s_parser s_gout]. rewrite O, E.
          split; [exact P|]. split; [exact SP|]. split; [discriminate|]. split; [discriminate|].
          split; [exact K|]. split; [exact I'|]. split; [exact G|]. exists ms, rest. auto.
    - (* lost *)
      rewrite !now_other in * by discriminate. cbn [app] in *.
      unfold sub_lost in *. destruct (fd =? 1); [|destruct (fd =? 2)].
      + right. cbn [with_queues s_poll s_spawned s_out s_err s_known s_parser s_gout].
        rewrite bytes_put, app_nil_r by exact No.
        split; [exact P|]. split; [exact SP|]. split; [destruct (s_out s); [discriminate|congruence]|].
        split; [exact Ne|]. split; [exact K|]. split; [exact I'|]. split; [exact G|]. exists ms, rest; auto.
      + right. cbn [with_queues s_poll s_spawned s_out s_err s_known s_parser s_gout].
        rewrite bytes_put, app_nil_r by exact Ne.
        split; [exact P|]. split; [exact SP|]. split; [exact No|].
        split; [destruct (s_err s); [discriminate|congruence]|].
        split; [exact K|]. split; [exact I'|]. split; [exact G|]. exists ms, rest; auto.
      + right. split; [exact P|]. split; [exact SP|]. split; [exact No|]. split; [exact Ne|]. split; [exact K|].
        split; [exact I|]. split; [exact G|]. exists ms, rest; auto.
    - (* exit *)
      rewrite !now_other in * by discriminate. cbn [app] in *.
      right. unfold sub_exit in *. cbn [with_queues s_poll s_spawned s_out s_err s_known s_parser s_gout].
      rewrite !bytes_put, !app_nil_r by assumption.
      split; [exact P|]. split; [exact SP|]. split; [destruct (s_out s); [discriminate|congruence]|].
      split; [destruct (s_err s); [discriminate|congruence]|].
      split; [exact K|]. split; [exact I'|]. split; [exact G|]. exists ms, rest; auto.
    - (* attach *)
      rewrite !now_other in * by discriminate. cbn [app] in *. unfold sub_attach. rewrite SP.
      right. split; [exact P|]. split; [exact SP|]. split; [exact No|]. split; [exact Ne|]. split; [exact K|].
      split; [exact I|]. split; [exact G|]. exists ms, rest; auto.
    - (* peer *)
      rewrite !now_other in * by discriminate. cbn [app] in *. unfold sub_peer. rewrite K.
      right. split; [exact P|]. split; [exact SP|]. split; [exact No|]. split; [exact Ne|]. split; [exact K|].
      split; [exact I|]. split; [exact G|]. exists ms, rest; auto.
    - (* wake *)
      rewrite !now_other in * by discriminate. cbn [app] in *.
      assert (Same : Sound s later1 later2).
      { right. split; [exact P|]. split; [exact SP|]. split; [exact No|]. split; [exact Ne|]. split; [exact K|].
        split; [exact I|]. split; [exact G|]. exists ms, rest; auto. }
      unfold sub_wake in *. destruct (s_poll s) eqn:PP; try exact Same. clear Same.
      destruct (s_err s) as [l|] eqn:E; [|congruence]. rewrite bytes_some in G.
      destruct (drain_alive l s later2 K G) as [A B].
      pose proof (drain_keeps nl names fields chans ingests l s) as H. cbv zeta in H.
      pose proof (drain_err_queue nl names fields chans ingests l s E) as [(l' & Q1 & Q2) _].
      destruct (drain l s) as [s1 ok]. cbn [fst snd] in *. subst ok. specialize (Q2 eq_refl). subst l'.
      destruct H as (K1 & K2 & K3 & K4 & K5 & K6 & K7 & K8 & K9 & K10 & _).
      rewrite K2 in *. destruct (s_out s) as [lo|] eqn:O; [|congruence].
      right. cbn [with_poll s_poll s_spawned s_out s_err s_known s_parser s_gout].
      split; [discriminate|]. split; [congruence|]. split; [congruence|]. split; [congruence|].
      split; [congruence|]. split; [exact I'|]. split; [rewrite Q1; exact B|].
      exists ms, rest. rewrite K9, K2. auto.
    - (* take *)
      rewrite !now_other in * by discriminate. cbn [app] in *.
      assert (Same : Sound s later1 later2).
      { right. split; [exact P|]. split; [exact SP|]. split; [exact No|]. split; [exact Ne|]. split; [exact K|].
        split; [exact I|]. split; [exact G|]. exists ms, rest; auto. }
      unfold sub_take in *. destruct (s_poll s) as [|[|? ?]| |] eqn:PP; try exact Same.
      destruct (s_out s) as [[|d q]|] eqn:O; [| |congruence].
      + right. cbn [with_poll s_poll s_spawned s_out s_err s_known s_parser s_gout]. rewrite O.
        split; [discriminate|]. split; [exact SP|]. split; [discriminate|]. split; [exact Ne|]. split; [exact K|].
        split; [exact I'|]. split; [exact G|]. exists ms, rest; auto.
      + destruct d as [|x d].
        * right. cbn [s_poll s_spawned s_out s_err s_known s_parser s_gout].
          split; [discriminate|]. split; [exact SP|]. split; [discriminate|]. split; [exact Ne|]. split; [exact K|].
          split; [exact I'|]. split; [exact G|]. exists ms, rest. split; [exact Hm|].
          rewrite bytes_some in *. rewrite concat_app. cbn [List.concat app] in *. rewrite app_nil_r. exact Hw.
        * destruct (m_process _ _ _ _ _ _) as [[r p] e].
          right. cbn [s_poll s_spawned s_out s_err s_known s_parser s_gout].
          split; [discriminate|]. split; [exact SP|]. split; [discriminate|]. split; [exact Ne|]. split; [exact K|].
          split; [exact I'|]. split; [exact G|]. exists ms, rest. split; [exact Hm|].
          rewrite bytes_some in *. rewrite concat_app. cbn [List.concat] in *. rewrite app_nil_r, <- !app_assoc in *. exact Hw.
    - (* msg *)
      rewrite !now_other in * by discriminate. cbn [app] in *. destruct ok; [|congruence].
      assert (Same : Sound s later1 later2).
      { right. split; [exact P|]. split; [exact SP|]. split; [exact No|]. split; [exact Ne|]. split; [exact K|].
        split; [exact I|]. split; [exact G|]. exists ms, rest; auto. }
      unfold sub_msg in *. destruct (s_poll s) as [|[|m pend]| |] eqn:PP; try exact Same. clear Same.
      assert (Pm : parses m = true).
      { destruct I as (r & I1 & I2 & I3 & I4). rewrite PP in I4.
        assert (E : r = complete_in (zlen (List.concat (s_gout s))) ms).
        { eapply prefix_messages; [|exact Hw|exact I1].
          eapply Forall_impl; [|exact Hm]. intros a [A _]; exact A. }
        assert (In m ms).
        { eapply in_complete. rewrite <- E, <- I4. apply in_or_app. right; left; reflexivity. }
        rewrite Forall_forall in Hm. apply Hm. assumption. }
      rewrite Pm in *. right. cbn [s_poll s_spawned s_out s_err s_known s_parser s_gout].
      split; [discriminate|]. split; [exact SP|]. split; [exact No|]. split; [exact Ne|]. split; [exact K|].
      split; [exact I'|]. split; [exact G|]. exists ms, rest; auto.
    - (* cancel *)
      left. unfold sub_cancel. destruct (s_poll s); try reflexivity. congruence.
    - (* close *)
      rewrite !now_other in * by discriminate. cbn [app] in *.
      assert (Same : Sound s later1 later2).
      { right. split; [exact P|]. split; [exact SP|]. split; [exact No|]. split; [exact Ne|]. split; [exact K|].
        split; [exact I|]. split; [exact G|]. exists ms, rest; auto. }
      unfold sub_close in *. destruct (s_exited s); [|exact Same].
      destruct (s_poll s) eqn:PP; try exact Same; [congruence|]. left. reflexivity.
  Qed.

  Lemma chunks_cons fd o ops : List.concat (chunks_of fd (o :: ops)) = now fd o ++ List.concat (chunks_of fd ops).
  Proof.
    unfold now. destruct o; cbn [chunks_of]; try reflexivity.
    destruct (fd0 =? fd); [|reflexivity]. rewrite app_nil_r, concat_app. reflexivity.
  Qed.
  Lemma sound_run ops : forall s, handlers_ok ops ->
    Sound s (List.concat (chunks_of 1 ops)) (List.concat (chunks_of 2 ops)) -> Sound (run s ops) [] [].
  Proof.
    induction ops as [|o ops IH]; intros s H S; [exact S|].
    change (run s (o :: ops)) with (run (step s o) ops). apply IH.
    - intros X. apply H. right; exact X.
    - apply sound_step; [intros ->; apply H; left; reflexivity|]. rewrite <- !chunks_cons. exact S.
  Qed.

  (** ** The polling task empties the queues. *)
  Definition quiet (s : sub) : Prop :=
    s_poll s = PFailed \/ (s_poll s = PAsleep /\ s_out s = Some []).

  Lemma busy_drains q : forall pend s, s_poll s = PBusy pend -> s_out s = Some q ->
    exists ops, Forall service ops /\ quiet (run s ops) /\ s_err (run s ops) = s_err s.
  Proof.
    assert (Msgs : forall pend s, s_poll s = PBusy pend ->
      exists ops, Forall service ops /\ (s_poll (run s ops) = PFailed \/ s_poll (run s ops) = PBusy []) /\
        s_out (run s ops) = s_out s /\ s_err (run s ops) = s_err s).
    { induction pend as [|m pend IH]; intros s P.
      - exists []. split; [constructor|]. auto.
      - destruct (parses m) eqn:Pm.
        + destruct (IH (step s (OMsg true))) as (ops & A & B & C & D).
          { cbn [sub_step]. unfold sub_msg. rewrite P, Pm. reflexivity. }
          exists (OMsg true :: ops). split; [constructor; [unfold service; auto|exact A]|].
          change (run s (OMsg true :: ops)) with (run (step s (OMsg true)) ops).
          split; [exact B|]. rewrite C, D. cbn [sub_step]. unfold sub_msg. rewrite P, Pm. auto.
        + exists [OMsg true]. split; [constructor; [unfold service; auto|constructor]|].
          cbn [sub_run fold_left sub_step]. unfold sub_msg. rewrite P, Pm. cbn. auto. }
    induction q as [|c q IH]; intros pend s P O.
    - destruct (Msgs pend s P) as (ops & A & [B|B] & C & D).
      + exists ops. split; [exact A|]. split; [left; exact B|exact D].
      + exists (ops ++ [OTake]). split; [apply Forall_app; split; [exact A|constructor; [unfold service; auto|constructor]]|].
        rewrite run_snoc. cbn [sub_step]. unfold sub_take. rewrite B, C, O.
        split; [right; split; [reflexivity|cbn [with_poll s_out]; congruence]|exact D].
    - destruct (Msgs pend s P) as (ops & A & [B|B] & C & D).
      + exists ops. split; [exact A|]. split; [left; exact B|exact D].
      + set (s1 := step (run s ops) OTake).
        assert (T : exists pend', s_poll s1 = PBusy pend' /\ s_out s1 = Some q /\ s_err s1 = s_err s).
        { unfold s1. cbn [sub_step]. unfold sub_take. rewrite B, C, O.
          destruct c as [|x c]; [cbn; rewrite ?B; eauto|].
          destruct (m_process _ _ _ _ _ _) as [[r p] e]. cbn. eauto. }
        destruct T as (pend' & T1 & T2 & T3).
        destruct (IH pend' s1 T1 T2) as (ops2 & A2 & B2 & D2).
        exists (ops ++ OTake :: ops2). split.
        * apply Forall_app. split; [exact A|]. constructor; [unfold service; auto|exact A2].
        * rewrite run_app. change (run (run s ops) (OTake :: ops2)) with (run s1 ops2).
          split; [exact B2|]. rewrite D2. exact T3.
  Qed.

  Lemma asleep_drains s q l : s_poll s = PAsleep -> s_out s = Some q -> s_err s = Some l ->
    exists ops, Forall service ops /\ (s_poll (run s ops) = PFailed \/
      s_poll (run s ops) = PAsleep /\ s_out (run s ops) = Some [] /\ s_err (run s ops) = Some []).
  Proof.
    intros P O E.
    pose proof (drain_keeps nl names fields chans ingests l s) as H. cbv zeta in H.
    pose proof (drain_err_queue nl names fields chans ingests l s E) as [(l' & Q1 & Q2) _].
    destruct (snd (drain l s)) eqn:OK.
    - specialize (Q2 eq_refl). subst l'.
      set (s1 := step s OWake).
      assert (S1 : s_poll s1 = PBusy [] /\ s_out s1 = Some q /\ s_err s1 = Some []).
      { unfold s1. cbn [sub_step]. unfold sub_wake. rewrite P, E.
        destruct (drain l s) as [s2 ok]. cbn [fst snd] in *. subst ok.
        destruct H as (_ & H2 & _). rewrite H2, O. cbn. rewrite H2, O, Q1. auto. }
      destruct S1 as (S1 & S2 & S3).
      destruct (busy_drains q [] s1 S1 S2) as (ops & A & B & C).
      exists (OWake :: ops). split; [constructor; [unfold service; auto|exact A]|].
      change (run s (OWake :: ops)) with (run s1 ops). rewrite C, S3.
      destruct B as [B|[B1 B2]]; [left; exact B|right; auto].
    - exists [OWake]. split; [constructor; [unfold service; auto|constructor]|]. left.
      cbn [sub_run fold_left sub_step]. unfold sub_wake. rewrite P, E.
      destruct (drain l s) as [s2 ok]. cbn [snd] in OK. subst ok. reflexivity.
  Qed.
End Alive.

Section Counts.
  Context (nl : bool) (names : Z -> option string) (fields chans : string -> option kind)
    (ingests : parsed -> bool) (parses : list Z -> bool).
  Notation step := (sub_step nl names fields chans ingests parses).
  Notation run := (sub_run nl names fields chans ingests parses).
  Notation herr := (handle_err nl names fields chans ingests).
  Notation drain := (drain_err nl names fields chans ingests).

  Definition counted (c : counts) (l : list chunk) : Prop :=
    k_messages c = zlen (full l) /\ k_bytes c = total l.
  Lemma counted_up c l x d : counted c l -> counted (count_up (zlen (x :: d)) c) (l ++ [x :: d]).
  Proof.
    intros [A B]. unfold counted, count_up, total in *. cbn [k_messages k_bytes].
    rewrite full_app, concat_app, !zlen_app, A, B. cbn. rewrite app_nil_r. split; [reflexivity|]. reflexivity.
  Qed.
  Lemma counted_nil c l : counted c l -> counted c (l ++ [[]]).
  Proof.
    intros [A B]. unfold counted, total in *. rewrite full_app, concat_app. cbn. rewrite !app_nil_r. auto.
  Qed.
  Definition CInv (s : sub) : Prop :=
    counted (s_mout s) (s_gout s) /\ counted (s_merr s) (map snd (s_gerr s)).

  Lemma cinv_same s s' : s_mout s' = s_mout s -> s_gout s' = s_gout s -> s_merr s' = s_merr s ->
    s_gerr s' = s_gerr s -> CInv s -> CInv s'.
  Proof. unfold CInv. intros -> -> -> ->. auto. Qed.
  Lemma cinv_herr c s : CInv s -> CInv (fst (herr c s)).
  Proof.
    intros [A B]. unfold handle_err. destruct c as [|x c].
    - unfold CInv; cbn [fst s_mout s_gout s_merr s_gerr]. rewrite map_app. split; [exact A|].
      apply counted_nil; exact B.
    - destruct (s_known s).
      + destruct (x_parse _ _ _ _ _ _) as [[es p] bad]. destruct (ingest_all _ _) as [dn ok].
        unfold CInv; cbn [fst s_mout s_gout s_merr s_gerr]. rewrite map_app. split; [exact A|].
        apply counted_up; exact B.
      + unfold CInv; cbn [fst s_mout s_gout s_merr s_gerr]. rewrite map_app. split; [exact A|].
        apply counted_up; exact B.
  Qed.
  Lemma cinv_drain l : forall s, CInv s -> CInv (fst (drain l s)).
  Proof.
    induction l as [|c l IH]; intros s I; cbn [drain_err]; [exact I|].
    pose proof (cinv_herr c (with_queues (s_out s) (Some l) s)) as H.
    destruct (herr c _) as [s1 ok]. cbn [fst] in H.
    assert (I' : CInv s1) by (apply H; exact I). destruct ok; [apply IH; exact I'|exact I'].
  Qed.
  Lemma cinv_step s o : CInv s -> CInv (step s o).
  Proof.
    intros I. destruct o; cbn [sub_step].
    - unfold sub_data. destruct (fd =? 1); destruct (s_out s), (s_err s); try destruct (fd =? 2); exact I.
    - unfold sub_lost. destruct (fd =? 1); [exact I|]. destruct (fd =? 2); exact I.
    - exact I.
    - unfold sub_attach. destruct (s_spawned s); exact I.
    - unfold sub_peer. destruct (s_known s); exact I.
    - unfold sub_wake. destruct (s_poll s); try exact I.
      destruct (s_err s) as [l|] eqn:E.
      + pose proof (cinv_drain l s I) as D. destruct (drain l s) as [s1 ok]. cbn [fst] in D.
        destruct ok; [|exact D]. destruct (s_out s1); [exact D|]. destruct (s_err s1); exact D.
      + destruct (s_out s); [exact I|]. destruct (s_err s); exact I.
    - unfold sub_take. destruct (s_poll s) as [|[|? ?]| |]; try exact I.
      destruct I as [A B].
      destruct (s_out s) as [[|[|x d] q]|]; try (split; assumption).
      + split; [|exact B]. apply counted_nil; exact A.
      + destruct (m_process _ _ _ _ _ _) as [[r p] e]. split; [|exact B]. apply counted_up; exact A.
    - unfold sub_msg. destruct (s_poll s) as [|[|? ?]| |]; try exact I. destruct (parses _); exact I.
    - unfold sub_cancel. destruct (s_poll s); exact I.
    - unfold sub_close. destruct (s_exited s); [|exact I]. destruct (s_poll s); exact I.
  Qed.
  Lemma cinv_run ops : forall s, CInv s -> CInv (run s ops).
  Proof.
    induction ops as [|o ops IH]; intros s I; [exact I|].
    change (run s (o :: ops)) with (run (step s o) ops). apply IH, cinv_step, I.
  Qed.
  Lemma cinv_init : CInv sub_init.
  Proof. repeat split. Qed.
End Counts.

(** ** The program's input loop. *)
Section Input.
  Context (nl : bool) (works : list Z -> bool).
  Notation io := (io_step nl works).
  Notation iorun := (io_run nl works).
  Notation process := (m_process nl U32 Network all).

  Lemma io_over ops : forall g, g_over g = true -> iorun g ops = g.
  Proof.
    induction ops as [|o ops IH]; intros g H; [reflexivity|].
    change (iorun g (o :: ops)) with (iorun (io g o) ops).
    assert (E : io g o = g) by (unfold io_step; rewrite H; reflexivity). rewrite E. apply IH; exact H.
  Qed.

  Lemma read_app a b : read_of (a ++ b) = read_of a ++ read_of b.
  Proof. induction a as [|[]]; cbn; rewrite ?IHa; reflexivity. Qed.

  Lemma io_messages_ok ms : Forall (fun m => works m = true) ms -> io_messages works ms = (ms, true).
  Proof. induction 1 as [|m ms H _ IH]; [reflexivity|]. cbn. rewrite H, IH. reflexivity. Qed.

  Lemma complete_next ms : forall n, complete_in (n + 1) ms = complete_in n ms \/
    exists m, complete_in (n + 1) ms = complete_in n ms ++ [m] /\ n + 1 = zlen (wire (complete_in (n + 1) ms)).
  Proof.
    induction ms as [|m ms IH]; intros n; cbn [complete_in]; [left; reflexivity|].
    pose proof (zlen_nonneg m).
    assert (Lf : zlen (frame m) = 4 + zlen m) by (unfold frame; rewrite zlen_app; reflexivity).
    destruct (Z.leb_spec (4 + zlen m) (n + 1)) as [A|A]; destruct (Z.leb_spec (4 + zlen m) n) as [B|B].
    - replace (n + 1 - 4 - zlen m) with (n - 4 - zlen m + 1) by lia.
      destruct (IH (n - 4 - zlen m)) as [E|(m' & E & L)].
      + left. rewrite E. reflexivity.
      + right. exists m'. split; [rewrite E; reflexivity|].
        unfold wire. cbn [map List.concat]. fold (wire (complete_in (n - 4 - zlen m + 1) ms)).
        rewrite zlen_app, Lf. lia.
    - assert (C : complete_in (n + 1 - 4 - zlen m) ms = []).
      { destruct ms as [|m' ms]; [reflexivity|]. cbn [complete_in]. pose proof (zlen_nonneg m').
        destruct (Z.leb_spec (4 + zlen m') (n + 1 - 4 - zlen m)); [lia|reflexivity]. }
      right. exists m. rewrite C. split; [reflexivity|]. unfold wire. cbn [map List.concat].
      rewrite app_nil_r, Lf. lia.
    - lia.
    - left; reflexivity.
  Qed.

  Definition IInv (ms : list (list Z)) (read : list Z) (g : prog) : Prop :=
    g_over g = false /\ g_eof g = false /\
    process m_init read = (g_msgs g, g_proc g, EDone) /\ MInv (g_proc g) /\
    m_turn nl U32 Network (g_proc g) = TStop /\
    k_bytes (g_stdin g) = zlen (wire (g_msgs g)) /\ k_messages (g_stdin g) = zlen (g_msgs g) /\
    k_bytes (g_stdin g) + g_acc g = zlen read.

  Lemma io_inv ms rest : Forall (fun m => zlen m < 2 ^ 32) ms -> Forall (fun m => works m = true) ms ->
    forall ops, no_end ops -> read_of ops ++ rest = wire ms ->
    IInv ms (read_of ops) (iorun prog_init ops).
  Proof.
    intros Fm Fw ops. revert rest. induction ops as [|o ops IH] using rev_ind; intros rest N E.
    { repeat split; try reflexivity. unfold MInv; cbn; lia. }
    assert (No : no_end ops).
    { destruct N as [N1 N2]. split; intros X; [apply N1|apply N2]; apply in_or_app; left; exact X. }
    unfold io_run. rewrite fold_left_app. cbn [fold_left]. fold (iorun prog_init ops).
    rewrite read_app in E |- *.
    destruct o as [b| | |].
    - cbn [read_of] in E |- *. rewrite <- app_assoc in E.
      destruct (IH _ No E) as (I1 & I2 & I3 & I4 & I5 & I6 & I7 & I8).
      set (g := iorun prog_init ops) in *.
      assert (Sz : forall r q, process m_init (read_of ops) = (r, q, EDone) ->
                   r = complete_in (zlen (read_of ops)) ms).
      { intros r q P. replace (read_of ops) with (List.concat [read_of ops]) in * by (cbn; apply app_nil_r).
        eapply (prefix_messages nl); [exact Fm|exact E|exact P]. }
      specialize (Sz _ _ I3).
      destruct (process_done nl U32 Network 32 ik_u32 (g_proc g) [b] I4) as (r & q & P & Iq & Tq).
      pose proof (process_app nl U32 Network 32 ik_u32 m_init (read_of ops) [b] _ _ _ _ ltac:(cbv; discriminate) I3 P) as PA.
      assert (Sz2 : g_msgs g ++ r = complete_in (zlen (read_of ops) + 1) ms).
      { replace (zlen (read_of ops) + 1) with (zlen (List.concat [read_of ops ++ [b]]))
          by (cbn; rewrite app_nil_r, zlen_app; reflexivity).
        apply (prefix_messages nl [read_of ops ++ [b]] rest ms _ q Fm).
        - cbn [List.concat]. rewrite app_nil_r, <- app_assoc. exact E.
        - cbn [List.concat]. rewrite app_nil_r. exact PA. }
      assert (Wr : Forall (fun m => works m = true) r).
      { apply Forall_forall. intros m Hm. rewrite Forall_forall in Fw. apply Fw.
        eapply (in_complete m ms). rewrite <- Sz2. apply in_or_app. right; exact Hm. }
      unfold io_step. rewrite I1, process_fix, P, (io_messages_ok r Wr).
      destruct (complete_next ms (zlen (read_of ops))) as [C|(m & C & L)].
      + rewrite C, <- Sz in Sz2. assert (r = []) as ->.
        { rewrite <- (app_nil_r (g_msgs g)) in Sz2 at 2. apply app_inv_head in Sz2. exact Sz2. }
        rewrite app_nil_r in PA.
        unfold IInv. cbn [g_over g_eof g_msgs g_proc g_stdin g_acc].
        repeat split; auto. rewrite zlen_app. change (zlen [b]) with 1. lia.
      + rewrite C, <- Sz in Sz2. apply app_inv_head in Sz2. subst r.
        unfold IInv. cbn [g_over g_eof g_msgs g_proc g_stdin g_acc count_up k_bytes k_messages].
        rewrite C, <- Sz in L.
        repeat split; auto.
        * lia.
        * rewrite I7, zlen_app. reflexivity.
        * rewrite zlen_app. change (zlen [b]) with 1. lia.
    - cbn [read_of] in *. rewrite app_nil_r in *.
      destruct (IH _ No E) as (I1 & I2 & I3 & I4 & I5 & I6 & I7 & I8).
      unfold io_step. rewrite I1. repeat split; auto.
    - destruct N as [N _]. exfalso. apply N. apply in_or_app. right; left; reflexivity.
    - destruct N as [_ N]. exfalso. apply N. apply in_or_app. right; left; reflexivity.
  Qed.
End Input.
