(** Properties C73 to C75: the output of a subprocess reaches its handlers. *)
From Coq Require Import ZifyBool ZifyNat Lia.
From Verif Require Import Base BaseLemmas PrimModel PrimSpec PrimProofs FifoModel
  MessageModel MessageSpec MessageProofs MessageProps EventModel EventSpec EventProofs EventProps
  SubprocModel SubprocSpec SubprocProofs.

Notation srun nl names fields chans ingests parses :=
  (sub_run nl names fields chans ingests parses sub_init).

(** C73, the part that holds: from the moment the queues are assigned, for
    every schedule, what was given to the handlers, then what was logged when
    the process was closed, then what still waits in the queue are the chunks
    that arrived on that stream, in order, none lost, duplicated or moved to
    the other stream.  (What arrived before is lost: see below.) *)
Theorem C73_streams_partial :
  forall nl names fields chans ingests parses before o e after,
    no_attach before ->
    let s := srun nl names fields chans ingests parses (before ++ OAttach o e :: after) in
    full (s_gout s) ++ s_lout s ++ waiting (s_out s) = (if o then chunks_of 1 after else []) /\
    full (map snd (s_gerr s)) ++ s_lerr s ++ waiting (s_err s) =
      (if e then chunks_of 2 after else []).
Proof.
  intros nl names fields chans ingests parses before o e after N s. subst s.
  replace (before ++ OAttach o e :: after) with ((before ++ [OAttach o e]) ++ after)
    by (rewrite <- app_assoc; reflexivity).
  rewrite run_app.
  destruct (start_fresh nl names fields chans ingests parses before o e N)
    as (F1 & F2 & F3 & F4 & F5 & F6 & F7).
  destruct (streams_run nl names fields chans ingests parses after _ F1 F7) as (A & B & _).
  cbv zeta in A, B. rewrite F4, F2 in A. rewrite F5, F3 in B. unfold outs in A. unfold errs in B.
  cbn [app] in A, B. rewrite A, B. split; [destruct o|destruct e]; reflexivity.
Qed.
Print Assumptions C73_streams_partial.

(** C73 is false for what the process writes before the caller has assigned the
    queues: it is dropped. *)
Theorem C73_early_refuted :
  exists c, c <> [] /\
  forall nl names fields chans ingests parses,
    let s := srun nl names fields chans ingests parses
               [OData 1 c; OData 2 c; OAttach true true; OWake; OTake] in
    s_gout s = [] /\ s_gerr s = [] /\ s_out s = Some [] /\ s_err s = Some [] /\
    s_lout s = [] /\ s_raised s = 0%nat.
Proof. exists [1]. split; [discriminate|]. intros. repeat split. Qed.
Print Assumptions C73_early_refuted.

(** C73: how often receiving data raises, exactly. *)
Theorem C73_raises :
  forall nl names fields chans ingests parses before o e after,
    no_attach before ->
    s_raised (srun nl names fields chans ingests parses (before ++ OAttach o e :: after)) =
    misplaced o e after.
Proof.
  intros nl names fields chans ingests parses before o e after N.
  replace (before ++ OAttach o e :: after) with ((before ++ [OAttach o e]) ++ after)
    by (rewrite <- app_assoc; reflexivity).
  rewrite run_app.
  destruct (start_fresh nl names fields chans ingests parses before o e N)
    as (F1 & F2 & F3 & F4 & F5 & F6 & F7).
  rewrite raised_run by assumption. rewrite F6, F2, F3. destruct o, e; reflexivity.
Qed.
Print Assumptions C73_raises.

(** With a queue for stdout, data on stdout and stderr never raises. *)
Theorem C73_no_raise :
  forall nl names fields chans ingests parses before e after,
    no_attach before ->
    (forall fd d, In (OData fd d) after -> fd = 1 \/ fd = 2) ->
    s_raised (srun nl names fields chans ingests parses (before ++ OAttach true e :: after)) = 0%nat.
Proof.
  intros nl names fields chans ingests parses before e after N H. rewrite C73_raises by exact N.
  induction after as [|x after IH]; [reflexivity|].
  assert (IH' : misplaced true e after = 0%nat) by (apply IH; intros fd d X; apply (H fd d); right; exact X).
  destruct x; cbn [misplaced]; rewrite ?IH'; try reflexivity.
  destruct (H fd data (or_introl eq_refl)) as [-> | ->]; destruct e; reflexivity.
Qed.
Print Assumptions C73_no_raise.

(** Without one it does, for every chunk the process writes to stdout. *)
Theorem C73_stderr_only_refuted :
  forall nl names fields chans ingests parses d,
    s_raised (srun nl names fields chans ingests parses [OAttach false true; OData 1 d]) = 1%nat.
Proof. reflexivity. Qed.
Print Assumptions C73_stderr_only_refuted.

(** C73, at the end: when [close_protocol] has run, every chunk that had
    arrived was handled or logged. *)
Theorem C73_closed_partial :
  forall nl names fields chans ingests parses before after,
    no_attach before ->
    let run := srun nl names fields chans ingests parses in
    let s0 := run (before ++ OAttach true true :: after) in
    s_exited s0 = true -> s_poll s0 = PEnded \/ s_poll s0 = PFailed ->
    let s := run (before ++ OAttach true true :: after ++ [OClose]) in
    full (s_gout s) ++ s_lout s = chunks_of 1 after /\
    full (map snd (s_gerr s)) ++ s_lerr s = chunks_of 2 after.
Proof.
  intros nl names fields chans ingests parses before after N run s0 X P s.
  pose proof (C73_streams_partial nl names fields chans ingests parses before true true
                (after ++ [OClose]) N) as [A B]. cbv zeta in A, B.
  change (sub_run nl names fields chans ingests parses sub_init
            (before ++ OAttach true true :: after ++ [OClose])) with s in *.
  assert (CA : forall fd, chunks_of fd (after ++ [OClose]) = chunks_of fd after).
  { intros fd. clear. induction after as [|o after IH]; [reflexivity|].
    destruct o; cbn [app chunks_of]; rewrite ?IH; reflexivity. }
  rewrite CA in A, B.
  assert (E : s = sub_close s0).
  { unfold s, s0, run.
    replace (before ++ OAttach true true :: after ++ [OClose])
      with ((before ++ OAttach true true :: after) ++ [OClose]) by (rewrite <- app_assoc; reflexivity).
    rewrite run_snoc. reflexivity. }
  assert (W : waiting (s_out s) = [] /\ waiting (s_err s) = []).
  { rewrite E. unfold sub_close. rewrite X.
    destruct P as [P|P]; rewrite P; cbn [s_out s_err]; destruct (s_out s0), (s_err s0); split; reflexivity. }
  destruct W as [W1 W2]. rewrite W1, app_nil_r in A. rewrite W2, app_nil_r in B. auto.
Qed.
Print Assumptions C73_closed_partial.

(** The end of the process is not the end of its output: what arrives after
    the queues were logged is neither handled nor logged. *)
Theorem C73_late_refuted :
  exists c, c <> [] /\
  forall nl names fields chans ingests parses,
    let s := srun nl names fields chans ingests parses
               [OAttach true true; OExit; OCancel; OClose; OData 1 c; OLost 1; OClose] in
    let t := srun nl names fields chans ingests parses
               [OAttach true true; OExit; OCancel; OClose; OData 1 c] in
    s_exited t = true /\ s_gout t = [] /\ s_lout t = [] /\ waiting (s_out t) = [c] /\
    s_lout s = [c].
Proof. exists [1]. split; [discriminate|]. intros. repeat split. Qed.
Print Assumptions C73_late_refuted.

(** C73, progress: from every reachable state in which the polling task sleeps,
    letting it run (with message handlers that return) empties both queues, or
    an exception ends the task. *)
Theorem C73_drains :
  forall nl names fields chans ingests parses ops,
    let run := sub_run nl names fields chans ingests parses in
    let s := run sub_init ops in
    s_poll s = PAsleep -> s_out s <> None -> s_err s <> None ->
    exists more, Forall service more /\
      let s' := run s more in
      s_poll s' = PFailed \/
      (s_poll s' = PAsleep /\ s_out s' = Some [] /\ s_err s' = Some []).
Proof.
  intros nl names fields chans ingests parses ops run s P O E.
  destruct (s_out s) as [q|] eqn:Oq; [|congruence]. destruct (s_err s) as [l|] eqn:El; [|congruence].
  exact (asleep_drains nl names fields chans ingests parses s q l P Oq El).
Qed.
Print Assumptions C73_drains.

(** C73, metrics: the counters of a stream are the number of chunks handled
    and their bytes. *)
Theorem C73_counts :
  forall nl names fields chans ingests parses ops,
    let s := srun nl names fields chans ingests parses ops in
    k_messages (s_mout s) = zlen (full (s_gout s)) /\ k_bytes (s_mout s) = total (s_gout s) /\
    k_messages (s_merr s) = zlen (full (map snd (s_gerr s))) /\
    k_bytes (s_merr s) = total (map snd (s_gerr s)).
Proof.
  intros nl names fields chans ingests parses ops.
  destruct (cinv_run nl names fields chans ingests parses ops sub_init cinv_init) as [[A B] [C D]].
  cbv zeta. auto.
Qed.
Print Assumptions C73_counts.

(** ** C74 *)

(** The messages given to [process_json] are the first of those the process
    sent, in order, once each, however its output was cut into chunks; and all
    that are complete, when the polling task sleeps and the queue is empty. *)
Theorem C74_messages :
  forall nl names fields chans ingests parses before e after ms rest,
    no_attach before ->
    Forall (fun m => zlen m < 2 ^ 32) ms ->
    List.concat (chunks_of 1 after) ++ rest = wire ms ->
    let s := srun nl names fields chans ingests parses (before ++ OAttach true e :: after) in
    (exists more, s_msgs s ++ more = complete_in (total (chunks_of 1 after)) ms) /\
    (s_poll s = PAsleep -> s_out s = Some [] ->
     s_msgs s = complete_in (total (chunks_of 1 after)) ms).
Proof.
  intros nl names fields chans ingests parses before e after ms rest N F E s.
  destruct (pinv_run nl names fields chans ingests parses (before ++ OAttach true e :: after) sub_init
              (pinv_init nl)) as (r & P1 & P2 & P3 & P4). fold s in P1, P2, P3, P4.
  destruct (C73_streams_partial nl names fields chans ingests parses before true e after N) as [A _].
  fold s in A. cbv zeta in A.
  assert (Cut : List.concat (s_gout s) ++ List.concat (s_lout s ++ waiting (s_out s)) =
                List.concat (chunks_of 1 after)).
  { transitivity (List.concat (full (s_gout s)) ++ List.concat (s_lout s ++ waiting (s_out s))).
    - f_equal. symmetry. apply concat_full.
    - rewrite <- A. symmetry. apply concat_app. }
  assert (R : r = complete_in (zlen (List.concat (s_gout s))) ms).
  { eapply (prefix_messages nl (s_gout s)); [exact F| |exact P1].
    rewrite <- E, <- Cut, <- app_assoc. reflexivity. }
  assert (Mono : forall n k, 0 <= k -> exists more, complete_in n ms ++ more = complete_in (n + k) ms).
  { clear. induction ms as [|m ms IH]; intros n k K; cbn [complete_in]; [exists []; reflexivity|].
    destruct (Z.leb_spec (4 + zlen m) n).
    - destruct (Z.leb_spec (4 + zlen m) (n + k)); [|lia].
      destruct (IH (n - 4 - zlen m) k K) as [more M]. exists more. cbn [app]. rewrite M. do 2 f_equal. lia.
    - exists (if 4 + zlen m <=? n + k then m :: complete_in (n + k - 4 - zlen m) ms else []). reflexivity. }
  assert (Pre : exists more, s_msgs s ++ more = r).
  { destruct (s_poll s); [exists []; rewrite app_nil_r; exact P4|eexists; exact P4|exact P4|exact P4]. }
  unfold total. rewrite <- Cut, zlen_app. split.
  - destruct Pre as [m1 M1].
    destruct (Mono (zlen (List.concat (s_gout s))) (zlen (List.concat (s_lout s ++ waiting (s_out s))))
                (zlen_nonneg _)) as [m2 M2].
    exists (m1 ++ m2). rewrite app_assoc, M1, R. exact M2.
  - intros PA Q. rewrite PA in P4. rewrite P4, R. f_equal.
    assert (L : s_lout s = []).
    { destruct (start_fresh nl names fields chans ingests parses before true e N)
        as (F1 & F2 & F3 & F4 & F5 & F6 & F7).
      destruct (streams_run nl names fields chans ingests parses after _ F1 F7) as (_ & _ & G & _).
      cbv zeta in G. rewrite <- run_app, <- app_assoc in G. cbn [app] in G. fold s in G.
      destruct G as [[G _]|[G|G]]; [exact G|congruence|congruence]. }
    rewrite L, Q. cbn. lia.
Qed.
Print Assumptions C74_messages.

(** C74, telemetry: once the peer's environment is known, the events ingested
    are those of the stream (up to the first bad one), as C23 describes; what
    came before was dropped. *)
Theorem C74_events_partial :
  forall nl names fields chans ingests parses before e after es,
    no_attach before -> no_empty_name fields chans -> Forall (agreed names fields chans) es ->
    let s := srun nl names fields chans ingests parses
               (before ++ OAttach e true :: OPeer :: after) in
    let handled := full (map snd (s_gerr s)) in
    s_poll s <> PFailed ->
    List.concat handled = event_stream es ->
    (s_events s = map seen es <-> forall k, inside_value (received k handled) es = false).
Proof.
  intros nl names fields chans ingests parses before e after es N NE Ag s handled PF E.
  pose proof (evinv_run nl names fields chans ingests parses (before ++ OAttach e true :: OPeer :: after)
                sub_init (evinv_init nl names fields chans)) as I. fold s in I.
  assert (EvOk nl names fields chans true s).
  { unfold EvInv in I. destruct (s_poll s); auto. congruence. }
  assert (K : s_known s = true /\ filter fst (s_gerr s) = s_gerr s).
  { unfold s. replace (before ++ OAttach e true :: OPeer :: after)
      with ((before ++ [OAttach e true]) ++ OPeer :: after) by (rewrite <- app_assoc; reflexivity).
    rewrite run_app, run_cons.
    destruct (start_fresh nl names fields chans ingests parses before e true N)
      as (F1 & F2 & F3 & F4 & F5 & F6 & F7).
    set (s0 := srun nl names fields chans ingests parses (before ++ [OAttach e true])) in *.
    assert (G0 : s_gerr s0 = []).
    { unfold s0. rewrite run_snoc.
      assert (G : forall ops, no_attach ops ->
        s_gerr (srun nl names fields chans ingests parses ops) = []).
      { clear. induction ops as [|o ops IH] using rev_ind; intros Na; [reflexivity|].
        assert (Na' : no_attach ops) by (intros a b X; apply (Na a b); apply in_or_app; left; exact X).
        rewrite run_snoc. specialize (IH Na').
        destruct (virgin_run nl names fields chans ingests parses ops sub_init virgin_init Na')
          as (V1 & V2 & V3 & _).
        set (t := srun nl names fields chans ingests parses ops) in *.
        destruct o; cbn [sub_step]; auto.
        - unfold sub_data. rewrite V2, V3. destruct (fd =? 1); exact IH.
        - unfold sub_lost. destruct (fd =? 1); [exact IH|]. destruct (fd =? 2); exact IH.
        - unfold sub_attach. destruct (s_spawned t); exact IH.
        - unfold sub_peer. destruct (s_known t); exact IH.
        - unfold sub_wake. destruct (s_poll t); try exact IH. rewrite V3, V2, V3. exact IH.
        - unfold sub_take. rewrite V2. destruct (s_poll t) as [|[|? ?]| |]; exact IH.
        - unfold sub_msg. destruct (s_poll t) as [|[|? ?]| |]; try exact IH. destruct (parses _); exact IH.
        - unfold sub_cancel. destruct (s_poll t); exact IH.
        - unfold sub_close. destruct (s_exited t); [|exact IH]. destruct (s_poll t); exact IH. }
      cbn [sub_step]. unfold sub_attach. specialize (G before N).
      destruct (s_spawned (srun nl names fields chans ingests parses before)); exact G. }
    assert (KS : s_known (sub_step nl names fields chans ingests parses s0 OPeer) = true /\
                 filter fst (s_gerr (sub_step nl names fields chans ingests parses s0 OPeer)) =
                 s_gerr (sub_step nl names fields chans ingests parses s0 OPeer)).
    { cbn [sub_step]. unfold sub_peer. destruct (s_known s0) eqn:K0; cbn; rewrite G0; auto. }
    revert KS. generalize (sub_step nl names fields chans ingests parses s0 OPeer). clear.
    assert (HE : forall c t, s_known t = true -> filter fst (s_gerr t) = s_gerr t ->
      let t' := fst (handle_err nl names fields chans ingests c t) in
      s_known t' = true /\ filter fst (s_gerr t') = s_gerr t').
    { intros c t A B. destruct (herr_keeps nl names fields chans ingests c t)
        as (_ & _ & _ & _ & _ & _ & _ & H8 & _ & _ & _ & _ & _ & H14).
      cbv zeta in *. rewrite H8, H14, filter_app, B, A. auto. }
    assert (HD : forall l t, s_known t = true -> filter fst (s_gerr t) = s_gerr t ->
      let t' := fst (drain_err nl names fields chans ingests l t) in
      s_known t' = true /\ filter fst (s_gerr t') = s_gerr t').
    { induction l as [|c l IH]; intros t A B; cbn [drain_err]; [auto|].
      destruct (HE c (with_queues (s_out t) (Some l) t) A B) as [H1 H2].
      destruct (handle_err _ _ _ _ _ c _) as [t1 ok]. cbn [fst] in *.
      destruct ok; [apply IH; assumption|auto]. }
    induction after as [|o after IH]; intros t [A B]; [auto|].
    rewrite run_cons. apply IH. destruct o; cbn [sub_step]; auto.
    - unfold sub_data. destruct (fd =? 1); destruct (s_out t), (s_err t); try destruct (fd =? 2); split; assumption.
    - unfold sub_lost. destruct (fd =? 1); [auto|]. destruct (fd =? 2); auto.
    - unfold sub_attach. destruct (s_spawned t); auto.
    - unfold sub_peer. rewrite A. auto.
    - unfold sub_wake. destruct (s_poll t); try (split; assumption).
      destruct (s_err t) as [l|] eqn:El.
      + destruct (HD l t A B) as [H1 H2]. destruct (drain_err _ _ _ _ _ l t) as [t1 ok]. cbn [fst] in *.
        destruct ok; [|auto]. destruct (s_out t1); [auto|]. destruct (s_err t1); auto.
      + destruct (s_out t); [auto|]. rewrite El. auto.
    - unfold sub_take. destruct (s_poll t) as [|[|? ?]| |]; try (split; assumption).
      destruct (s_out t) as [[|[|? ?] ?]|]; try (split; assumption).
      destruct (m_process _ _ _ _ _ _) as [[r p] e0]. auto.
    - unfold sub_msg. destruct (s_poll t) as [|[|? ?]| |]; try (split; assumption). destruct (parses _); auto.
    - unfold sub_cancel. destruct (s_poll t); auto.
    - unfold sub_close. destruct (s_exited t); [|auto]. destruct (s_poll t); auto. }
  destruct K as [K1 K2]. destruct H as [_ H]. specialize (H K1).
  assert (KC : known_chunks (s_gerr s) = handled).
  { unfold known_chunks, handled. rewrite K2. reflexivity. }
  rewrite KC in H.
  rewrite <- (C23_chunked_stream_iff nl names fields chans es handled NE Ag E). rewrite H. reflexivity.
Qed.
Print Assumptions C74_events_partial.

(** C74, the polling task goes on for ever as long as no message handler
    raises, every message is JSON and stderr carries a telemetry stream of the
    environment and nothing else. *)
Theorem C74_alive_partial :
  forall nl names fields chans ingests parses before after ms rest es rest',
    no_attach before -> handlers_ok before -> handlers_ok after -> no_empty_name fields chans ->
    Forall (fun m => zlen m < 2 ^ 32 /\ parses m = true) ms ->
    List.concat (chunks_of 1 after) ++ rest = wire ms ->
    Forall (fun e => agreed names fields chans e /\ ingests (seen e) = true) es ->
    List.concat (chunks_of 2 after) ++ rest' = event_stream es ->
    s_poll (srun nl names fields chans ingests parses
              (before ++ OAttach true true :: OPeer :: after)) <> PFailed.
Proof.
  intros nl names fields chans ingests parses before after ms rest es rest' N HB HA [N1 N2] Hm Em He Ee.
  replace (before ++ OAttach true true :: OPeer :: after)
    with ((before ++ [OAttach true true]) ++ OPeer :: after) by (rewrite <- app_assoc; reflexivity).
  rewrite run_app, run_cons.
  destruct (start_fresh nl names fields chans ingests parses before true true N)
    as (F1 & F2 & F3 & F4 & F5 & F6 & F7).
  pose proof (pinv_run nl names fields chans ingests parses (before ++ [OAttach true true]) sub_init (pinv_init nl)) as PI.
  assert (B : let t := srun nl names fields chans ingests parses (before ++ [OAttach true true]) in
              (s_poll t = PAsleep \/ s_poll t = PEnded) /\ s_gout t = [] /\ (s_known t = true -> s_parser t = x_init)).
  { cbv zeta. rewrite run_snoc.
    assert (G : forall ops, no_attach ops ->
        let t := srun nl names fields chans ingests parses ops in
        (s_poll t = PAsleep \/ s_poll t = PEnded) /\ s_gout t = [] /\ s_parser t = x_init).
    { clear. induction ops as [|o ops IH] using rev_ind; intros Na; [cbn; auto|].
      assert (Na' : no_attach ops) by (intros a b X; apply (Na a b); apply in_or_app; left; exact X).
      cbv zeta. rewrite run_snoc. specialize (IH Na'). cbv zeta in IH.
      destruct (virgin_run nl names fields chans ingests parses ops sub_init virgin_init Na')
        as (V1 & V2 & V3 & _).
      set (t := srun nl names fields chans ingests parses ops) in *.
      destruct IH as (I1 & I2 & I3).
      destruct o; cbn [sub_step]; auto.
      - unfold sub_data. rewrite V2, V3. destruct (fd =? 1); auto.
      - unfold sub_lost. destruct (fd =? 1); [auto|]. destruct (fd =? 2); auto.
      - unfold sub_attach. destruct (s_spawned t); auto.
      - unfold sub_peer. destruct (s_known t); auto.
      - unfold sub_wake. destruct I1 as [I1|I1]; rewrite I1; [|auto]. rewrite V3, V2, V3. cbn. auto.
      - unfold sub_take. rewrite V2. destruct I1 as [I1|I1]; rewrite I1; auto.
      - unfold sub_msg. destruct I1 as [I1|I1]; rewrite I1; auto.
      - unfold sub_cancel. destruct I1 as [I1|I1]; rewrite I1; cbn; auto.
      - unfold sub_close. destruct (s_exited t); [|auto]. destruct I1 as [I1|I1]; rewrite I1; cbn; auto. }
    destruct (G before N) as (G1 & G2 & G3). cbv zeta in *.
    cbn [sub_step]. unfold sub_attach. destruct (s_spawned (srun nl names fields chans ingests parses before)); cbn; auto. }
  cbv zeta in B. destruct B as (B1 & B2 & B3).
  set (s0 := srun nl names fields chans ingests parses (before ++ [OAttach true true])) in *.
  cut (Sound nl names fields chans ingests parses
         (sub_run nl names fields chans ingests parses
            (sub_step nl names fields chans ingests parses s0 OPeer) after) [] []).
  { intros [H|(H & _)]; [rewrite H; discriminate|exact H]. }
  apply sound_run; auto.
  destruct B1 as [B1|B1].
  2: { left. apply ended_step. exact B1. }
  pose proof (pinv_step nl names fields chans ingests parses s0 OPeer PI) as PI'.
  right. cbn [sub_step] in *. unfold sub_peer in *.
  assert (Egg : EG names fields chans ingests x_init (bytes (Some []) ++ List.concat (chunks_of 2 after))).
  { right. exists es, rest'. split; [exact He|]. split; [reflexivity|]. cbn. symmetry. exact Ee. }
  destruct (s_known s0) eqn:K.
  - rewrite B1, F2, F3, B2, (B3 eq_refl).
    split; [discriminate|]. split; [exact F1|]. split; [discriminate|]. split; [discriminate|].
    split; [exact K|]. split; [exact PI|]. split; [exact Egg|].
    exists ms, rest. split; [exact Hm|]. exact Em.
  - cbn [s_poll s_spawned s_out s_err s_known s_parser s_gout]. rewrite B1, F2, F3, B2.
    split; [discriminate|]. split; [exact F1|]. split; [discriminate|]. split; [discriminate|].
    split; [reflexivity|]. split; [rewrite B1, F2, F3, B2 in PI'; exact PI'|]. split; [exact Egg|].
    exists ms, rest. split; [exact Hm|]. exact Em.
Qed.
Print Assumptions C74_alive_partial.

(** C74 is false when stderr carries anything else: a warning printed by the
    process ends the polling task, and no message is processed any more. *)
Theorem C74_stderr_refuted :
  exists names text m,
    m <> [] /\
    forall nl fields chans ingests parses more,
      let s := srun nl names fields chans ingests parses
                 ([OAttach true true; OPeer; OData 2 text; OData 1 (frame m); OWake] ++ more) in
      s_poll s = PFailed /\ s_msgs s = [].
Proof.
  exists (fun _ => None), [87; 97; 114; 110; 105; 110; 103; 58; 32; 33], [123; 125].
  split; [discriminate|]. intros nl fields chans ingests parses more s.
  assert (H : forall ops t, s_poll t = PFailed -> s_msgs t = [] ->
    let u := sub_run nl (fun _ => None) fields chans ingests parses t ops in
    s_poll u = PFailed /\ s_msgs u = []).
  { induction ops as [|o ops IH]; intros t P M; [auto|]. cbv zeta. rewrite run_cons.
    apply IH; destruct o; cbn [sub_step]; auto.
    all: try (unfold sub_data; destruct (fd =? 1); destruct (s_out t), (s_err t); try destruct (fd =? 2); auto; fail).
    all: try (unfold sub_lost; destruct (fd =? 1); [auto|]; destruct (fd =? 2); auto; fail).
    all: try (unfold sub_attach; destruct (s_spawned t); auto; fail).
    all: try (unfold sub_peer; destruct (s_known t); auto; fail).
    all: try (unfold sub_wake; rewrite P; auto; fail).
    all: try (unfold sub_take; rewrite P; auto; fail).
    all: try (unfold sub_msg; rewrite P; auto; fail).
    all: try (unfold sub_cancel; rewrite P; auto; fail).
    all: try (unfold sub_close; destruct (s_exited t); [rewrite P|]; auto; fail). }
  unfold s. rewrite run_app. apply H; destruct nl; reflexivity.
Qed.
Print Assumptions C74_stderr_refuted.

(** A case with every ingredient: early, split and late chunks, two streams,
    two messages, an event. *)
Definition ex_ops : list sop :=
  [OWake; OTake; OData 1 [0; 0]; OWake; OData 2 (firstn 11 (event_stream ex_events)); OTake; OTake;
   OData 2 (skipn 11 (event_stream ex_events)); OData 1 [0; 1; 7; 0; 0; 0]; OWake; OTake; OMsg true;
   OTake; OExit; OData 1 [2; 8; 9]; OWake; OTake; OTake; OMsg true; OTake].
Example ex_subproc :
  let s := srun true ex_names ex_fields ex_chans (fun _ => true) (fun _ => true)
             ([OPeer; OData 1 [5]] ++ OAttach true true :: OPeer :: ex_ops) in
  no_attach [OPeer; OData 1 [5]] /\ handlers_ok ex_ops /\
  List.concat (chunks_of 1 ex_ops) = wire [[7]; [8; 9]] /\
  s_msgs s = [[7]; [8; 9]] /\ s_poll s = PAsleep /\ s_out s = Some [] /\
  List.concat (chunks_of 2 ex_ops) = event_stream ex_events.
Proof.
  split; [intros o e [H|[H|[]]]; discriminate|].
  split; [intros H; repeat (destruct H as [H|H]; [discriminate|]); destruct H|].
  repeat split.
Qed.
Example ex_closed :
  let s0 := srun true ex_names ex_fields ex_chans (fun _ => true) (fun _ => true)
              ([] ++ OAttach true true :: [OData 1 [0; 0]; OExit; OCancel]) in
  s_exited s0 = true /\ s_poll s0 = PEnded /\
  s_lout (srun true ex_names ex_fields ex_chans (fun _ => true) (fun _ => true)
            ([] ++ OAttach true true :: [OData 1 [0; 0]; OExit; OCancel] ++ [OClose])) = [[0; 0]].
Proof. repeat split. Qed.
Example ex_events_handled :
  let s := srun true ex_names ex_fields ex_chans (fun _ => true) (fun _ => true)
             ([] ++ OAttach true true :: OPeer :: [OData 2 (event_stream ex_events); OWake]) in
  s_poll s <> PFailed /\ List.concat (full (map snd (s_gerr s))) = event_stream ex_events /\
  s_events s = map seen ex_events.
Proof. split; [vm_compute; discriminate|]. split; vm_compute; reflexivity. Qed.

(** ** C75 *)

(** The program reads its input byte by byte: at every moment it has processed
    exactly the messages complete in what it read, and its counters are the
    messages and their bytes on the wire. *)
Theorem C75_input :
  forall nl works ops rest ms,
    no_end ops ->
    Forall (fun m => zlen m < 2 ^ 32 /\ works m = true) ms ->
    read_of ops ++ rest = wire ms ->
    let g := io_run nl works prog_init ops in
    g_msgs g = complete_in (zlen (read_of ops)) ms /\
    k_messages (g_stdin g) = zlen (g_msgs g) /\
    k_bytes (g_stdin g) = zlen (wire (g_msgs g)) /\
    g_over g = false /\ g_eof g = false.
Proof.
  intros nl works ops rest ms N F E g.
  assert (F1 : Forall (fun m => zlen m < 2 ^ 32) ms) by (eapply Forall_impl; [|exact F]; cbn; tauto).
  assert (F2 : Forall (fun m => works m = true) ms) by (eapply Forall_impl; [|exact F]; cbn; tauto).
  destruct (io_inv nl works ms rest F1 F2 ops N E) as (I1 & I2 & I3 & I4 & I5 & I6 & I7 & I8).
  fold g in I1, I2, I3, I4, I5, I6, I7, I8. repeat split; auto.
  replace (read_of ops) with (List.concat [read_of ops]) in * by (cbn; apply app_nil_r).
  eapply (prefix_messages nl); [exact F1|exact E|exact I3].
Qed.
Print Assumptions C75_input.

Example ex_input :
  let ops := map IByte [0; 0; 0; 1; 7; 0] ++ INone :: map IByte [0; 0; 2; 8; 9; 0; 0] in
  no_end ops /\ read_of ops ++ [0; 0] = wire [[7]; [8; 9]; []] /\
  g_msgs (io_run true (fun _ => true) prog_init ops) = [[7]; [8; 9]].
Proof.
  repeat split; try reflexivity; intros H; cbn in H;
    repeat (destruct H as [H|H]; [discriminate|]); destruct H.
Qed.

(** C75, the end of the input is signalled when every message was processed
    without an exception, ... *)
Theorem C75_eof_partial :
  forall nl works ops rest ms last more,
    no_end ops -> last = IEnd \/ last = ICancel ->
    Forall (fun m => zlen m < 2 ^ 32 /\ works m = true) ms ->
    read_of ops ++ rest = wire ms ->
    let g := io_run nl works prog_init (ops ++ last :: more) in
    g_eof g = true /\ g_over g = true /\ g_msgs g = complete_in (zlen (read_of ops)) ms.
Proof.
  intros nl works ops rest ms last more N L F E g.
  destruct (C75_input nl works ops rest ms N F E) as (A & _ & _ & B & C).
  set (g0 := io_run nl works prog_init ops) in *.
  assert (G : g = io_run nl works (io_step nl works g0 last) more).
  { unfold g, io_run. rewrite fold_left_app. reflexivity. }
  assert (S : io_step nl works g0 last = mkProg (g_proc g0) (g_acc g0) (g_stdin g0) (g_msgs g0) true true).
  { unfold io_step. rewrite B. destruct L as [-> | ->]; reflexivity. }
  rewrite G, S, io_over by reflexivity. cbn. auto.
Qed.
Print Assumptions C75_eof_partial.

(** ... and is not when one message was not: the task has ended, and the end
    of the input, which stops the program, goes unnoticed for ever. *)
Theorem C75_eof_refuted :
  forall nl works m, zlen m < 2 ^ 32 -> works m = false ->
    forall more, let g := io_run nl works prog_init (map IByte (frame m) ++ more) in
      g_eof g = false /\ g_over g = true.
Proof.
  intros nl works m Hm Hw more g.
  assert (Rd : forall l, read_of (map IByte l) = l).
  { induction l as [|b l IH]; [reflexivity|]. cbn. rewrite IH. reflexivity. }
  (* up to the last byte nothing is complete *)
  assert (Ne : frame m <> []) by (unfold frame; discriminate).
  destruct (exists_last Ne) as (l & b & El).
  assert (Lf : zlen (frame m) = 4 + zlen m) by (unfold frame; rewrite zlen_app; reflexivity).
  assert (G0 : forall l', (exists t, l' ++ t = l) ->
            let h := io_run nl works prog_init (map IByte l') in
            g_over h = false /\ g_eof h = false /\ g_msgs h = [] /\ MInv (g_proc h) /\
            m_process nl U32 Network all m_init l' = ([], g_proc h, EDone)).
  { induction l' as [|x l' IH] using rev_ind; intros [t Ht].
    { cbn. repeat split. unfold MInv; cbn; lia. }
    assert (Ht' : exists t, l' ++ t = l) by (exists (x :: t); rewrite <- Ht, <- app_assoc; reflexivity).
    destruct (IH Ht') as (H1 & H2 & H3 & H4 & H5). cbv zeta in *.
    rewrite map_app. unfold io_run. rewrite fold_left_app. cbn [map fold_left].
    fold (io_run nl works prog_init (map IByte l')). set (h := io_run nl works prog_init (map IByte l')) in *.
    destruct (process_done nl U32 Network 32 ik_u32 (g_proc h) [x] H4) as (r & q & P & Iq & Tq).
    pose proof (process_app nl U32 Network 32 ik_u32 m_init l' [x] _ _ _ _ ltac:(cbv; discriminate) H5 P) as PA.
    assert (R : r = []).
    { assert (X : [] ++ r = complete_in (zlen (List.concat [l' ++ [x]])) [m]).
      { apply (prefix_messages nl [l' ++ [x]] (t ++ [b]) [m] _ q).
        - constructor; [exact Hm|constructor].
        - unfold wire. cbn [map List.concat]. rewrite !app_nil_r, El, <- Ht, <- !app_assoc. reflexivity.
        - cbn [List.concat]. rewrite app_nil_r. exact PA. }
      cbn [app] in X. rewrite X. cbn [complete_in List.concat]. rewrite app_nil_r.
      assert (zlen (l' ++ [x]) < 4 + zlen m).
      { rewrite <- Lf, El, <- Ht, !zlen_app. change (zlen [b]) with 1. pose proof (zlen_nonneg t). lia. }
      destruct (Z.leb_spec (4 + zlen m) (zlen (l' ++ [x]))); [lia|reflexivity]. }
    subst r. unfold io_step. rewrite H1, process_fix, P. cbn [io_messages].
    cbn [g_over g_eof g_msgs g_proc]. auto. }
  destruct (G0 l (ex_intro _ [] (app_nil_r l))) as (H1 & H2 & H3 & H4 & H5). cbv zeta in *.
  unfold g. rewrite El, map_app. unfold io_run. rewrite !fold_left_app. cbn [map fold_left].
  fold (io_run nl works prog_init (map IByte l)). set (h := io_run nl works prog_init (map IByte l)) in *.
  fold (io_run nl works (io_step nl works h (IByte b)) more).
  destruct (process_done nl U32 Network 32 ik_u32 (g_proc h) [b] H4) as (r & q & P & Iq & Tq).
  pose proof (process_app nl U32 Network 32 ik_u32 m_init l [b] _ _ _ _ ltac:(cbv; discriminate) H5 P) as PA.
  assert (R : r = [m]).
  { assert (X : [] ++ r = complete_in (zlen (List.concat [l ++ [b]])) [m]).
    { apply (prefix_messages nl [l ++ [b]] [] [m] _ q).
      - constructor; [exact Hm|constructor].
      - unfold wire. cbn [map List.concat]. rewrite !app_nil_r, El. reflexivity.
      - cbn [List.concat]. rewrite app_nil_r. exact PA. }
    cbn [app] in X. rewrite X. cbn [complete_in List.concat]. rewrite app_nil_r, <- El, Lf.
    rewrite Z.leb_refl. reflexivity. }
  subst r.
  assert (S : io_step nl works h (IByte b) =
              mkProg q (g_acc h + 1) (g_stdin h) (g_msgs h ++ []) (g_eof h) true).
  { unfold io_step. rewrite H1, process_fix, P. cbn [io_messages]. rewrite Hw. reflexivity. }
  rewrite S, io_over by reflexivity. cbn. auto.
Qed.
Print Assumptions C75_eof_refuted.
