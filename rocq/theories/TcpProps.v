(** C91: the bytes of a TCP connection, session by session. *)
From Coq Require Import ZifyBool ZifyNat Lia.
From Verif Require Import Base BaseLemmas TcpModel TcpSpec TcpProofs.
Open Scope list_scope.
Open Scope Z_scope.

(** ** What is processed. *)
(** Over any history: of every session, what was processed is what arrived first, in
    order, each chunk once; nothing of a former session is processed once something of
    a later one was; and the bytes counted as received are those processed. *)
Theorem C91_in_order : forall client ops, let c := run (conn_new client) ops in
  (forall i, exists rest, arrived c i = processed c i ++ rest) /\
  ascending (map fst (c_done c)) /\
  c_rx c = bytes (map snd (c_done c)).
Proof.
  intros client ops c. pose proof (inv_run ops _ (inv_new client)) as V. fold c in V. split; [|split; [apply V|apply V]].
  intros i. unfold arrived. destruct (ses c i) as [s|] eqn:E; [exists (s_queue s); symmetry; apply (iq _ V i s E)|].
  exists []. unfold processed.
  assert (N : forall l, Forall (fun e : nat * chunk => (fst e <= index c)%nat) l -> filter (fun e => Nat.eqb (fst e) i) l = []).
  { assert (L : (index c < i)%nat).
    { unfold ses in E. destruct (Nat.eqb_spec i (index c)); [discriminate|]. apply nth_error_None in E. unfold index in *. lia. }
    induction 1 as [|x l H _ IH]; [reflexivity|]. cbn. destruct (Nat.eqb_spec (fst x) i); [lia|exact IH]. }
  rewrite N by apply V. reflexivity.
Qed.
Print Assumptions C91_in_order.

(** What arrives: while the transport is open, in that session only; not after. *)
Theorem C91_arrives : forall c i data s, ses c i = Some s ->
  (s_tr s = TOpen -> forall j, arrived (step c (OData i data)) j = if Nat.eqb i j then arrived c i ++ [data] else arrived c j) /\
  (s_tr s <> TOpen -> step c (OData i data) = c).
Proof.
  intros c i data s E. cbn [step]. rewrite E. split.
  - intros T j. rewrite T. unfold arrived. rewrite ses_put. destruct (Nat.eqb_spec i j) as [<-|N]; [|reflexivity]. rewrite E. reflexivity.
  - intros T. destruct (s_tr s); congruence.
Qed.
Print Assumptions C91_arrives.

(** When the reading task waits and has nothing to do, everything was processed. *)
Theorem C91_caught_up : forall client ops, let c := run (conn_new client) ops in
  c_enabled c = true -> c_reader c = RWait -> step c ORead = c ->
  processed c (index c) = arrived c (index c).
Proof.
  intros client ops c En R H. pose proof (inv_run ops _ (inv_new client)) as V. fold c in V.
  unfold arrived. rewrite ses_cur. rewrite <- (iq _ V _ _ (ses_cur c)). cbn [step] in H. rewrite R in H.
  destruct (c_cancel c) eqn:C; [pose proof (ice _ V En C); congruence|].
  destruct (s_queue (c_cur c)) as [|d r]; [rewrite app_nil_r; reflexivity|].
  apply (f_equal c_reader) in H. cbn in H. congruence.
Qed.
Print Assumptions C91_caught_up.

(** While the connection is enabled, the reading task gets there: if every call of
    process_binary returns true, all that arrived is processed. *)
Theorem C91_progress : forall client ops, let c := run (conn_new client) ops in
  c_enabled c = true -> c_reader c = RWait ->
  exists n, let c' := run c (List.concat (repeat [ORead; OFinish HTrue] n)) in
  arrived c' (index c') = arrived c (index c) /\ index c' = index c /\ processed c' (index c) = arrived c (index c) /\ c_enabled c' = true.
Proof.
  intros client ops c En R. pose proof (inv_run ops _ (inv_new client)) as V. fold c in V.
  exists (List.length (s_queue (c_cur c))). cbv zeta.
  assert (G : forall q c, Inv c -> c_enabled c = true -> c_reader c = RWait -> s_queue (c_cur c) = q ->
    let c' := run c (List.concat (repeat [ORead; OFinish HTrue] (List.length q))) in
    c_old c' = c_old c /\ c_enabled c' = true /\ s_queue (c_cur c') = [] /\ s_recv (c_cur c') = s_recv (c_cur c) /\ Inv c').
  { clear. induction q as [|d q IH]; intros c V En R Q; cbn [List.length repeat List.concat app].
    - cbv zeta. unfold run. cbn. auto.
    - assert (C : c_cancel c = false) by (destruct (c_cancel c) eqn:C; [pose proof (ice _ V En C); congruence|reflexivity]).
      cbv zeta. change (run c (ORead :: OFinish HTrue :: ?l)) with (run (step (step c ORead) (OFinish HTrue)) l).
      pose proof (inv_step _ (OFinish HTrue) (inv_step _ ORead V)) as V2.
      assert (E2 : step (step c ORead) (OFinish HTrue) = mkConn (c_old c) (mkSes q (s_recv (c_cur c)) (s_out (c_cur c)) (s_tr (c_cur c)) (s_lost (c_cur c))) true RWait false (c_client c)
        (c_rx c + Z.of_nat (List.length d)) (c_tx c) (c_done c ++ [(index c, d)]) (c_sent c) (c_raised c)).
      { cbn [step]. rewrite R, C, Q. cbn. rewrite En. reflexivity. }
      rewrite E2 in *. exact (IH _ V2 eq_refl eq_refl eq_refl). }
  destruct (G _ c V En R eq_refl) as (A & B & C & D & E). set (c' := run c _) in *.
  assert (Ix : index c' = index c) by (unfold index; rewrite A; reflexivity).
  assert (Ar : arrived c' (index c') = arrived c (index c)) by (unfold arrived; rewrite !ses_cur; exact D).
  split; [exact Ar|]. split; [exact Ix|]. split; [|exact B].
  pose proof (iq _ E _ _ (ses_cur c')) as Q. rewrite C, app_nil_r, Ix in Q. unfold arrived. rewrite ses_cur. rewrite Q. exact D.
Qed.
Print Assumptions C91_progress.

(** ** What is not. *)
(** Once the connection is disabled, nothing more of that session (or a former one) is
    ever processed, whatever had arrived. *)
Lemma disabled_frozen o c : Inv c -> forall i, ((i <= index c)%nat /\ (c_enabled c = false \/ (i < index c)%nat)) ->
  let c' := step c o in ((i <= index c')%nat /\ (c_enabled c' = false \/ (i < index c')%nat)) /\ processed c' i = processed c i.
Proof.
  intros V i [L H].
  assert (P : forall j s, processed (put_ses c j s) i = processed c i /\ index (put_ses c j s) = index c /\ c_enabled (put_ses c j s) = c_enabled c).
  { intros j s. pose proof (put_fields c j s) as (F1 & _ & _ & _ & _ & _ & F7 & _). unfold processed. rewrite F7, index_put, F1. auto. }
  assert (D : forall d, processed (disable d) i = processed d i /\ index (disable d) = index d /\ c_enabled (disable d) = false).
  { intros d. unfold disable. destruct (c_enabled d) eqn:E; auto. }
  assert (K : forall d, processed d i = processed c i -> index d = index c -> c_enabled d = c_enabled c \/ c_enabled d = false ->
    ((i <= index d)%nat /\ (c_enabled d = false \/ (i < index d)%nat)) /\ processed d i = processed c i).
  { intros d A B C. split; [|exact A]. rewrite B. split; [exact L|]. destruct C as [C|C]; [rewrite C; exact H|auto]. }
  destruct o as [j data|j buffered|j|data| |ok| |r|buffered]; cbn [step].
  - destruct (ses c j) as [s|]; [|apply K; auto]. destruct (s_tr s); apply K; auto; try apply P. left. apply P.
  - destruct (ses c j) as [s|]; apply K; auto; try apply P. left. apply P.
  - destruct (ses c j) as [s|]; [|apply K; auto]. destruct (s_lost s); [apply K; auto|].
    destruct (D (put_ses c j (mkSes (s_queue s) (s_recv s) (s_out s) TGone true))) as (A & B & C). destruct (P j (mkSes (s_queue s) (s_recv s) (s_out s) TGone true)) as (A2 & B2 & _).
    apply K; [congruence|congruence|auto].
  - apply K; auto.
  - destruct (D c) as (A & B & C). apply K; auto.
  - destruct (c_reader c) eqn:R; try (apply K; auto; fail). destruct (c_enabled c) eqn:En.
    + apply K; auto.
    + destruct (c_client c); [destruct ok|]; try (apply K; auto; fail).
      unfold processed, index. cbn. rewrite app_length. cbn. unfold index in L. split; [split; [lia|right; lia]|reflexivity].
  - destruct (c_reader c) eqn:R; try (apply K; auto; fail).
    + destruct (c_cancel c); [apply K; auto|]. apply K; auto.
    + destruct (c_cancel c) eqn:C; [apply K; auto|]. destruct (s_queue (c_cur c)) as [|d r]; [apply K; auto|].
      assert (Li : (i < index c)%nat). { destruct H as [H|H]; [|exact H]. destruct (ide _ V H) as [X|[X|X]]; congruence. }
      cbn. unfold index in *. cbn. split; [split; [lia|auto]|]. unfold processed. cbn [c_done]. rewrite filter_app. cbn [filter fst].
      destruct (Nat.eqb_spec (List.length (c_old c)) i); [lia|]. rewrite app_nil_r. reflexivity.
    + destruct (c_cancel c); apply K; auto.
  - destruct (c_reader c); try (apply K; auto; fail). destruct r; try (apply K; auto; fail).
    destruct (D c) as (A & B & C). apply K; auto.
  - destruct (c_reader c); try (apply K; auto; fail). destruct (c_enabled c) eqn:En; [apply K; auto|].
    apply K; auto.
Qed.
Theorem C91_disabled_drops_refuted : forall client ops more i, let c := run (conn_new client) ops in
  c_enabled c = false -> (i <= index c)%nat -> processed (run c more) i = processed c i.
Proof.
  intros client ops more i c En L. pose proof (inv_run ops _ (inv_new client)) as V. fold c in V.
  assert (G : forall more c, Inv c -> ((i <= index c)%nat /\ (c_enabled c = false \/ (i < index c)%nat)) -> processed (run c more) i = processed c i).
  { clear. induction more as [|o more IH]; intros c V H; [reflexivity|]. change (run c (o :: more)) with (run (step c o) more).
    destruct (disabled_frozen o c V i H) as [H' E]. rewrite (IH _ (inv_step _ o V) H'). exact E. }
  apply G; auto.
Qed.
Print Assumptions C91_disabled_drops_refuted.

(** Refuted: "what the peer sent before it closed the stream is processed".  Two chunks
    arrive while the first is processed, then the stream ends. *)
Theorem C91_all_processed_refuted : exists ops, forall more,
  let c := run (conn_new true) (ops ++ more) in
  arrived (run (conn_new true) ops) 0 = [[1]; [2]; [3]] /\ processed c 0 = [[1]].
Proof.
  exists [OProcess true; ORead; OData 0 [1]; ORead; OData 0 [2]; OData 0 [3]; OClosing 0 false; OLost 0]. intros more.
  split; [reflexivity|]. rewrite run_app. rewrite (C91_disabled_drops_refuted true [OProcess true; ORead; OData 0 [1]; ORead; OData 0 [2]; OData 0 [3]; OClosing 0 false; OLost 0] more 0 eq_refl (Nat.le_refl _)). reflexivity.
Qed.
Print Assumptions C91_all_processed_refuted.

(** ** Staying enabled. *)
(** An enabled connection is disabled exactly by: being disabled, process_binary
    returning false, or the loss of a session, whichever it is. *)
Theorem C91_disabled_iff : forall c o, c_enabled c = true ->
  (c_enabled (step c o) = false <->
   o = ODisable \/ (o = OFinish HFalse /\ c_reader c = RWork) \/ (exists i s, o = OLost i /\ ses c i = Some s /\ s_lost s = false)).
Proof.
  intros c o En.
  assert (P : forall j s, c_enabled (put_ses c j s) = true) by (intros j s; pose proof (put_fields c j s) as (F1 & _); congruence).
  assert (No : c_enabled (step c o) = true -> ~ (o = ODisable \/ (o = OFinish HFalse /\ c_reader c = RWork) \/ (exists i s, o = OLost i /\ ses c i = Some s /\ s_lost s = false)) ->
    (c_enabled (step c o) = false <-> o = ODisable \/ (o = OFinish HFalse /\ c_reader c = RWork) \/ (exists i s, o = OLost i /\ ses c i = Some s /\ s_lost s = false))).
  { intros A B. split; [congruence|]. intros H. contradiction. }
  assert (D : forall d, c_enabled (disable d) = false) by (intros d; unfold disable; destruct (c_enabled d) eqn:E; auto).
  destruct o as [j data|j buffered|j|data| |ok| |r|buffered].
  - apply No; [|intros [H|[[H _]|(i & s & H & _)]]; discriminate]. cbn [step]. destruct (ses c j) as [s|]; [|exact En]. destruct (s_tr s); auto.
  - apply No; [|intros [H|[[H _]|(i & s & H & _)]]; discriminate]. cbn [step]. destruct (ses c j) as [s|]; auto.
  - cbn [step]. destruct (ses c j) as [s|] eqn:E.
    + destruct (s_lost s) eqn:L.
      * split; [congruence|]. intros [H|[[H _]|(i & s' & H & H' & H2)]]; try discriminate. injection H as <-. congruence.
      * split; [|intros _; apply D]. intros _. right. right. eauto.
    + split; [congruence|]. intros [H|[[H _]|(i & s' & H & H' & H2)]]; try discriminate. injection H as <-. congruence.
  - apply No; [exact En|intros [H|[[H _]|(i & s & H & _)]]; discriminate].
  - cbn [step]. split; [auto|intros _; apply D].
  - apply No; [|intros [H|[[H _]|(i & s & H & _)]]; discriminate]. cbn [step]. destruct (c_reader c); auto. rewrite En. reflexivity.
  - apply No; [|intros [H|[[H _]|(i & s & H & _)]]; discriminate]. cbn [step]. destruct (c_reader c); auto; destruct (c_cancel c); auto. destruct (s_queue _); auto.
  - destruct r.
    + apply No; [|intros [H|[[H _]|(i & s & H & _)]]; discriminate]. cbn [step]. destruct (c_reader c); auto.
    + cbn [step]. destruct (c_reader c) eqn:R; try (split; [congruence|intros [H|[[_ H]|(i & s & H & _)]]; discriminate]).
      split; [auto|]. intros _. cbn. apply D.
    + apply No; [|intros [H|[[H _]|(i & s & H & _)]]; discriminate]. cbn [step]. destruct (c_reader c); auto.
  - apply No; [|intros [H|[[H _]|(i & s & H & _)]]; discriminate]. cbn [step]. destruct (c_reader c); auto. rewrite En. exact En.
Qed.
Print Assumptions C91_disabled_iff.

(** Refuted: "the end of a former session does not end the new one".  The transport
    of the former session still had something to write when it was closed. *)
Theorem C91_stale_loss_refuted :
  (forall c i s, c_enabled c = true -> (i < index c)%nat -> ses c i = Some s -> s_lost s = false -> c_enabled (step c (OLost i)) = false) /\
  (let c := run (conn_new true) [OProcess true; ORead; OSend [1]; ODisable; ORead; OEnd true; OProcess true; ORead] in
   c_enabled c = true /\ index c = 1%nat /\ exists s, ses c 0 = Some s /\ s_lost s = false /\ s_tr s = TFlushing).
Proof.
  split.
  - intros c i s En L E H. apply C91_disabled_iff; eauto 8.
  - vm_compute. split; [reflexivity|]. split; [reflexivity|]. eexists. auto.
Qed.
Print Assumptions C91_stale_loss_refuted.

(** Refuted: "a former session is closed".  A connection that is disabled before it
    is processed keeps its first transport open for ever; what arrives there is not
    processed. *)
Theorem C91_former_open_refuted :
  let c := run (conn_new true) [ODisable; OProcess true; ORead; OData 0 [7]] in
  c_enabled c = true /\ index c = 1%nat /\ (exists s, ses c 0 = Some s /\ s_tr s = TOpen) /\ arrived c 0 = [[7]] /\
  forall more, processed (run c more) 0 = [].
Proof.
  cbv zeta. split; [reflexivity|]. split; [reflexivity|]. split; [eexists; split; reflexivity|]. split; [reflexivity|].
  intros more. change [ODisable; OProcess true; ORead; OData 0 [7]] with ([ODisable] ++ [OProcess true; ORead; OData 0 [7]]). rewrite run_app, <- run_app.
  rewrite (C91_disabled_drops_refuted true [ODisable] _ 0 eq_refl (Nat.le_refl _)). reflexivity.
Qed.
Print Assumptions C91_former_open_refuted.
(** Proved: after process() ended, the session it served is closed. *)
Theorem C91_ended_closed : forall c buffered, c_reader c = RDone -> c_enabled c = false ->
  let c' := step c (OEnd buffered) in c_reader c' = RNone /\ s_tr (c_cur c') <> TOpen /\ forall data, step c' (OData (index c') data) = c'.
Proof.
  intros c buffered R En. cbn [step]. rewrite R, En. cbn. split; [reflexivity|].
  assert (T : match s_tr (c_cur c) with TOpen => if buffered then TFlushing else TGone | t => t end <> TOpen) by (destruct (s_tr (c_cur c)); [destruct buffered| |]; discriminate).
  split; [exact T|]. intros data. rewrite ses_cur. cbn. destruct (match s_tr (c_cur c) with TOpen => _ | t => t end); congruence.
Qed.
Print Assumptions C91_ended_closed.

(** ** Restarting. *)
Theorem C91_restart : forall c, c_reader c = RNone -> c_enabled c = false -> c_client c = true ->
  (let c' := step c (OProcess true) in
   c_enabled c' = true /\ index c' = S (index c) /\ arrived c' (index c') = [] /\ transmitted c' (index c') = [] /\
   (exists s, ses c' (index c') = Some s /\ s_tr s = TOpen) /\ forall i, (i <= index c)%nat -> ses c' i = ses c i) /\
  step c (OProcess false) = c.
Proof.
  intros c R En Cl. cbn [step]. rewrite R, En, Cl. split; [|reflexivity]. cbv zeta. set (c' := mkConn _ _ _ _ _ _ _ _ _ _ _).
  assert (Ix : index c' = S (index c)) by (unfold index, c'; cbn; rewrite app_length; cbn; lia).
  split; [reflexivity|]. split; [exact Ix|]. unfold arrived, transmitted. rewrite !ses_cur. split; [reflexivity|]. split; [reflexivity|]. split; [eexists; split; reflexivity|].
  intros i L. unfold ses. rewrite Ix. destruct (Nat.eqb_spec i (S (index c))); [lia|]. destruct (Nat.eqb_spec i (index c)) as [->|N].
  - unfold c', index. cbn. rewrite nth_error_app2, Nat.sub_diag by lia. reflexivity.
  - unfold c'. cbn [c_old]. rewrite nth_error_app1; [reflexivity|]. unfold index in *. lia.
Qed.
Print Assumptions C91_restart.
(** The server's side has one session; processing it again raises. *)
Theorem C91_server_side : forall ops, let c := run (conn_new false) ops in
  index c = 0%nat /\ (c_enabled c = false -> c_reader c = RNone -> forall ok, c_raised (step c (OProcess ok)) = true).
Proof.
  intros ops c.
  assert (G : c_old c = [] /\ c_client c = false).
  { unfold c. clear. assert (G : forall ops c, c_old c = [] /\ c_client c = false -> c_old (run c ops) = [] /\ c_client (run c ops) = false); [|apply G; split; reflexivity].
    clear ops. induction ops as [|o ops IH]; intros c [A B]; [auto|]. apply IH.
    assert (P : forall j s, c_old (put_ses c j s) = [] /\ c_client (put_ses c j s) = false).
    { intros j s. unfold put_ses. destruct (Nat.eqb _ _); cbn; rewrite A; auto. destruct j; auto. }
    assert (D : forall d, c_old (disable d) = c_old d /\ c_client (disable d) = c_client d) by (intros d; unfold disable; destruct (c_enabled d); auto).
    destruct o as [j data|j buffered|j|data| |ok| |r|buffered]; cbn [step].
    - destruct (ses c j) as [s|]; [|auto]. destruct (s_tr s); auto.
    - destruct (ses c j); auto.
    - destruct (ses c j) as [s|]; [|auto]. destruct (s_lost s); [auto|]. destruct (D (put_ses c j (mkSes (s_queue s) (s_recv s) (s_out s) TGone true))) as [-> ->]. apply P.
    - auto.
    - destruct (D c) as [-> ->]. auto.
    - destruct (c_reader c); auto. destruct (c_enabled c); [auto|]. rewrite B. cbn. auto.
    - destruct (c_reader c); auto; destruct (c_cancel c); auto. destruct (s_queue _); auto.
    - destruct (c_reader c); auto. destruct r; auto. cbn. destruct (D c) as [-> ->]. auto.
    - destruct (c_reader c); auto. destruct (c_enabled c); auto. }
  destruct G as [A B]. split; [unfold index; rewrite A; reflexivity|]. intros En R ok. cbn [step]. rewrite R, En, B. reflexivity.
Qed.
Print Assumptions C91_server_side.

(** ** Sending. *)
(** What every session transmitted is what was sent while it was the current one
    and its transport was there, in order; the bytes counted are all that was given. *)
Theorem C91_sent : forall client ops, let c := run (conn_new client) ops in
  (forall i s, ses c i = Some s -> transmitted c i = map snd (filter (fun e => Nat.eqb (fst (fst e)) i && snd (fst e)) (c_sent c))) /\
  c_tx c = bytes (map snd (c_sent c)) /\ ascending (map (fun e => fst (fst e)) (c_sent c)).
Proof.
  intros client ops c. pose proof (inv_run ops _ (inv_new client)) as V. fold c in V. split; [|split; apply V].
  intros i s E. unfold transmitted. rewrite E. apply (io _ V i s E).
Qed.
Print Assumptions C91_sent.
Theorem C91_send : forall c data, let c' := step c (OSend data) in
  c_tx c' = c_tx c + zlen data /\
  (s_tr (c_cur c) <> TGone -> forall i, transmitted c' i = if Nat.eqb i (index c) then transmitted c i ++ [data] else transmitted c i) /\
  (s_tr (c_cur c) = TGone -> forall i, transmitted c' i = transmitted c i).
Proof.
  intros c data. split; [reflexivity|]. unfold transmitted, ses, step, send, index. cbn. split.
  - intros H i. destruct (Nat.eqb i (List.length (c_old c))); [|reflexivity]. destruct (s_tr (c_cur c)); try congruence; reflexivity.
  - intros H i. rewrite H. reflexivity.
Qed.
Print Assumptions C91_send.
(** Refuted: "the bytes counted as sent were transmitted": after the connection was
    lost, sending drops and counts. *)
Theorem C91_counted_dropped_refuted : exists ops, let c := run (conn_new true) ops in
  c_tx c = 3 /\ index c = 0%nat /\ transmitted c 0 = [].
Proof. exists [OLost 0; OSend [1; 2; 3]]. vm_compute. auto. Qed.
Print Assumptions C91_counted_dropped_refuted.

(** A history with two sessions. *)
Example C91_case : let c := run (conn_new true)
  [OProcess true; ORead; OData 0 [1; 2]; ORead; OSend [9]; OData 0 [3]; OFinish HTrue; ORead; OFinish HTrue; OClosing 0 false; OLost 0; ORead; OEnd false;
   OProcess false; OProcess true; ORead; OData 1 [4]; ORead; OFinish HTrue; OSend [8; 8]] in
  c_done c = [(0%nat, [1; 2]); (0%nat, [3]); (1%nat, [4])] /\ c_rx c = 4 /\ c_tx c = 3 /\ transmitted c 0 = [[9]] /\ transmitted c 1 = [[8; 8]] /\
  c_enabled c = true /\ c_reader c = RWait /\ step c ORead = c.
Proof. vm_compute. auto 12. Qed.

(** ** One at a time. *)
(** A new connection is enabled, with one open session and nothing counted. *)
Theorem C91_as_built : forall client, let c := conn_new client in
  c_enabled c = true /\ index c = 0%nat /\ (exists s, ses c 0 = Some s /\ s_tr s = TOpen) /\ arrived c 0 = [] /\ transmitted c 0 = [] /\
  c_rx c = 0 /\ c_tx c = 0 /\ c_done c = [].
Proof. intros client c. repeat split. exists ses_new. split; reflexivity. Qed.
Print Assumptions C91_as_built.

(** Processing an enabled connection reads from the session it has. *)
Theorem C91_starts : forall c ok, c_reader c = RNone -> c_enabled c = true ->
  let c' := run c [OProcess ok; ORead] in
  c_reader c' = RWait /\ c_enabled c' = true /\ index c' = index c /\ (forall i, ses c' i = ses c i) /\ c_done c' = c_done c.
Proof. intros c ok R En c'. unfold c', run. cbn [fold_left step]. rewrite R, En. cbn. auto. Qed.
Print Assumptions C91_starts.

Lemma frozen_run more : forall i c, Inv c -> ((i <= index c)%nat /\ (c_enabled c = false \/ (i < index c)%nat)) -> processed (run c more) i = processed c i.
Proof.
  induction more as [|o more IH]; intros i c V H; [reflexivity|]. change (run c (o :: more)) with (run (step c o) more).
  destruct (disabled_frozen o c V i H) as [H' E]. rewrite (IH _ _ (inv_step _ o V) H'). exact E.
Qed.
(** Stays in [RWork] (resp. [RDone]) or is disabled. *)
Lemma busy_step o c : Inv c -> (c_reader c = RWork /\ forall r, o <> OFinish r) \/ c_reader c = RDone ->
  let c' := step c o in
  processed c' (index c) = processed c (index c) /\
  (index c' = index c /\ (c_reader c' = c_reader c \/ c_enabled c' = false)).
Proof.
  intros V H.
  assert (P : forall j s, processed (put_ses c j s) (index c) = processed c (index c) /\ index (put_ses c j s) = index c /\ c_reader (put_ses c j s) = c_reader c).
  { intros j s. pose proof (put_fields c j s) as (F1 & F2 & _ & _ & _ & _ & F7 & _). unfold processed. rewrite F7, index_put, F2. auto. }
  assert (D : forall d, processed (disable d) (index c) = processed d (index c) /\ index (disable d) = index d /\ c_enabled (disable d) = false).
  { intros d. unfold disable. destruct (c_enabled d) eqn:E; auto. }
  destruct o as [j data|j buffered|j|data| |ok| |r|buffered]; cbn [step].
  - destruct (ses c j) as [s|]; [|auto]. destruct (s_tr s); auto. destruct (P j (mkSes (s_queue s ++ [data]) (s_recv s ++ [data]) (s_out s) TOpen (s_lost s))) as (A & B & C). auto.
  - destruct (ses c j) as [s|]; [|auto]. destruct (P j (closing s buffered)) as (A & B & C). auto.
  - destruct (ses c j) as [s|]; [|auto]. destruct (s_lost s); [auto|].
    destruct (D (put_ses c j (mkSes (s_queue s) (s_recv s) (s_out s) TGone true))) as (A & B & C). destruct (P j (mkSes (s_queue s) (s_recv s) (s_out s) TGone true)) as (A2 & B2 & _).
    split; [congruence|]. split; [congruence|auto].
  - auto.
  - destruct (D c) as (A & B & C). auto.
  - destruct H as [[H _]|H]; rewrite H; auto.
  - destruct H as [[H _]|H]; rewrite H; auto. destruct (c_cancel c) eqn:C; auto. split; [reflexivity|]. split; [reflexivity|]. right. cbn.
    destruct (c_enabled c) eqn:En; [|reflexivity]. pose proof (ice _ V En C). congruence.
  - destruct H as [[_ H]|H]; [exfalso; apply (H r); reflexivity|]. rewrite H. auto.
  - destruct H as [[H _]|H]; rewrite H; auto. destruct (c_enabled c) eqn:En; auto.
Qed.
Lemma busy_run more : forall c, Inv c -> (c_reader c = RWork /\ Forall (fun o => forall r, o <> OFinish r) more) \/ c_reader c = RDone ->
  processed (run c more) (index c) = processed c (index c).
Proof.
  induction more as [|o more IH]; intros c V H; [reflexivity|]. change (run c (o :: more)) with (run (step c o) more).
  assert (H' : (c_reader c = RWork /\ forall r, o <> OFinish r) \/ c_reader c = RDone).
  { destruct H as [[H F]|H]; [|auto]. left. inversion_clear F. auto. }
  destruct (busy_step o c V H') as (A & B & C). rewrite <- A, <- B. pose proof (inv_step _ o V) as V'.
  destruct C as [C|C]; [|apply frozen_run; [exact V'|]; split; [lia|auto]].
  apply IH; [exact V'|]. rewrite C. destruct H as [[H F]|H]; [left|auto]. inversion_clear F. auto.
Qed.
(** Until process_binary has ended, nothing else of that session is given to it,
    whatever else happens. *)
Theorem C91_one_at_a_time : forall client ops more, let c := run (conn_new client) ops in
  c_reader c = RWork -> Forall (fun o => forall r, o <> OFinish r) more ->
  processed (run c more) (index c) = processed c (index c).
Proof. intros client ops more c R F. apply busy_run; auto. apply inv_run, inv_new. Qed.
Print Assumptions C91_one_at_a_time.

(** Refuted: "an enabled connection processes what arrives".  If process_binary raised,
    the connection stays enabled (until somebody disables it) and nothing more of the
    session is ever processed. *)
Theorem C91_raised_stalls_refuted : forall client ops, let c := run (conn_new client) ops in
  c_reader c = RWork ->
  let c' := step c (OFinish HRaise) in
  c_enabled c' = c_enabled c /\ forall more, processed (run c' more) (index c) = processed c (index c).
Proof.
  intros client ops c R c'. pose proof (inv_run ops _ (inv_new client)) as V. fold c in V.
  assert (E : c' = set_reader c RDone). { unfold c'. cbn [step]. rewrite R. reflexivity. }
  split; [rewrite E; reflexivity|]. intros more.
  assert (X : index c' = index c /\ processed c' (index c) = processed c (index c) /\ c_reader c' = RDone) by (rewrite E; auto).
  destruct X as (X1 & X2 & X3). rewrite <- X2, <- X1. apply busy_run; [apply inv_step; exact V|auto].
Qed.
Print Assumptions C91_raised_stalls_refuted.
(** Otherwise the next one is read: process_binary returning true leads back to
    waiting, and a waiting task takes the oldest chunk. *)
Theorem C91_next : forall c, c_enabled c = true ->
  (c_reader c = RWork -> c_reader (step c (OFinish HTrue)) = RWait /\ c_done (step c (OFinish HTrue)) = c_done c) /\
  (forall data rest, c_reader c = RWait -> c_cancel c = false -> s_queue (c_cur c) = data :: rest ->
   c_done (step c ORead) = c_done c ++ [(index c, data)] /\ c_reader (step c ORead) = RWork).
Proof.
  intros c En. split.
  - intros R. cbn [step]. rewrite R, En. auto.
  - intros data rest R C Q. cbn [step]. rewrite R, C, Q. auto.
Qed.
Print Assumptions C91_next.

(** A busy connection, with more waiting: reachable. *)
Example C91_busy_case : let c := run (conn_new true) [OProcess true; ORead; OData 0 [1]; ORead; OData 0 [2]] in
  c_reader c = RWork /\ c_enabled c = true /\ arrived c 0 = [[1]; [2]] /\ processed c 0 = [[1]] /\
  processed (run c [ORead; OSend [3]; ORead; OProcess true; ORead]) 0 = [[1]] /\
  processed (run c [OFinish HTrue; ORead]) 0 = [[1]; [2]] /\
  processed (run c [OFinish HRaise; ORead; OProcess true; ORead; ODisable; OEnd false; OProcess true; ORead]) 0 = [[1]].
Proof. vm_compute. auto 12. Qed.
