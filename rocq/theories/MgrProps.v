(** C92: the connection manager. *)
From Coq Require Import ZifyBool ZifyNat Lia.
From Verif Require Import Base BaseLemmas MgrModel MgrSpec.
Open Scope list_scope.

Lemma run_app m a b : run m (a ++ b) = run (run m a) b.
Proof. apply fold_left_app. Qed.
Lemma head_same m : m_queue (head m) = m_queue m /\ m_conns (head m) = m_conns m /\ m_calls (head m) = m_calls m /\ m_put (head m) = m_put m /\
  m_tasks (head m) = m_tasks m /\ m_enabled (head m) = m_enabled m /\ m_auto (head m) = m_auto m /\ m_stop (head m) = m_stop m.
Proof. unfold head. destruct (m_stop m); cbn; auto 10. Qed.
Lemma accepted_app k m m' : m_calls m' = m_calls m ++ k -> accepted m' = accepted m ++ map k_conn (filter k_first k).
Proof. intros E. unfold accepted. rewrite E, filter_app, map_app. reflexivity. Qed.

(** ** What is taken. *)
(** What goes with a phase. *)
Record Inv (m : mgr) : Prop := {
  i_put : m_put m = accepted m ++ in_hand m ++ m_queue m;
  i_run : m_running m = match m_phase m with MIdle => false | _ => true end;
  i_get : match m_phase m with MIdle | MShut => m_get m = None | MWait => m_get m <> None | MDead => True end
}.
Lemma in_hand_head m : m_stop m = false \/ in_hand m = [] -> in_hand (head m) = in_hand m.
Proof. unfold head, in_hand. destruct (m_stop m); cbn; [intros [H|H]; [discriminate|rewrite H; reflexivity]|]. destruct (m_get m) as [[c|]|]; reflexivity. Qed.
Lemma in_hand_body m : in_hand (body m) = [].
Proof. unfold body, in_hand. cbn. destruct (m_get m) as [[c|]|]; reflexivity. Qed.
Lemma accepted_body m : accepted (body m) = accepted m ++ in_hand m.
Proof.
  rewrite (accepted_app (map (fun c => mkCall c false) (filter (again m) (m_conns m)) ++ map (fun c => mkCall c true) (in_hand m)) m); [|reflexivity].
  f_equal. rewrite filter_app, map_app.
  assert (E : forall l, map k_conn (filter k_first (map (fun c => mkCall c false) l)) = []) by (induction l; cbn; auto).
  rewrite E. cbn [app]. unfold in_hand. destruct (m_get m) as [[c|]|]; reflexivity.
Qed.
Lemma head_phase m : (m_running (head m) = match m_phase (head m) with MIdle => false | _ => true end) /\
  match m_phase (head m) with MIdle | MShut => m_get (head m) = None | MWait => m_get (head m) <> None | MDead => True end.
Proof.
  unfold head. destruct (m_stop m); cbn.
  - destruct (m_tasks m); cbn; auto.
  - split; [reflexivity|]. destruct (m_get m); discriminate.
Qed.
Lemma inv_step e m : Inv m -> Inv (step m e).
Proof.
  intros [P R G]. destruct e as [c| |c b|c b|i raised| |stopped| |timeout|]; cbn [step]; try (constructor; assumption).
  - constructor; cbn; auto. change (m_put m ++ [c] = accepted m ++ in_hand m ++ m_queue m ++ [c]). rewrite P, <- !app_assoc. reflexivity.
  - destruct (m_get m) as [[c|]|] eqn:E; [constructor; auto; rewrite E; auto| |constructor; auto; rewrite E; auto].
    destruct (m_queue m) as [|c q] eqn:Q; [constructor; rewrite ?Q; auto; rewrite E; auto|].
    constructor; cbn; auto; [|destruct (m_phase m); try discriminate; auto].
    unfold in_hand in *. cbn. rewrite E in P. rewrite P. reflexivity.
  - destruct (m_running m) eqn:Rn.
    + constructor; cbn; auto.
    + set (m0 := mkMgr _ _ _ _ _ _ _ _ _ _ _ _). destruct (head_phase m0) as [A B]. constructor; auto.
      destruct (head_same m0) as (Hq & _ & Hc & Hp & _). rewrite Hp, Hq.
      assert (X : in_hand m = []). { unfold in_hand. rewrite R in Rn. destruct (m_phase m); try discriminate. rewrite G. reflexivity. }
      assert (Y : in_hand (head m0) = []). { rewrite in_hand_head; [reflexivity|]. right. reflexivity. }
      rewrite Y. unfold accepted in *. rewrite Hc. cbn. rewrite P, X. reflexivity.
  - destruct (m_phase m) eqn:Ph; try (constructor; rewrite ?Ph; assumption). destruct (ready m); [|constructor; rewrite ?Ph; assumption].
    destruct (head_phase (body m)) as [A B]. constructor; auto.
    destruct (head_same (body m)) as (Hq & _ & Hc & Hp & _). rewrite Hp, Hq, in_hand_head; [|right; apply in_hand_body].
    rewrite in_hand_body. replace (accepted (head (body m))) with (accepted (body m)); [|unfold accepted; rewrite Hc; reflexivity].
    rewrite accepted_body. cbn. rewrite P, <- app_assoc. reflexivity.
  - destruct (m_phase m) eqn:Ph; try (constructor; rewrite ?Ph; assumption).
    assert (X : in_hand m = []) by (unfold in_hand; rewrite G; reflexivity). rewrite X in P.
    destruct (existsb is_raised (m_tasks m)); [constructor; cbn; auto|].
    destruct (timeout || negb (existsb is_run (m_tasks m))); [constructor; cbn; auto|constructor; rewrite ?Ph, ?X; auto].
  - destruct (m_phase m) eqn:Ph; try (constructor; rewrite ?Ph; assumption); constructor; cbn; auto.
Qed.
Lemma inv_run es : forall m, Inv m -> Inv (run m es).
Proof. induction es as [|e es IH]; intros m V; [exact V|]. exact (IH _ (inv_step e m V)). Qed.
Lemma inv_new en au : Inv (m_new en au).
Proof. constructor; reflexivity. Qed.

(** Over any history: the connections put are those accepted, then the one in hand, then
    those still queued; so they are accepted in order, each once, none is left out. *)
Theorem C92_in_order : forall en au es, let m := run (m_new en au) es in m_put m = accepted m ++ in_hand m ++ m_queue m.
Proof. intros en au es m. apply (i_put _ (inv_run es _ (inv_new en au))). Qed.
Print Assumptions C92_in_order.

(** While manage() waits, the next connection is taken and processed. *)
Theorem C92_taken : forall en au es, let m := run (m_new en au) es in
  m_phase m = MWait -> forall c rest, in_hand m ++ m_queue m = c :: rest ->
  let m' := run m [EGet; EWake] in
  accepted m' = accepted m ++ [c] /\ In c (m_conns m') /\ In (mkCall c true) (m_calls m') /\ m_queue m' = rest.
Proof.
  intros en au es m Ph c rest E m'. pose proof (inv_run es _ (inv_new en au)) as V. fold m in V.
  assert (Gn : m_get m <> None). { pose proof (i_get _ V) as G. rewrite Ph in G. exact G. }
  assert (X : m_get (step m EGet) = Some (Some c) /\ m_queue (step m EGet) = rest /\ m_phase (step m EGet) = MWait /\ m_calls (step m EGet) = m_calls m).
  { cbn [step]. unfold in_hand in E. destruct (m_get m) as [[d|]|] eqn:Gt; [| |congruence].
    - cbn in E. injection E as -> ->. auto.
    - cbn in E. rewrite E. auto. }
  destruct X as (X1 & X2 & X3 & X4).
  assert (Y : m' = head (body (step m EGet))).
  { unfold m', run. cbn [fold_left]. change (step (step m EGet) EWake) with (match m_phase (step m EGet) with MWait => if ready (step m EGet) then head (body (step m EGet)) else step m EGet | _ => step m EGet end).
    rewrite X3. unfold ready. rewrite X1, orb_true_r. reflexivity. }
  destruct (head_same (body (step m EGet))) as (Hq & Hcn & Hc & _). rewrite Y.
  assert (Ib : in_hand (step m EGet) = [c]) by (unfold in_hand; rewrite X1; reflexivity).
  split; [|split; [|split]].
  - replace (accepted (head (body (step m EGet)))) with (accepted (body (step m EGet))); [|unfold accepted; rewrite Hc; reflexivity].
    rewrite accepted_body, Ib. unfold accepted. rewrite X4. reflexivity.
  - rewrite Hcn. unfold body. cbn [m_conns]. rewrite X1. apply in_or_app. right. left. reflexivity.
  - rewrite Hc. unfold body. cbn [m_calls]. rewrite X1. apply in_or_app. right. apply in_or_app. right. left. reflexivity.
  - rewrite Hq. unfold body. cbn [m_queue]. exact X2.
Qed.
Print Assumptions C92_taken.

(** ** What a wake-up does. *)
(** Exactly: connections that are enabled or restart automatically are kept, in order,
    the new one comes last; process() is called once for each disabled one that is
    kept, and for the new one.  Without a reason to wake up nothing happens. *)
Theorem C92_wake : forall m, m_phase m = MWait -> let m' := step m EWake in
  (m_stop m = true \/ in_hand m <> [] \/ (exists t, In t (m_tasks m) /\ t <> TRun) ->
   m_conns m' = filter (fun c => m_enabled m c || m_auto m c) (m_conns m) ++ in_hand m /\
   m_calls m' = m_calls m ++ map (fun c => mkCall c false) (filter (fun c => negb (m_enabled m c) && m_auto m c) (m_conns m)) ++ map (fun c => mkCall c true) (in_hand m)) /\
  (m_stop m = false -> in_hand m = [] -> (forall t, In t (m_tasks m) -> t = TRun) -> m' = m).
Proof.
  intros m Ph m'. unfold m'. cbn [step]. rewrite Ph. split.
  - intros H.
    assert (R : ready m = true).
    { unfold ready. destruct H as [H|[H|(t & I & H)]].
      - rewrite H. reflexivity.
      - unfold in_hand in H. destruct (m_get m) as [[c|]|]; [|congruence|congruence]. rewrite orb_true_r. reflexivity.
      - apply orb_true_iff. right. apply existsb_exists. exists t. split; [exact I|]. destruct t; [congruence|reflexivity|reflexivity]. }
    rewrite R. destruct (head_same (body m)) as (_ & Hcn & Hc & _). rewrite Hcn, Hc. split; reflexivity.
  - intros S H T.
    assert (R : ready m = false).
    { unfold ready. rewrite S. unfold in_hand in H. destruct (m_get m) as [[c|]|]; [discriminate| |];
      (cbn; apply not_true_is_false; intros X; apply existsb_exists in X as (t & I & X); rewrite (T t I) in X; discriminate). }
    rewrite R. reflexivity.
Qed.
Print Assumptions C92_wake.

(** Nothing else calls process(). *)
Theorem C92_only_wake : forall m e, e <> EWake -> m_calls (step m e) = m_calls m.
Proof.
  intros m e H. destruct e as [c| |c b|c b|i raised| |stopped| |timeout|]; cbn [step]; try reflexivity; try congruence.
  - destruct (m_get m) as [[c|]|]; try reflexivity. destruct (m_queue m); reflexivity.
  - destruct (m_running m); [reflexivity|]. set (m0 := mkMgr _ _ _ _ _ _ _ _ _ _ _ _). destruct (head_same m0) as (_ & _ & Hc & _). rewrite Hc. reflexivity.
  - destruct (m_phase m); try reflexivity. destruct (existsb is_raised (m_tasks m)); [reflexivity|]. destruct (timeout || negb (existsb is_run (m_tasks m))); reflexivity.
  - destruct (m_phase m); reflexivity.
Qed.
Print Assumptions C92_only_wake.

(** A connection stays with the manager while it is enabled or restarts automatically,
    unless manage() is started anew. *)
Theorem C92_kept : forall m e c, In c (m_conns m) -> m_enabled m c = true \/ m_auto m c = true ->
  In c (m_conns (step m e)) \/ (m_running m = false /\ exists b, e = EManage b).
Proof.
  intros m e c I H. destruct e as [d| |d b|d b|i raised| |stopped| |timeout|]; cbn [step]; try (left; exact I).
  - left. destruct (m_get m) as [[d|]|]; try exact I. destruct (m_queue m); exact I.
  - destruct (m_running m) eqn:R; [left; exact I|right; eauto].
  - left. destruct (m_phase m); try exact I. destruct (ready m); [|exact I]. destruct (head_same (body m)) as (_ & Hcn & _). rewrite Hcn.
    apply in_or_app. left. apply filter_In. split; [exact I|]. unfold keeps. destruct H as [-> | ->]; [reflexivity|apply orb_true_r].
  - left. destruct (m_phase m); try exact I. destruct (existsb is_raised (m_tasks m)); [exact I|]. destruct (timeout || negb (existsb is_run (m_tasks m))); exact I.
  - left. destruct (m_phase m); exact I.
Qed.
Print Assumptions C92_kept.

(** One that does not restart automatically and is disabled when the manager wakes up is let go
    (if it was not put again), and a connection that was let go is never processed
    again unless it is put again. *)
Lemma unknown_step e c m : unknown c m -> e <> EPut c -> unknown c (step m e) /\ calls_of c (step m e) = calls_of c m.
Proof.
  intros (H1 & H2 & H3) N. unfold unknown in *. destruct e as [d| |d b|d b|i raised| |stopped| |timeout|]; cbn [step]; auto.
  - split; [|reflexivity]. split; [exact H1|split; [exact H2|]]. cbn. intros X. apply in_app_iff in X as [X|[X|[]]]; [auto|congruence].
  - destruct (m_get m) as [[d|]|] eqn:G; auto. destruct (m_queue m) as [|d q] eqn:Q; [rewrite Q; auto|]. split; [|reflexivity]. cbn in *. split; [exact H1|]. split; [|tauto].
    unfold in_hand. cbn. tauto.
  - destruct (m_running m); auto. set (m0 := mkMgr _ _ _ _ _ _ _ _ _ _ _ _). destruct (head_same m0) as (Hq & Hcn & Hc & _).
    rewrite Hq, Hcn. split; [|unfold calls_of; rewrite Hc; reflexivity]. cbn. split; [tauto|]. split; [|exact H3].
    rewrite in_hand_head; [cbn; tauto|right; reflexivity].
  - destruct (m_phase m); auto. destruct (ready m); auto. destruct (head_same (body m)) as (Hq & Hcn & Hc & _). rewrite Hq, Hcn.
    split.
    + rewrite in_hand_head, in_hand_body; [|right; apply in_hand_body]. cbn. split; [|tauto]. intros X. apply in_app_iff in X as [X|X]; [apply filter_In in X; tauto|].
      unfold in_hand in H2. tauto.
    + unfold calls_of. rewrite Hc. unfold body. cbn [m_calls]. rewrite !filter_app, !app_length.
      assert (E : forall b l, ~ In c l -> filter (fun k => Nat.eqb (k_conn k) c) (map (fun x => mkCall x b) l) = []).
      { intros b l. induction l as [|x l IH]; intros I; [reflexivity|]. cbn in *. destruct (Nat.eqb_spec x c); [exfalso; tauto|]. apply IH. tauto. }
      rewrite !E; [cbn; lia| |].
      * unfold in_hand in H2. exact H2.
      * intros X. apply filter_In in X. tauto.
  - destruct (m_phase m) eqn:Ph; auto. destruct (existsb is_raised (m_tasks m)); [|destruct (timeout || negb (existsb is_run (m_tasks m)))]; auto; cbn; (split; [split; [exact H1|split; [cbn; tauto|exact H3]]|reflexivity]).
  - destruct (m_phase m); auto.
Qed.
Theorem C92_let_go : forall m c more, m_phase m = MWait -> In c (m_conns m) -> m_enabled m c = false -> m_auto m c = false ->
  ~ In c (in_hand m) -> ~ In c (m_queue m) -> step m EWake <> m -> ~ In (EPut c) more ->
  let m' := run (step m EWake) more in ~ In c (m_conns m') /\ calls_of c m' = calls_of c m.
Proof.
  intros m c more Ph I En Au Nh Nq W Np m'.
  assert (Rd : ready m = true). { destruct (ready m) eqn:R; [reflexivity|]. exfalso. apply W. cbn [step]. rewrite Ph, R. reflexivity. }
  assert (U : unknown c (step m EWake) /\ calls_of c (step m EWake) = calls_of c m).
  { cbn [step]. rewrite Ph, Rd. destruct (head_same (body m)) as (Hq & Hcn & Hc & _). unfold unknown. rewrite Hq, Hcn.
    split.
    - rewrite in_hand_head, in_hand_body; [|right; apply in_hand_body]. cbn. split; [|tauto]. intros X. apply in_app_iff in X as [X|X].
      + apply filter_In in X as [_ X]. unfold keeps in X. rewrite En, Au in X. discriminate.
      + apply Nh, X.
    - unfold calls_of. rewrite Hc. unfold body. cbn [m_calls]. rewrite !filter_app, !app_length.
      assert (E : forall b l, ~ In c l -> filter (fun k => Nat.eqb (k_conn k) c) (map (fun x => mkCall x b) l) = []).
      { intros b l. induction l as [|x l IH]; intros J; [reflexivity|]. cbn in *. destruct (Nat.eqb_spec x c); [exfalso; tauto|]. apply IH. tauto. }
      rewrite !E; [cbn; lia|exact Nh|]. intros X. apply filter_In in X as [_ X]. unfold again in X. rewrite Au, andb_false_r in X. discriminate. }
  assert (G : forall es m, unknown c m -> ~ In (EPut c) es -> unknown c (run m es) /\ calls_of c (run m es) = calls_of c m).
  { clear. induction es as [|e es IH]; intros m U N; [auto|]. change (run m (e :: es)) with (run (step m e) es).
    destruct (unknown_step e c m U) as [U' E]; [intros ->; apply N; left; reflexivity|].
    destruct (IH _ U') as [U'' E']; [intros X; apply N; right; exact X|]. split; [exact U''|congruence]. }
  destruct U as [U E]. destruct (G more _ U Np) as [U' E']. split; [apply U'|]. unfold m'. rewrite E'. exact E.
Qed.
Print Assumptions C92_let_go.

(** Refuted: "a connection is processed by one process() call at a time".  Every
    wake-up calls process() once more for a disabled connection that restarts
    automatically, although the calls before are still running: as often as other
    connections arrive. *)
Lemma again_run n : forall m c d, Inv m -> m_phase m = MWait -> m_stop m = false -> m_get m = Some None -> m_queue m = [] -> c <> d ->
  In c (m_conns m) -> m_enabled m c = false -> m_auto m c = true ->
  let m' := run m (List.concat (repeat [EPut d; EGet; EWake] n)) in
  (calls_of c m + n <= calls_of c m')%nat.
Proof.
  induction n as [|n IH]; intros m c d V Ph St G Q N I En Au m'; [unfold m'; cbn; lia|].
  unfold m'. cbn [repeat List.concat]. rewrite run_app.
  set (m1 := run m [EPut d; EGet; EWake]).
  assert (E : m1 = head (body (mkMgr (m_enabled m) (m_auto m) [] (m_running m) (m_conns m) (m_stop m) (m_phase m) (Some (Some d)) (m_tasks m) (m_second m) (m_put m ++ [d]) (m_calls m)))).
  { unfold m1, run. cbn [fold_left step]. rewrite Q. cbn [app m_get m_queue m_phase]. rewrite G. cbn [m_phase]. rewrite Ph. unfold ready. cbn [m_stop m_get]. rewrite orb_true_r. reflexivity. }
  set (m0 := mkMgr _ _ _ _ _ _ _ _ _ _ _ _) in E.
  destruct (head_same (body m0)) as (Hq & Hcn & Hc & _ & _ & He & Ha & Hs).
  assert (C1 : (calls_of c m1 = calls_of c m + List.length (filter (fun k => Nat.eqb (k_conn k) c) (map (fun c => mkCall c false) (filter (again m0) (m_conns m)))))%nat).
  { rewrite E. unfold calls_of. rewrite Hc. unfold body. cbn [m_calls m0 m_get map]. rewrite !filter_app, !app_length. cbn [filter k_conn]. destruct (Nat.eqb_spec d c); [congruence|]. cbn. lia. }
  assert (C2 : (1 <= List.length (filter (fun k => Nat.eqb (k_conn k) c) (map (fun c => mkCall c false) (filter (again m0) (m_conns m)))))%nat).
  { destruct (filter (fun k => Nat.eqb (k_conn k) c) (map (fun c => mkCall c false) (filter (again m0) (m_conns m)))) as [|x l] eqn:X; [|cbn; lia].
    assert (Y : In (mkCall c false) []). { rewrite <- X. apply filter_In. split; [|apply Nat.eqb_refl]. apply in_map_iff. exists c. split; [reflexivity|]. apply filter_In. split; [exact I|]. unfold again, m0. cbn. rewrite En, Au. reflexivity. }
    destruct Y. }
  assert (K : (calls_of c m1 + n <= calls_of c (run m1 (List.concat (repeat [EPut d; EGet; EWake] n))))%nat).
  { apply IH; auto.
    - unfold m1. apply inv_run, V.
    - rewrite E. unfold head. cbn [body m_stop m0]. rewrite St. reflexivity.
    - rewrite E, Hs. exact St.
    - rewrite E. unfold head. cbn [body m_stop m0 m_get]. rewrite St. reflexivity.
    - rewrite E, Hq. reflexivity.
    - rewrite E, Hcn. apply in_or_app. left. apply filter_In. split; [exact I|]. unfold keeps, m0. cbn. rewrite Au, orb_true_r. reflexivity.
    - rewrite E, He. exact En.
    - rewrite E, Ha. exact Au. }
  lia.
Qed.
Theorem C92_one_process_refuted : forall n, exists es, let m := run (m_new (fun _ => true) (fun c => Nat.eqb c 0)) es in
  (n <= calls_of 0 m)%nat /\ (forall t, In t (m_tasks m) -> t = TRun) /\ ~ exists i r, In (EEnd i r) es.
Proof.
  intros n. exists ([EPut 0; EManage false; EGet; EWake; EEnabled 0 false] ++ List.concat (repeat [EPut 1; EGet; EWake] n)).
  rewrite run_app. set (m := run (m_new (fun _ => true) (fun c => Nat.eqb c 0)) [EPut 0; EManage false; EGet; EWake; EEnabled 0 false]).
  assert (T : forall es m, (forall i r, ~ In (EEnd i r) es) -> (forall t, In t (m_tasks m) -> t = TRun) -> forall t, In t (m_tasks (run m es)) -> t = TRun).
  { clear. induction es as [|e es IH]; intros m N H; [exact H|]. change (run m (e :: es)) with (run (step m e) es). apply IH; [intros i r X; apply (N i r); right; exact X|].
    destruct e as [c| |c b|c b|i raised| |stopped| |timeout|]; cbn [step]; auto.
    - destruct (m_get m) as [[c|]|]; auto. destruct (m_queue m); auto.
    - exfalso. apply (N i raised). left. reflexivity.
    - destruct (m_running m); auto. set (m0 := mkMgr _ _ _ _ _ _ _ _ _ _ _ _). destruct (head_same m0) as (_ & _ & _ & _ & Ht & _). rewrite Ht. cbn. tauto.
    - destruct (m_phase m); auto. destruct (ready m); auto. destruct (head_same (body m)) as (_ & _ & _ & _ & Ht & _). rewrite Ht. unfold body. cbn [m_tasks]. intros t X. apply in_app_iff in X as [X|X]; [apply filter_In in X; apply H, X|]. apply in_map_iff in X as (? & <- & _). reflexivity.
    - destruct (m_phase m); auto. destruct (existsb is_raised (m_tasks m)); auto. destruct (timeout || negb (existsb is_run (m_tasks m))); auto. cbn. tauto.
    - destruct (m_phase m); auto. }
  split; [|split].
  - pose proof (again_run n m 0%nat 1%nat) as A. cbn zeta in A. assert (V : Inv m) by (apply inv_run, inv_new).
    specialize (A V eq_refl eq_refl eq_refl eq_refl (Nat.neq_0_succ 0)). assert (I : In 0%nat (m_conns m)) by (left; reflexivity). specialize (A I eq_refl eq_refl). lia.
  - apply T; [|cbn; intros t [<-|[]]; reflexivity]. intros i r X. apply in_concat in X as (l & L & X). apply repeat_spec in L. subst l. cbn in X. intuition discriminate.
  - intros (i & r & X). apply in_app_iff in X as [X|X]; [cbn in X; intuition discriminate|]. apply in_concat in X as (l & L & X). apply repeat_spec in L. subst l. cbn in X. intuition discriminate.
Qed.
Print Assumptions C92_one_process_refuted.

(** ** Stopping. *)
(** After the stop signal one more wake-up can call process(); then the managing call
    calls it no more. *)
Lemma not_waiting_calls es : forall m, m_phase m <> MWait -> (forall b, ~ In (EManage b) es) -> m_calls (run m es) = m_calls m /\ m_conns (run m es) = m_conns m.
Proof.
  induction es as [|e es IH]; intros m P N; [auto|]. change (run m (e :: es)) with (run (step m e) es).
  assert (X : m_phase (step m e) <> MWait /\ m_calls (step m e) = m_calls m /\ m_conns (step m e) = m_conns m).
  { destruct e as [c| |c b|c b|i raised| |stopped| |timeout|]; cbn [step]; auto.
    - destruct (m_get m) as [[c|]|]; auto. destruct (m_queue m); auto.
    - exfalso. apply (N stopped). left. reflexivity.
    - destruct (m_phase m) eqn:Ph; try (rewrite Ph; split; [discriminate|auto]; fail). exfalso. apply P. reflexivity.
    - destruct (m_phase m) eqn:Ph; try (rewrite Ph; split; [discriminate|auto]; fail); [exfalso; apply P; reflexivity|]. destruct (existsb is_raised (m_tasks m)); [cbn; split; [discriminate|auto]|]. destruct (timeout || negb (existsb is_run (m_tasks m))); [cbn; split; [discriminate|auto]|]. rewrite Ph. split; [discriminate|auto].
    - destruct (m_phase m) eqn:Ph; try (cbn; split; [discriminate|auto]; fail); rewrite Ph; split; auto; discriminate. }
  destruct X as (X1 & X2 & X3). destruct (IH _ X1) as [Y1 Y2]; [intros b X; apply (N b); right; exact X|]. split; congruence.
Qed.
Theorem C92_stopped : forall m more, m_phase m = MWait -> m_stop m = true -> (forall b, ~ In (EManage b) more) ->
  let m' := step m EWake in m_phase m' <> MWait /\ m_calls (run m' more) = m_calls m' /\ m_conns (run m' more) = m_conns m'.
Proof.
  intros m more Ph St N m'.
  assert (X : m_phase m' <> MWait). { unfold m'. cbn [step]. rewrite Ph. unfold ready. rewrite St. cbn [orb]. unfold head. replace (m_stop (body m)) with true by (symmetry; exact St). cbn [m_phase]. destruct (m_tasks (body m)); discriminate. }
  split; [exact X|]. apply not_waiting_calls; auto.
Qed.
Print Assumptions C92_stopped.
(** Refuted: "no process() call starts after the stop signal". *)
Theorem C92_stop_refuted : let es := [EPut 0; EManage false; EGet; EWake; EEnabled 0 false; EPut 1; EGet] in
  m_calls (run (m_new (fun _ => true) (fun c => Nat.eqb c 0)) (es ++ [EStop; EWake])) =
  m_calls (run (m_new (fun _ => true) (fun c => Nat.eqb c 0)) es) ++ [mkCall 0 false; mkCall 1 true].
Proof. reflexivity. Qed.
Print Assumptions C92_stop_refuted.

(** manage() returns: at once if no process() call runs, else when all have
    ended, or at the time limit, if none raised. *)
Theorem C92_returns : forall m, m_phase m = MWait -> m_stop m = true ->
  let m1 := step m EWake in
  (m_tasks m1 = [] -> m_phase m1 = MIdle /\ m_running m1 = false) /\
  (m_tasks m1 <> [] -> m_phase m1 = MShut /\ forall m2, m_phase m2 = MShut -> ~ In TRaised (m_tasks m2) ->
     (m_phase (step m2 (EShut true)) = MIdle /\ m_running (step m2 (EShut true)) = false) /\
     (~ In TRun (m_tasks m2) -> m_phase (step m2 (EShut false)) = MIdle /\ m_running (step m2 (EShut false)) = false) /\
     (In TRun (m_tasks m2) -> step m2 (EShut false) = m2)).
Proof.
  intros m Ph St m1. assert (E : m1 = head (body m)). { unfold m1. cbn [step]. rewrite Ph. unfold ready. rewrite St. reflexivity. }
  rewrite E. unfold head. replace (m_stop (body m)) with true by (symmetry; exact St). cbn [m_tasks m_phase m_running]. split.
  - intros ->. auto.
  - intros H. split; [destruct (m_tasks (body m)); [congruence|reflexivity]|]. intros m2 P2 NR. cbn [step]. rewrite P2.
    assert (R : existsb is_raised (m_tasks m2) = false). { apply not_true_is_false. intros X. apply existsb_exists in X as (t & I & X). destruct t; try discriminate. auto. }
    rewrite R. cbn [orb]. split; [auto|]. split.
    + intros NU. assert (U : existsb is_run (m_tasks m2) = false). { apply not_true_is_false. intros X. apply existsb_exists in X as (t & I & X). destruct t; try discriminate. auto. }
      rewrite U. auto.
    + intros I. assert (U : existsb is_run (m_tasks m2) = true) by (apply existsb_exists; exists TRun; auto). rewrite U. reflexivity.
Qed.
Print Assumptions C92_returns.

(** ** Calling manage() again. *)
(** While one call manages, another one only waits. *)
Theorem C92_second_call : forall m b, m_running m = true -> let m' := step m (EManage b) in
  m_calls m' = m_calls m /\ m_conns m' = m_conns m /\ m_queue m' = m_queue m /\ m_get m' = m_get m /\ m_phase m' = m_phase m /\ m_tasks m' = m_tasks m /\ m_stop m' = m_stop m /\ m_second m' = S (m_second m).
Proof. intros m b R m'. unfold m'. cbn [step]. rewrite R. cbn. auto 10. Qed.
Print Assumptions C92_second_call.
(** After a call that returned, manage() manages again: with no connections, and
    with what is queued. *)
Theorem C92_manages_again : forall en au es, let m := run (m_new en au) es in m_running m = false ->
  let m' := step m (EManage false) in m_phase m' = MWait /\ m_running m' = true /\ m_conns m' = [] /\ m_queue m' = m_queue m /\ in_hand m' = [] /\ m_calls m' = m_calls m /\
  (forall c rest, m_queue m = c :: rest -> accepted (run m' [EGet; EWake]) = accepted m ++ [c]).
Proof.
  intros en au es m R m'.
  assert (E : m' = mkMgr (m_enabled m) (m_auto m) (m_queue m) true [] false MWait (Some None) [] (m_second m) (m_put m) (m_calls m)). { unfold m'. cbn [step]. rewrite R. reflexivity. }
  split; [rewrite E; reflexivity|]. split; [rewrite E; reflexivity|]. split; [rewrite E; reflexivity|]. split; [rewrite E; reflexivity|]. split; [rewrite E; reflexivity|]. split; [rewrite E; reflexivity|].
  intros c rest Q. pose proof (C92_taken en au (es ++ [EManage false])) as T. cbn zeta in T. rewrite run_app in T. fold m in T. change (run m [EManage false]) with m' in T.
  assert (P : m_phase m' = MWait) by (rewrite E; reflexivity). assert (H : in_hand m' ++ m_queue m' = c :: rest) by (rewrite E; exact Q).
  destruct (T P c rest H) as [A _]. rewrite A. f_equal. rewrite E. reflexivity.
Qed.
Print Assumptions C92_manages_again.
(** Refuted: "a manager can be used again".  A managing call that is cancelled, or that
    ends because a process() call raised while it was shutting down, leaves the manager
    running for ever: no later call of manage() processes anything. *)
Lemma dead_run es : forall m, m_phase m = MDead -> m_running m = true -> m_phase (run m es) = MDead /\ m_running (run m es) = true /\ m_calls (run m es) = m_calls m.
Proof.
  induction es as [|e es IH]; intros m P R; [auto|]. change (run m (e :: es)) with (run (step m e) es).
  assert (X : m_phase (step m e) = MDead /\ m_running (step m e) = true /\ m_calls (step m e) = m_calls m).
  { destruct e as [c| |c b|c b|i raised| |stopped| |timeout|]; cbn [step]; auto; rewrite ?P, ?R; auto. destruct (m_get m) as [[c|]|]; auto. destruct (m_queue m); auto. }
  destruct X as (X1 & X2 & X3). destruct (IH _ X1 X2) as (Y1 & Y2 & Y3). rewrite <- X3. auto.
Qed.
Theorem C92_reuse_refuted : forall m,
  (m_phase m = MWait \/ m_phase m = MShut -> forall more, m_calls (run (step m ECancel) more) = m_calls m) /\
  (m_phase m = MShut -> In TRaised (m_tasks m) -> forall b more, m_calls (run (step m (EShut b)) more) = m_calls m) /\
  (exists es, let m := run (m_new (fun _ => true) (fun _ => false)) es in m_phase m = MShut /\ In TRaised (m_tasks m)).
Proof.
  intros m. split; [|split].
  - intros P more. assert (X : m_phase (step m ECancel) = MDead /\ m_running (step m ECancel) = true /\ m_calls (step m ECancel) = m_calls m) by (cbn [step]; destruct P as [-> | ->]; auto).
    destruct X as (X1 & X2 & X3). rewrite <- X3. apply dead_run; assumption.
  - intros P I b more.
    assert (R : existsb is_raised (m_tasks m) = true) by (apply existsb_exists; exists TRaised; auto).
    assert (X : m_phase (step m (EShut b)) = MDead /\ m_running (step m (EShut b)) = true /\ m_calls (step m (EShut b)) = m_calls m) by (cbn [step]; rewrite P, R; auto).
    destruct X as (X1 & X2 & X3). rewrite <- X3. apply dead_run; assumption.
  - exists [EPut 0; EManage false; EGet; EWake; EStop; EWake; EEnd 0 true]. cbn. auto.
Qed.
Print Assumptions C92_reuse_refuted.
(** A cancelled call also leaves its task that waits for a connection behind: it takes the
    next connection, which nobody processes. *)
Theorem C92_swallowed_refuted : let m := run (m_new (fun _ => true) (fun _ => false)) [EManage false; ECancel; EPut 5; EGet] in
  m_queue m = [] /\ accepted m = [] /\ in_hand m = [5%nat] /\ forall more, accepted (run m more) = [].
Proof.
  split; [reflexivity|]. split; [reflexivity|]. split; [reflexivity|]. intros more. unfold accepted.
  destruct (dead_run more (run (m_new (fun _ => true) (fun _ => false)) [EManage false; ECancel; EPut 5; EGet]) eq_refl eq_refl) as (_ & _ & ->). reflexivity.
Qed.
Print Assumptions C92_swallowed_refuted.

(** What the managing call waits for after a wake-up: the process() calls that still
    run, and those just started. *)
Theorem C92_waited : forall m, m_phase m = MWait -> let m' := step m EWake in
  m_stop m = true \/ in_hand m <> [] \/ (exists t, In t (m_tasks m) /\ t <> TRun) ->
  (forall t, In t (m_tasks m') -> t = TRun) /\
  List.length (m_tasks m') = (List.length (filter (fun t => match t with TRun => true | _ => false end) (m_tasks m)) + (List.length (m_calls m') - List.length (m_calls m)))%nat.
Proof.
  intros m Ph m' H. unfold m' in *. clear m'.
  destruct (C92_wake m Ph) as [W _]. destruct (W H) as [_ Hc]. rewrite Hc. clear W Hc.
  assert (E : m_tasks (step m EWake) = m_tasks (body m)).
  { cbn [step]. rewrite Ph. assert (R : ready m = true).
    { unfold ready. destruct H as [H|[H|(t & I & H)]].
      - rewrite H. reflexivity.
      - unfold in_hand in H. destruct (m_get m) as [[c|]|]; [|congruence|congruence]. rewrite orb_true_r. reflexivity.
      - apply orb_true_iff. right. apply existsb_exists. exists t. split; [exact I|]. destruct t; [congruence|reflexivity|reflexivity]. }
    rewrite R. destruct (head_same (body m)) as (_ & _ & _ & _ & Ht & _). exact Ht. }
  rewrite E. cbn [body m_tasks]. split.
  - intros t I. apply in_app_iff in I as [I|I].
    + apply filter_In in I as [_ I]. destruct t; [reflexivity|discriminate|discriminate].
    + apply in_map_iff in I as (c & <- & _). reflexivity.
  - rewrite !app_length, !map_length, !app_length. fold (in_hand m). unfold again.
    change (filter (fun t => match t with TRun => true | _ => false end) (m_tasks m)) with (filter is_run (m_tasks m)). lia.
Qed.
Print Assumptions C92_waited.
(** The end of a process() call is that of this call only, and is seen as it was. *)
Lemma set_task_nth t l : forall i j, nth_error (set_task i t l) j = if Nat.eqb j i then match nth_error l i with Some TRun => Some t | x => x end else nth_error l j.
Proof.
  induction l as [|x l IH]; intros i j; [destruct i, j; cbn; try reflexivity; destruct (Nat.eqb j i); reflexivity|].
  destruct i, j; destruct x; cbn; try reflexivity; apply IH.
Qed.
Theorem C92_ended : forall m i raised, let m' := step m (EEnd i raised) in
  (forall j, j <> i -> nth_error (m_tasks m') j = nth_error (m_tasks m) j) /\
  (nth_error (m_tasks m) i = Some TRun -> nth_error (m_tasks m') i = Some (if raised then TRaised else TDone)) /\
  (nth_error (m_tasks m) i <> Some TRun -> nth_error (m_tasks m') i = nth_error (m_tasks m) i) /\
  m_conns m' = m_conns m /\ m_queue m' = m_queue m /\ m_phase m' = m_phase m.
Proof.
  intros m i raised m'. unfold m'. cbn [step m_tasks m_conns m_queue m_phase]. repeat split.
  - intros j H. rewrite set_task_nth. destruct (Nat.eqb_spec j i); [congruence|reflexivity].
  - intros H. rewrite set_task_nth, Nat.eqb_refl, H. reflexivity.
  - intros H. rewrite set_task_nth, Nat.eqb_refl. destruct (nth_error (m_tasks m) i) as [[| |]|]; congruence.
Qed.
Print Assumptions C92_ended.
(** manage() with a signal that is set already returns at once: nothing is taken and
    nothing processed. *)
Theorem C92_set_signal : forall en au es, let m := run (m_new en au) es in m_running m = false ->
  let m' := step m (EManage true) in m_phase m' = MIdle /\ m_running m' = false /\ m_calls m' = m_calls m /\ m_queue m' = m_queue m /\ m_conns m' = [] /\ in_hand m' = [].
Proof. intros en au es m R m'. unfold m'. cbn [step]. rewrite R. cbn. auto 10. Qed.
Print Assumptions C92_set_signal.

(** A manager, as built, manages nothing; a history with three connections. *)
Theorem C92_as_built : forall en au, let m := m_new en au in
  m_running m = false /\ m_conns m = [] /\ m_queue m = [] /\ m_calls m = [] /\ m_phase m = MIdle.
Proof. intros en au m. repeat split. Qed.
Print Assumptions C92_as_built.
Example C92_case : let es := [EPut 3; EManage false; EGet; EWake; EPut 4; EPut 5; EGet; EWake; EGet; EWake; EManage false; EEnabled 4 false; EEnabled 5 false; EEnd 1 false; EWake] in
  let m := run (m_new (fun _ => true) (fun c => Nat.eqb c 5)) es in
  accepted m = [3; 4; 5]%nat /\ m_conns m = [3; 5]%nat /\ m_calls m = [mkCall 3 true; mkCall 4 true; mkCall 5 true; mkCall 5 false] /\
  m_tasks m = [TRun; TRun; TRun] /\ m_phase m = MWait /\ m_second m = 1%nat /\
  let m := run m [EStop; EWake; EEnd 0 false; EEnd 1 false; EEnd 2 false; EEnd 3 false; EShut false] in
  m_phase m = MIdle /\ m_running m = false /\ m_calls m = [mkCall 3 true; mkCall 4 true; mkCall 5 true; mkCall 5 false; mkCall 5 false] /\
  (m_phase (step m (EManage false)) = MWait /\ m_phase (step m (EManage true)) = MIdle).
Proof. vm_compute. auto 20. Qed.
