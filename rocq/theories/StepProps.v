(** C85: stepping the application by hand. *)
From Coq Require Import ZifyBool ZifyNat Lia.
From Coq Require Import Ascii.
From Verif Require Import Base BaseLemmas StepModel StepSpec StepProofs.
Open Scope list_scope.
Open Scope Z_scope.

(** ** Every edge polls every struct as often as configured, and the counters and
    the simulated clock follow. *)
Theorem C85_stepping :
  forall fails c0 u f ops w v src,
    plain u -> (forall l i, fails l i = false) -> shows c0 w u v src ->
    exists w', run fails (S (S f)) w ops = (w', map (fun _ => false) ops) /\
      let '(polled, v', src') := ideal_run u v src ops in
      shows c0 w' u v' src' /\ w_log w' = w_log w ++ polled.
Proof. intros fails c0 u f ops w v src Hp Hn. apply run_good; assumption. Qed.
Print Assumptions C85_stepping.

(** ** A struct polled by one stepper is polled once per iteration, and while that
    stepper's clock is the time source it sees the clock advance by exactly the
    increment from one poll to the next. *)
Fixpoint from_to (a d : Z) (n : nat) : list seen_time :=
  match n with O => [] | S n' => Sim a :: from_to (a + d) d n' end.
Definition times_of (i : nat) (l : list (nat * seen_time)) : list seen_time :=
  map snd (filter (fun p => Nat.eqb (fst p) i) l).
Lemma times_app i a b : times_of i (a ++ b) = times_of i a ++ times_of i b.
Proof. unfold times_of. rewrite filter_app, map_app. reflexivity. Qed.
Lemma times_map i t polls : NoDup polls -> times_of i (map (fun j => (j, t)) polls) = if in_dec Nat.eq_dec i polls then [t] else [].
Proof.
  unfold times_of. induction polls as [|j polls IH]; intros ND; [reflexivity|]. inversion ND as [|? ? Hn ND']; subst.
  cbn [map filter fst]. destruct (Nat.eqb_spec j i) as [->|N].
  - cbn [map snd]. rewrite IH by exact ND'. destruct (in_dec Nat.eq_dec i polls); [tauto|].
    destruct (in_dec Nat.eq_dec i (i :: polls)) as [|X]; [reflexivity|]. exfalso. apply X. left. reflexivity.
  - rewrite IH by exact ND'. destruct (in_dec Nat.eq_dec i polls), (in_dec Nat.eq_dec i (j :: polls)) as [X|X]; try reflexivity.
    + exfalso. apply X. right. assumption.
    + destruct X as [X|X]; [congruence|tauto].
Qed.
Lemma from_to_app d : forall n m a, from_to a d (n + m) = from_to a d n ++ from_to (a + Z.of_nat n * d) d m.
Proof.
  induction n as [|n IH]; intros m a; [cbn [Nat.add from_to app]; f_equal; lia|].
  cbn [Nat.add from_to app]. rewrite IH. do 3 f_equal. lia.
Qed.

Section Own.
  Context (u : nat -> option setup) (s i : nat) (x : setup).
  Context (Hx : u s = Some x) (Hi : In i (u_polls x)).
  Context (once : forall s' x', u s' = Some x' -> NoDup (u_polls x')).
  Context (only : forall s' x', u s' = Some x' -> In i (u_polls x') -> s' = s).

  Lemma iter_own n : forall v, times_of i (ideal_iterations u v (Some s) s (u_polls x) n) =
    from_to (u_start x + v_total (v s) * u_dt x) (u_dt x) n.
  Proof.
    induction n as [|n IH]; intros v; [reflexivity|]. cbn [ideal_iterations from_to].
    rewrite times_app, times_map by (eapply once; eauto). destruct (in_dec Nat.eq_dec i (u_polls x)); [|tauto].
    cbn [app]. unfold ideal_time. rewrite Hx. f_equal. rewrite IH. rewrite upv_eq. cbn [v_total]. f_equal. lia.
  Qed.
  Lemma iter_length src n : forall v, List.length (times_of i (ideal_iterations u v src s (u_polls x) n)) = n.
  Proof.
    induction n as [|n IH]; intros v; [reflexivity|]. cbn [ideal_iterations].
    rewrite times_app, times_map by (eapply once; eauto). destruct (in_dec Nat.eq_dec i (u_polls x)); [|tauto].
    cbn [app List.length]. rewrite IH. reflexivity.
  Qed.
  Lemma iter_other s' x' src n : u s' = Some x' -> s' <> s -> forall v,
    times_of i (ideal_iterations u v src s' (u_polls x') n) = [].
  Proof.
    intros Hx' N. induction n as [|n IH]; intros v; [reflexivity|]. cbn [ideal_iterations].
    rewrite times_app, times_map by (eapply once; eauto). rewrite IH.
    destruct (in_dec Nat.eq_dec i (u_polls x')) as [Q|]; [exfalso; apply N; eapply only; eauto|reflexivity].
  Qed.

  (** What an edge of any stepper means for [i]. *)
  Lemma edge_own v s' b : (forall j, 0 <= v_count (v j)) ->
    let '(l, v', src') := ideal_edge u v (Some s) s' b in
    exists n, times_of i l = from_to (u_start x + v_total (v s) * u_dt x) (u_dt x) n /\
      v_total (v' s) = v_total (v s) + Z.of_nat n /\ src' = Some s /\ (forall j, 0 <= v_count (v' j)).
  Proof.
    intros C. unfold ideal_edge. destruct (u s') as [x'|] eqn:Hx'.
    2:{ exists 0%nat. cbn. repeat split; auto; lia. }
    destruct (Bool.eqb (v_step (v s')) b); [exists 0%nat; cbn; repeat split; auto; lia|].
    assert (C' : forall j, 0 <= v_count (upv v s' (mkView b (v_sim (v s')) (v_count (v s')) (v_total (v s') + v_count (v s'))) j)).
    { intros j. unfold upv. destruct (Nat.eqb j s'); [cbn|]; apply C. }
    destruct (Nat.eq_dec s' s) as [->|N].
    - assert (x' = x) by congruence. subst x'. exists (Z.to_nat (v_count (v s))).
      rewrite iter_own. rewrite upv_eq. cbn [v_total]. rewrite Z2Nat.id by apply C. auto.
    - exists 0%nat. rewrite (iter_other s' x' _ _ Hx' N), upv_ne by congruence. cbn. repeat split; auto; lia.
  Qed.
  Definition no_sim (o : op) : Prop := match o with SetSim _ _ => False | _ => True end.
  Lemma run_own ops : forall v, (forall j, 0 <= v_count (v j)) -> Forall no_sim ops ->
    let '(l, v', src') := ideal_run u v (Some s) ops in
    exists n, times_of i l = from_to (u_start x + v_total (v s) * u_dt x) (u_dt x) n /\
      v_total (v' s) = v_total (v s) + Z.of_nat n.
  Proof.
    induction ops as [|o ops IH]; intros v C Ho; [exists 0%nat; cbn; split; [reflexivity|lia]|].
    inversion Ho as [|? ? H1 H2]; subst. cbn [ideal_run].
    assert (G : let '(l, v', src') := ideal_step u v (Some s) o in
      exists n, times_of i l = from_to (u_start x + v_total (v s) * u_dt x) (u_dt x) n /\
        v_total (v' s) = v_total (v s) + Z.of_nat n /\ src' = Some s /\ (forall j, 0 <= v_count (v' j))).
    { destruct o as [s' b|s' m|s' b|s']; cbn [ideal_step]; [apply edge_own, C| |destruct H1|apply edge_own, C].
      destruct (u s'); (exists 0%nat; cbn [times_of map filter from_to]; repeat split; auto; try lia).
      - unfold upv. destruct (Nat.eqb_spec s s') as [->|]; cbn; lia.
      - intros j. unfold upv. destruct (Nat.eqb j s'); [cbn; apply Z.mod_pos_bound; lia|apply C]. }
    destruct (ideal_step u v (Some s) o) as [[l1 v1] s1]. destruct G as (n1 & T1 & V1 & -> & C1).
    specialize (IH v1 C1 H2). destruct (ideal_run u v1 (Some s) ops) as [[l2 v2] s2]. destruct IH as (n2 & T2 & V2).
    exists (n1 + n2)%nat. rewrite times_app, T1, T2, from_to_app, V2, V1. split; [|lia]. do 2 f_equal. lia.
  Qed.
End Own.

Theorem C85_simulated_time :
  forall fails f ops w s t i,
    (forall l j, fails l j = false) -> w_source w = Some s -> w_step w s = Some t -> In i (t_poll t) ->
    (forall s' t', w_step w s' = Some t' ->
       0 <= t_count t' < 2 ^ 32 /\ 0 <= t_counts t' < 2 ^ 32 /\ NoDup (t_poll t') /\
       (forall j, In j (t_poll t') -> w_step w j = None) /\ (In i (t_poll t') -> s' = s)) ->
    Forall no_sim ops ->
    let w' := fst (run fails (S (S f)) w ops) in
    exists n t', times_of i (w_log w') = times_of i (w_log w) ++ from_to (t_now t) (t_dt t) n /\
      w_step w' s = Some t' /\ t_now t' = t_now t + Z.of_nat n * t_dt t.
Proof.
  intros fails f ops w s t i never Es Et Hi Hw Ho.
  set (u := fun j => match w_step w j with Some t => Some (mkSetup (t_now t) (t_dt t) (t_poll t)) | None => None end).
  set (v := fun j => match w_step w j with Some t => mkView (t_step t) (t_sim t) (t_count t) 0 | None => mkView false false 0 0 end).
  set (c0 := fun j => match w_step w j with Some t => t_counts t | None => 0 end).
  assert (Hx : u s = Some (mkSetup (t_now t) (t_dt t) (t_poll t))) by (unfold u; rewrite Et; reflexivity).
  assert (Hp : plain u).
  { intros s' x' j. unfold u. destruct (w_step w s') as [t'|] eqn:E'; [|discriminate]. intros Q; injection Q as <-. cbn [u_polls].
    intros Hj. rewrite (proj1 (proj2 (proj2 (proj2 (Hw s' t' E')))) j Hj). reflexivity. }
  assert (HS : shows c0 w u v (Some s)).
  { split; [exact Es|]. intros j. unfold u, v, c0. destruct (w_step w j) as [t'|] eqn:E'; [|exact I].
    pose proof (Hw j t' E') as (B1 & B2 & _). cbn [u_start u_dt u_polls v_step v_sim v_count v_total].
    rewrite Z.add_0_r, Z.mod_small by exact B2. repeat split; auto; try lia. }
  destruct (run_good fails c0 u Hp never f ops w v (Some s) HS) as (w' & E & G).
  pose proof (run_own u s i _ Hx Hi) as O.
  assert (P1 : forall s' x', u s' = Some x' -> NoDup (u_polls x')).
  { intros s' x'. unfold u. destruct (w_step w s') as [t'|] eqn:E'; [|discriminate]. intros Q; injection Q as <-. apply (Hw s' t' E'). }
  assert (P2 : forall s' x', u s' = Some x' -> In i (u_polls x') -> s' = s).
  { intros s' x'. unfold u. destruct (w_step w s') as [t'|] eqn:E'; [|discriminate]. intros Q; injection Q as <-. apply (Hw s' t' E'). }
  specialize (O P1 P2 ops v). assert (P3 : forall j, 0 <= v_count (v j)).
  { intros j. unfold v. destruct (w_step w j) as [t'|] eqn:E'; [apply (Hw j t' E')|cbn; lia]. }
  specialize (O P3 Ho). destruct (ideal_run u v (Some s) ops) as [[polled v'] src']. destruct G as ((_ & G) & L).
  destruct O as (n & T & V). rewrite E. cbn [fst]. exists n. specialize (G s). rewrite Hx in G.
  assert (V0 : v_total (v s) = 0) by (unfold v; rewrite Et; reflexivity).
  destruct (w_step w' s) as [t'|]; [|tauto]. exists t'. split; [|split; [reflexivity|]].
  - rewrite L, times_app, T, V0. cbn [u_start u_dt]. do 2 f_equal; lia.
  - destruct G as (_ & _ & _ & _ & _ & G & _). rewrite G, V, V0. cbn [u_start u_dt]. lia.
Qed.
Print Assumptions C85_simulated_time.

(** ** Whatever structs raise and whatever is polled: the counter and the
    simulated clock have advanced by the same number of whole iterations. *)
Definition in_step (c0 a : nat -> Z) (w : world) : Prop :=
  forall s t, w_step w s = Some t -> exists n, 0 <= n /\ t_counts t = (c0 s + n) mod 2 ^ 32 /\ t_now t = a s + n * t_dt t.
Lemma in_step_put c0 a w s t : in_step c0 a w ->
  (exists n, 0 <= n /\ t_counts t = (c0 s + n) mod 2 ^ 32 /\ t_now t = a s + n * t_dt t) -> in_step c0 a (put w s t).
Proof.
  intros H Ht i t' Hi. destruct (Nat.eq_dec i s) as [->|N].
  - rewrite put_same in Hi. injection Hi as <-. exact Ht.
  - rewrite put_other in Hi by exact N. apply (H i t' Hi).
Qed.
Lemma in_step_items c0 a f : (forall w i, in_step c0 a w -> in_step c0 a (fst (f w i))) ->
  forall items w, in_step c0 a w -> in_step c0 a (fst (poll_items f w items)).
Proof.
  intros Hf. induction items as [|i items IH]; intros w H; [exact H|]. cbn [poll_items].
  pose proof (Hf w i H) as H'. destruct (f w i) as [w' []]; [exact H'|apply IH, H'].
Qed.
Lemma in_step_poll fails c0 a fuel : forall w s, in_step c0 a w -> in_step c0 a (fst (poll fails fuel w s)).
Proof.
  induction fuel as [|f IH]; intros w s H; [exact H|]. cbn [poll].
  destruct (w_step w s) as [t|] eqn:Et; [|destruct (fails _ _); exact H].
  assert (H0 : in_step c0 a (poll_time w s)).
  { unfold poll_time. rewrite Et. apply in_step_put; [exact H|]. destruct (H s t Et) as (n & A). exists n. exact A. }
  pose proof (in_step_items c0 a (poll fails f) IH (t_poll t) _ H0) as H1.
  destruct (poll_items _ _ _) as [w' []]; [exact H1|]. cbn [fst] in H1.
  destruct (w_step w' s) as [t'|] eqn:Et'; [|exact H1]. cbn [fst]. apply in_step_put; [exact H1|].
  destruct (H1 s t' Et') as (n & A1 & A2 & A3). exists (n + 1). cbn [t_counts t_now t_dt].
  rewrite A2, A3. unfold u32. rewrite Zplus_mod_idemp_l. repeat split; [lia|f_equal; lia|lia].
Qed.
Lemma in_step_iterate fails c0 a limit n : forall w s, in_step c0 a w -> in_step c0 a (fst (iterate fails limit n w s)).
Proof.
  induction n as [|n IH]; intros w s H; [exact H|]. cbn [iterate]. pose proof (in_step_poll fails c0 a limit w s H) as H1.
  destruct (poll fails limit w s) as [w' []]; [exact H1|apply IH, H1].
Qed.
Lemma in_step_step fails c0 a limit w o : in_step c0 a w -> in_step c0 a (fst (step fails limit w o)).
Proof.
  intros H.
  assert (E : forall s b, in_step c0 a (fst (set_step fails limit w s b))).
  { intros s b. unfold set_step. destruct (w_step w s) as [t|] eqn:Et; [|exact H]. destruct (Bool.eqb _ _); [exact H|].
    apply in_step_iterate, in_step_put; [exact H|exact (H s t Et)]. }
  destruct o as [s b|s v|s b|s]; cbn [step fst].
  - apply E.
  - unfold set_count. destruct (w_step w s) as [t|] eqn:Et; [|exact H]. apply in_step_put; [exact H|exact (H s t Et)].
  - unfold set_sim. destruct (w_step w s) as [t|] eqn:Et; [|exact H]. destruct (Bool.eqb _ _); [exact H|].
    set (w1 := mkWorld _ _ _).
    assert (H1 : in_step c0 a w1).
    { intros i t' Hi. eapply (in_step_put c0 a w s); [exact H| |exact Hi]. exact (H s t Et). }
    unfold poll_time. destruct (w_step w1 s) as [t1|] eqn:E1; [|exact H1]. apply in_step_put; [exact H1|exact (H1 s t1 E1)].
  - destruct (w_step w s); [apply E|exact H].
Qed.
Lemma in_step_run fails c0 a limit ops : forall w, in_step c0 a w -> in_step c0 a (fst (run fails limit w ops)).
Proof.
  induction ops as [|o ops IH]; intros w H; [exact H|]. cbn [run]. pose proof (in_step_step fails c0 a limit w o H) as H1.
  destruct (step fails limit w o) as [w1 b]. specialize (IH w1 H1). destruct (run fails limit w1 ops) as [w2 bs]. exact IH.
Qed.
Theorem C85_counter_and_clock :
  forall fails limit ops w s t t',
    (forall i x, w_step w i = Some x -> 0 <= t_counts x < 2 ^ 32) ->
    w_step w s = Some t -> w_step (fst (run fails limit w ops)) s = Some t' ->
    exists n, 0 <= n /\ t_counts t' = (t_counts t + n) mod 2 ^ 32 /\ t_now t' = t_now t + n * t_dt t'.
Proof.
  intros fails limit ops w s t t' R Et Et'.
  pose proof (in_step_run fails (fun i => match w_step w i with Some t => t_counts t | None => 0 end)
    (fun i => match w_step w i with Some t => t_now t | None => 0 end) limit ops w) as G.
  assert (H : in_step (fun i => match w_step w i with Some t => t_counts t | None => 0 end)
    (fun i => match w_step w i with Some t => t_now t | None => 0 end) w).
  { intros i x Hx. exists 0. cbn. rewrite Hx. rewrite Z.add_0_r, Z.mod_small by (apply (R i x Hx)). repeat split; lia. }
  destruct (G H s t' Et') as (n & A). rewrite Et in A. exists n. exact A.
Qed.
Print Assumptions C85_counter_and_clock.

(** ** Which structs a stepper polls. *)
Lemma poll_set_from_in kinds : forall k i, In i (poll_set_from k kinds) <->
  exists kind, (k <= i)%nat /\ nth_error kinds (i - k) = Some kind /\ should_poll kind = true.
Proof.
  induction kinds as [|x kinds IH]; intros k i; cbn [poll_set_from].
  - split; [intros []|]. intros (kind & _ & H & _). destruct (i - k)%nat; discriminate.
  - assert (G : In i (poll_set_from (S k) kinds) <->
      exists kind, (S k <= i)%nat /\ nth_error kinds (i - S k) = Some kind /\ should_poll kind = true) by apply IH.
    assert (Q : (exists kind, (S k <= i)%nat /\ nth_error kinds (i - S k) = Some kind /\ should_poll kind = true) <->
      exists kind, (S k <= i)%nat /\ nth_error (x :: kinds) (i - k) = Some kind /\ should_poll kind = true).
    { split; intros (kind & A & B & C); exists kind; (split; [exact A|]); replace (i - k)%nat with (S (i - S k)) in * by lia; auto. }
    destruct (should_poll x) eqn:Ex.
    + cbn [In]. rewrite G, Q. split.
      * intros [->|(kind & A & B)]; [exists x; rewrite Nat.sub_diag; cbn; auto|exists kind; split; [lia|exact B]].
      * intros (kind & A & B & C). destruct (Nat.eq_dec i k) as [->|N]; [left; reflexivity|right; exists kind; split; [lia|auto]].
    + rewrite G, Q. split.
      * intros (kind & A & B). exists kind. split; [lia|exact B].
      * intros (kind & A & B & C). destruct (Nat.eq_dec i k) as [->|N]; [|exists kind; split; [lia|auto]].
        rewrite Nat.sub_diag in B. cbn in B. congruence.
Qed.
Theorem C85_polled_structs :
  forall kinds i, In i (poll_set true kinds) <->
    exists kind, nth_error kinds i = Some kind /\
      kind <> "ToggleStepper"%string /\ kind <> "UiState"%string /\ kind <> "SampleStruct"%string /\
      (forall rest, kind <> String.append "Rt" rest).
Proof.
  intros kinds i. unfold poll_set. rewrite poll_set_from_in. rewrite Nat.sub_0_r.
  assert (G : forall kind, should_poll kind = true <->
    kind <> "ToggleStepper"%string /\ kind <> "UiState"%string /\ kind <> "SampleStruct"%string /\
    (forall rest, kind <> String.append "Rt" rest)).
  { intros kind. unfold should_poll. rewrite andb_true_iff, !negb_true_iff. cbn [dont_poll existsb].
    rewrite orb_false_r, !orb_false_iff, !String.eqb_neq.
    assert (P : String.prefix "Rt" kind = false <-> forall rest, kind <> String.append "Rt" rest).
    { destruct kind as [|a [|b k]].
      - cbn. split; [discriminate|reflexivity].
      - split; [discriminate|]. intros _. cbn [String.prefix]. destruct (Ascii.ascii_dec "R"%char a); reflexivity.
      - cbn [String.append]. cbn [String.prefix]. destruct (Ascii.ascii_dec "R"%char a) as [->|N].
        + destruct (Ascii.ascii_dec "t"%char b) as [->|N'].
          * split; [destruct k; discriminate|]. intros H. destruct (H k). reflexivity.
          * split; [|reflexivity]. intros _ rest Q. congruence.
        + split; [|reflexivity]. intros _ rest Q. congruence. }
    rewrite P. tauto. }
  split.
  - intros (kind & _ & A & B). exists kind. split; [exact A|]. apply G, B.
  - intros (kind & A & B). exists kind. split; [lia|]. split; [exact A|]. apply G, B.
Qed.
Print Assumptions C85_polled_structs.

(** ** A stepper that polls itself never completes an iteration. *)
Definition keeps_polls (w w' : world) : Prop :=
  forall s, match w_step w s, w_step w' s with Some t, Some t' => t_poll t' = t_poll t | None, None => True | _, _ => False end.
Lemma keeps_refl w : keeps_polls w w.
Proof. intros s. destruct (w_step w s); auto. Qed.
Lemma keeps_trans a b c : keeps_polls a b -> keeps_polls b c -> keeps_polls a c.
Proof.
  intros H1 H2 s. specialize (H1 s). specialize (H2 s). destruct (w_step a s), (w_step b s), (w_step c s); try tauto. congruence.
Qed.
Lemma keeps_put w s t t' : w_step w s = Some t -> t_poll t' = t_poll t -> keeps_polls w (put w s t').
Proof.
  intros E P i. destruct (Nat.eq_dec i s) as [->|N]; [rewrite put_same, E; exact P|rewrite put_other by exact N].
  destruct (w_step w i); auto.
Qed.
Lemma keeps_items f : (forall w i, keeps_polls w (fst (f w i))) -> forall items w, keeps_polls w (fst (poll_items f w items)).
Proof.
  intros Hf. induction items as [|i items IH]; intros w; [apply keeps_refl|]. cbn [poll_items].
  pose proof (Hf w i) as H. destruct (f w i) as [w' []]; [exact H|]. eapply keeps_trans; [exact H|apply IH].
Qed.
Lemma keeps_poll fails fuel : forall w s, keeps_polls w (fst (poll fails fuel w s)).
Proof.
  induction fuel as [|f IH]; intros w s; [apply keeps_refl|]. cbn [poll].
  destruct (w_step w s) as [t|] eqn:Et.
  2:{ destruct (fails _ _); [apply keeps_refl|]. intros i. cbn. destruct (w_step w i); auto. }
  assert (K0 : keeps_polls w (poll_time w s)) by (unfold poll_time; rewrite Et; eapply keeps_put; [exact Et|reflexivity]).
  pose proof (keeps_items (poll fails f) IH (t_poll t) (poll_time w s)) as K1.
  destruct (poll_items _ _ _) as [w' []]; cbn [fst] in K1; [eapply keeps_trans; eauto|].
  destruct (w_step w' s) as [t'|] eqn:Et'; cbn [fst].
  - eapply keeps_trans; [exact K0|]. eapply keeps_trans; [exact K1|]. eapply keeps_put; [exact Et'|reflexivity].
  - eapply keeps_trans; eauto.
Qed.
Lemma items_raise f (P : world -> Prop) s : (forall w i, P w -> P (fst (f w i))) -> (forall w, P w -> snd (f w s) = true) ->
  forall items w, In s items -> P w -> snd (poll_items f w items) = true.
Proof.
  intros Hk Hf. induction items as [|i items IH]; intros w Hi Hw; [destruct Hi|]. cbn [poll_items].
  pose proof (Hk w i Hw) as Hk'. destruct (f w i) as [w' b] eqn:E. destruct b; [reflexivity|].
  destruct Hi as [->|Hi].
  - pose proof (Hf w Hw) as Q. rewrite E in Q. discriminate.
  - apply IH; [exact Hi|exact Hk'].
Qed.
Lemma self_raises fails s polls : In s polls -> forall fuel w,
  (exists t, w_step w s = Some t /\ t_poll t = polls) -> snd (poll fails fuel w s) = true.
Proof.
  intros Hs. induction fuel as [|f IH]; intros w (t & Et & Ep); [reflexivity|]. cbn [poll]. rewrite Et.
  assert (R : snd (poll_items (poll fails f) (poll_time w s) (t_poll t)) = true).
  { apply (items_raise _ (fun w => exists t, w_step w s = Some t /\ t_poll t = polls) s).
    - intros w0 i (t0 & E0 & P0). pose proof (keeps_poll fails f w0 i s) as K. rewrite E0 in K.
      destruct (w_step (fst (poll fails f w0 i)) s) as [t1|]; [|tauto]. exists t1. split; [reflexivity|congruence].
    - intros w0 H0. apply IH, H0.
    - rewrite Ep. exact Hs.
    - unfold poll_time. rewrite Et. eexists. split; [apply put_same|exact Ep]. }
  destruct (poll_items _ _ _) as [w' b]. cbn in R. subst b. reflexivity.
Qed.
Theorem C85_own_subclass_refuted :
  forall fails limit w s t b,
    w_step w s = Some t -> In s (t_poll t) -> b <> t_step t -> 0 < t_count t ->
    snd (step fails limit w (SetStep s b)) = true.
Proof.
  intros fails limit w s t b Et Hs Hb Hc. cbn [step]. unfold set_step. rewrite Et.
  destruct (Bool.eqb (t_step t) b) eqn:E; [apply Bool.eqb_prop in E; congruence|].
  destruct (Z.to_nat (t_count t)) as [|n] eqn:En; [lia|]. cbn [iterate].
  match goal with |- context [poll fails limit ?w1 s] =>
    pose proof (self_raises fails s (t_poll t) Hs limit w1) as R; destruct (poll fails limit w1 s) as [w2 b2] end.
  cbn [snd] in R. rewrite R; [reflexivity|]. eexists. split; [apply put_same|reflexivity].
Qed.
Print Assumptions C85_own_subclass_refuted.

(** ** Concrete cases. *)
Definition never (_ : list (nat * seen_time)) (_ : nat) : bool := false.
(** Structs 0 and 1 are plain, 2 and 3 are steppers. *)
Definition ex_u (s : nat) : option setup :=
  match s with 2%nat => Some (mkSetup 0 10 [0%nat; 1%nat]) | 3%nat => Some (mkSetup 500 1 [1%nat]) | _ => None end.
Definition ex_w : world :=
  mkWorld (fun s => match s with 2%nat => Some (stepper_new 2 10 0 [0%nat; 1%nat]) | 3%nat => Some (stepper_new 1 1 500 [1%nat]) | _ => None end) None [].
Definition ex_v (s : nat) : view := match s with 2%nat => mkView false false 2 0 | _ => mkView false false 1 0 end.
Definition ex_ops : list op := [SetSim 2 true; SetStep 2 true; SetStep 2 true; SetCount 2 1; Toggle 2; Toggle 3; SetSim 2 false; Toggle 3].
Example C85_case :
  plain ex_u /\ shows (fun _ => 0) ex_w ex_u ex_v None /\
  w_log (fst (run never 2 ex_w ex_ops)) =
    [(0%nat, Sim 0); (1%nat, Sim 0); (0%nat, Sim 10); (1%nat, Sim 10); (0%nat, Sim 20); (1%nat, Sim 20); (1%nat, Sim 30); (1%nat, Real)] /\
  fst (fst (ideal_run ex_u ex_v None ex_ops)) = w_log (fst (run never 2 ex_w ex_ops)).
Proof.
  split; [|split; [|split; vm_compute; reflexivity]].
  - intros s x i Hs Hi. destruct s as [|[|[|[|s]]]]; try discriminate; injection Hs as <-; cbn in Hi;
      repeat (destruct Hi as [<-|Hi]; [reflexivity|]); destruct Hi.
  - split; [reflexivity|]. intros s. destruct s as [|[|[|[|s]]]]; cbn; auto; repeat split; lia.
Qed.
Print Assumptions C85_case.
Example C85_time_case :
  times_of 0 (w_log (fst (run never 2 (fst (run never 2 ex_w [SetSim 2 true])) [SetStep 2 true; SetCount 2 1; Toggle 2; Toggle 3]))) =
  from_to 0 10 3.
Proof. vm_compute. reflexivity. Qed.
(** The default class: not polling itself; a subclass under another name does. *)
Example C85_classes :
  poll_set true ["MyStruct"; "ToggleStepper"; "RtThing"; "Other"]%string = [0%nat; 3%nat] /\
  poll_set true ["MyStruct"; "MyStepper"]%string = [0%nat; 1%nat].
Proof. split; reflexivity. Qed.

(** ** Structs that should advance together do not when one raises. *)
Theorem C85_lockstep_refuted :
  exists fails w s t, w_step w s = Some t /\ t_poll t = [0%nat; 1%nat] /\
    let w' := fst (run fails 2 w [Toggle s; Toggle s]) in
    List.length (times_of 0 (w_log w')) = 2%nat /\ List.length (times_of 1 (w_log w')) = 1%nat.
Proof.
  exists (fun l i => Nat.eqb i 1 && Nat.eqb (List.length l) 1),
    (mkWorld (fun s => match s with 2%nat => Some (stepper_new 1 10 0 [0%nat; 1%nat]) | _ => None end) None []), 2%nat.
  eexists. split; [reflexivity|]. split; [reflexivity|]. vm_compute. split; reflexivity.
Qed.
Print Assumptions C85_lockstep_refuted.

(** ** With two steppers the one that stops simulating stops it for both. *)
Theorem C85_two_clocks_refuted :
  exists w ops s t, fst (run never 2 ex_w ops) = w /\ w_step w s = Some t /\ t_sim t = true /\ time_now w = Real.
Proof.
  exists (fst (run never 2 ex_w [SetSim 2 true; SetSim 3 true; SetSim 2 false])), [SetSim 2 true; SetSim 3 true; SetSim 2 false], 3%nat.
  eexists. split; [reflexivity|]. split; [vm_compute; reflexivity|]. split; reflexivity.
Qed.
Print Assumptions C85_two_clocks_refuted.

(** ** The task: dispatching is one edge of every stepper. *)
Theorem C85_dispatch :
  forall fails limit l w, snd (dispatch fails limit w l) = false ->
    run fails limit w (map Toggle l) = (fst (dispatch fails limit w l), map (fun _ => false) l).
Proof.
  intros fails limit l. induction l as [|s l IH]; intros w H; [reflexivity|]. cbn [dispatch map run] in *.
  destruct (step fails limit w (Toggle s)) as [w1 b]. destruct b; [discriminate|]. rewrite (IH w1 H). reflexivity.
Qed.
Print Assumptions C85_dispatch.

(** ** The time a stepper shows. *)
Lemma poll_shown fails c0 u f w v src s x : plain u -> (forall l i, fails l i = false) -> shows c0 w u v src -> u s = Some x ->
  exists t', w_step (fst (poll fails (S (S f)) w s)) s = Some t' /\ t_time t' = ideal_time u v src.
Proof.
  intros Hp never HS Hx. pose proof (shows_time _ _ _ _ _ HS) as Ht. destruct HS as (Es & H). pose proof (H s) as Hs. rewrite Hx in Hs.
  remember (S f) as f1 eqn:Ef. cbn [poll]. destruct (w_step w s) as [t|] eqn:Et; [|tauto].
  destruct Hs as (_ & _ & _ & _ & _ & _ & _ & A8).
  assert (Pt : poll_time w s = put w s (s_time t (time_now w))) by (unfold poll_time; rewrite Et; reflexivity).
  rewrite Pt. subst f1. rewrite items_plain.
  2:{ intros i Hi. rewrite A8 in Hi. pose proof (Hp s x i Hx Hi) as Hn. pose proof (H i) as Hi'. rewrite Hn in Hi'.
      destruct (Nat.eq_dec i s) as [->|N]; [congruence|]. rewrite put_other by exact N.
      destruct (w_step w i); tauto. }
  2:{ auto. }
  cbn [w_step]. rewrite put_same. cbn [fst]. rewrite put_same. eexists. split; [reflexivity|]. cbn [t_time s_time]. exact Ht.
Qed.
Lemma iterate_shown fails c0 u f n : forall w v src s x, plain u -> (forall l i, fails l i = false) -> shows c0 w u v src -> u s = Some x ->
  u_polls x <> [] ->
  exists t' l i, let w' := fst (iterate fails (S (S f)) (S n) w s) in w_step w' s = Some t' /\ w_log w' = l ++ [(i, t_time t')].
Proof.
  induction n as [|n IH]; intros w v src s x Hp never HS Hx Hne.
  - destruct (poll_good fails c0 u Hp never f w v src s x HS Hx) as (w1 & E1 & S1 & L1).
    destruct (poll_shown fails c0 u f w v src s x Hp never HS Hx) as (t' & B1 & B2). cbn [iterate]. rewrite E1 in *. cbn [fst] in *.
    destruct (exists_last Hne) as (l & i & El). exists t', (w_log w ++ map (fun i => (i, ideal_time u v src)) l), i. split; [exact B1|].
    rewrite L1, El, map_app, app_assoc, B2. reflexivity.
  - destruct (poll_good fails c0 u Hp never f w v src s x HS Hx) as (w1 & E1 & S1 & L1).
    remember (S n) as m. cbn [iterate]. rewrite E1. subst m. eapply IH; eauto.
Qed.
(** After an edge it is the time the structs were last polled at. *)
Theorem C85_shown_time :
  forall fails c0 u f w v src s x b,
    plain u -> (forall l i, fails l i = false) -> shows c0 w u v src -> u s = Some x -> u_polls x <> [] ->
    b <> v_step (v s) -> 0 < v_count (v s) ->
    exists t l i, let w' := fst (step fails (S (S f)) w (SetStep s b)) in
      w_step w' s = Some t /\ w_log w' = l ++ [(i, t_time t)].
Proof.
  intros fails c0 u f w v src s x b Hp never HS Hx Hne Hb Hc. cbn [step]. unfold set_step. pose proof HS as (Es & H). pose proof (H s) as Hs.
  rewrite Hx in Hs. destruct (w_step w s) as [t|] eqn:Et; [|tauto]. destruct Hs as (A1 & A2 & A3 & A4 & A5 & A6 & A7 & A8).
  rewrite A1. destruct (Bool.eqb (v_step (v s)) b) eqn:E; [apply Bool.eqb_prop in E; congruence|]. rewrite A3.
  destruct (Z.to_nat (v_count (v s))) as [|n] eqn:En; [lia|].
  eapply (iterate_shown fails c0 u f n _ (upv v s (mkView b (v_sim (v s)) (v_count (v s)) (v_total (v s)))) src s x Hp never);
    [|exact Hx|exact Hne].
  apply (shows_put c0 u w v src s _ x _ HS Hx). cbn. auto 10.
Qed.
Print Assumptions C85_shown_time.
(** After switching the clock it is the new clock's. *)
Theorem C85_shown_after_switch :
  forall fails limit w s t b, w_step w s = Some t -> b <> t_sim t ->
    let w' := fst (step fails limit w (SetSim s b)) in
    exists t', w_step w' s = Some t' /\ t_sim t' = b /\ t_time t' = if b then Sim (t_now t) else Real.
Proof.
  intros fails limit w s t b Et Hb. cbn [step fst]. unfold set_sim. rewrite Et.
  destruct (Bool.eqb (t_sim t) b) eqn:E; [apply Bool.eqb_prop in E; congruence|].
  unfold poll_time. cbn [w_step put]. rewrite Nat.eqb_refl. eexists. split; [apply put_same|].
  cbn [s_time t_sim t_time]. split; [reflexivity|]. unfold time_now. cbn [w_source w_step]. destruct b; [|reflexivity].
  rewrite Nat.eqb_refl. reflexivity.
Qed.
Print Assumptions C85_shown_after_switch.
Example C85_shown_case : exists t, w_step (fst (run never 2 ex_w [SetSim 2 true; SetStep 2 true])) 2 = Some t /\ t_time t = Sim 10 /\ t_now t = 20.
Proof. eexists. split; [vm_compute; reflexivity|]. split; reflexivity. Qed.
