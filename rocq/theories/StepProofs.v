(** Proofs for C85. *)
From Coq Require Import ZifyBool ZifyNat Lia.
From Verif Require Import Base BaseLemmas StepModel StepSpec.
Open Scope list_scope.
Open Scope Z_scope.

Lemma put_same w s t : w_step (put w s t) s = Some t.
Proof. cbn. rewrite Nat.eqb_refl. reflexivity. Qed.
Lemma put_other w s t i : i <> s -> w_step (put w s t) i = w_step w i.
Proof. cbn. intros H. destruct (Nat.eqb_spec i s); [congruence|reflexivity]. Qed.

Section Ok.
  Context (fails : list (nat * seen_time) -> nat -> bool).

  (** Polling plain structs that do not raise. *)
  Lemma items_plain f items : forall w,
    (forall i, In i items -> w_step w i = None) -> (forall l i, In i items -> fails l i = false) ->
    poll_items (poll fails (S f)) w items =
    (mkWorld (w_step w) (w_source w) (w_log w ++ map (fun i => (i, time_now w)) items), false).
  Proof.
    induction items as [|i items IH]; intros w H F.
    - cbn. rewrite app_nil_r. destruct w; reflexivity.
    - cbn [poll_items poll]. rewrite (H i (or_introl eq_refl)), F by (left; reflexivity).
      rewrite IH; [|intros j Hj; apply H; right; exact Hj|intros l j Hj; apply F; right; exact Hj].
      cbn [w_step w_source w_log map]. rewrite <- app_assoc. reflexivity.
  Qed.
End Ok.

Section Good.
  Context (fails : list (nat * seen_time) -> nat -> bool) (c0 : nat -> Z) (u : nat -> option setup) (Hp : plain u).
  Context (never : forall l i, fails l i = false).

  Lemma shows_time w v src : shows c0 w u v src -> time_now w = ideal_time u v src.
  Proof.
    intros (Es & H). unfold time_now, ideal_time. rewrite Es. destruct src as [s|]; [|reflexivity].
    specialize (H s). destruct (w_step w s) as [t|], (u s) as [x|]; try tauto. f_equal. tauto.
  Qed.
  Lemma upv_eq v s x : upv v s x s = x.
  Proof. unfold upv. rewrite Nat.eqb_refl. reflexivity. Qed.
  Lemma upv_ne v s x i : i <> s -> upv v s x i = v i.
  Proof. intros H. unfold upv. destruct (Nat.eqb_spec i s); [congruence|reflexivity]. Qed.

  Lemma shows_put w v src s t x y : shows c0 w u v src -> u s = Some x ->
    (t_step t = v_step y /\ t_sim t = v_sim y /\ t_count t = v_count y /\ 0 <= v_count y < 2 ^ 32 /\
     t_counts t = (c0 s + v_total y) mod 2 ^ 32 /\ t_now t = u_start x + v_total y * u_dt x /\
     t_dt t = u_dt x /\ t_poll t = u_polls x) ->
    shows c0 (put w s t) u (upv v s y) src.
  Proof.
    intros (Es & H) Hx Ht. split; [exact Es|]. intros i. destruct (Nat.eq_dec i s) as [->|N].
    - rewrite put_same, Hx, upv_eq. exact Ht.
    - rewrite put_other, upv_ne by exact N. apply H.
  Qed.

  Lemma poll_good f w v src s x : shows c0 w u v src -> u s = Some x ->
    exists w', poll fails (S (S f)) w s = (w', false) /\
      shows c0 w' u (upv v s (mkView (v_step (v s)) (v_sim (v s)) (v_count (v s)) (v_total (v s) + 1))) src /\
      w_log w' = w_log w ++ map (fun i => (i, ideal_time u v src)) (u_polls x).
  Proof.
    intros HS Hx. pose proof (shows_time _ _ _ HS) as Ht. destruct HS as (Es & H). pose proof (H s) as Hs. rewrite Hx in Hs.
    remember (S f) as f1 eqn:Ef. cbn [poll]. destruct (w_step w s) as [t|] eqn:Et; [|tauto].
    destruct Hs as (A1 & A2 & A3 & A4 & A5 & A6 & A7 & A8).
    assert (Pt : poll_time w s = put w s (s_time t (time_now w))) by (unfold poll_time; rewrite Et; reflexivity).
    rewrite Pt. subst f1. rewrite items_plain.
    2:{ intros i Hi. rewrite A8 in Hi. pose proof (Hp s x i Hx Hi) as Hn. pose proof (H i) as Hi'. rewrite Hn in Hi'.
        destruct (Nat.eq_dec i s) as [->|N]; [congruence|]. rewrite put_other by exact N.
        destruct (w_step w i); tauto. }
    2:{ auto. }
    cbn [w_step]. rewrite put_same.
    eexists. split; [reflexivity|].
    assert (Tn : time_now (put w s (s_time t (time_now w))) = ideal_time u v src).
    { rewrite <- Ht. unfold time_now. cbn [put w_source]. rewrite Es. destruct src as [s'|]; [|reflexivity].
      destruct (Nat.eq_dec s' s) as [->|N]; [rewrite put_same, Et; reflexivity|rewrite put_other by exact N; reflexivity]. }
    split.
    - split; [exact Es|]. intros i. cbn [put w_step]. destruct (Nat.eqb_spec i s) as [->|N].
      + rewrite Hx, upv_eq. cbn [s_time t_step t_sim t_count t_counts t_time t_now t_dt t_poll v_step v_sim v_count v_total].
        rewrite A5, A6, A7. repeat split; auto; try lia. unfold u32. rewrite Zplus_mod_idemp_l. f_equal. lia.
      + rewrite upv_ne by exact N. apply H.
    - cbn [put w_log]. rewrite Tn, A8. reflexivity.
  Qed.

  Lemma ideal_iter_ext v v' src s polls n : (forall i, v_total (v i) = v_total (v' i)) ->
    ideal_iterations u v src s polls n = ideal_iterations u v' src s polls n.
  Proof.
    revert v v'. induction n as [|n IH]; intros v v' E; [reflexivity|]. cbn [ideal_iterations]. f_equal.
    - assert (Q : ideal_time u v src = ideal_time u v' src).
      { unfold ideal_time. destruct src as [s'|]; [|reflexivity]. rewrite E. reflexivity. }
      rewrite Q. reflexivity.
    - apply IH. intros i. unfold upv. destruct (Nat.eqb i s); [cbn; rewrite E; reflexivity|apply E].
  Qed.

  Lemma iterate_good f n : forall w v src s x, shows c0 w u v src -> u s = Some x ->
    exists w', iterate fails (S (S f)) n w s = (w', false) /\
      shows c0 w' u (upv v s (mkView (v_step (v s)) (v_sim (v s)) (v_count (v s)) (v_total (v s) + Z.of_nat n))) src /\
      w_log w' = w_log w ++ ideal_iterations u v src s (u_polls x) n.
  Proof.
    induction n as [|n IH]; intros w v src s x HS Hx.
    - exists w. split; [reflexivity|]. split; [|cbn; rewrite app_nil_r; reflexivity].
      destruct HS as (Es & H). split; [exact Es|]. intros i. specialize (H i).
      unfold upv. destruct (Nat.eqb_spec i s) as [Qi|Qi]; [subst i|exact H].
      destruct (w_step w s), (u s); try tauto. cbn. rewrite Z.add_0_r. exact H.
    - destruct (poll_good f w v src s x HS Hx) as (w1 & E1 & S1 & L1).
      destruct (IH w1 _ src s x S1 Hx) as (w2 & E2 & S2 & L2).
      exists w2. cbn [iterate]. rewrite E1, E2. split; [reflexivity|]. split.
      + destruct S2 as (Es & H). split; [exact Es|]. intros i. specialize (H i). unfold upv in *.
        destruct (Nat.eqb_spec i s) as [Qi|Qi]; [subst i|exact H].
        rewrite !Nat.eqb_refl in H. cbn [v_step v_sim v_count v_total] in *.
        replace (v_total (v s) + Z.of_nat (S n)) with (v_total (v s) + 1 + Z.of_nat n) by lia. exact H.
      + rewrite L2, L1, <- app_assoc. reflexivity.
  Qed.

  Lemma edge_good f w v src s b : shows c0 w u v src ->
    exists w', set_step fails (S (S f)) w s b = (w', false) /\
      let '(l, v', src') := ideal_edge u v src s b in shows c0 w' u v' src' /\ w_log w' = w_log w ++ l.
  Proof.
    intros HS. pose proof HS as (Es & H). pose proof (H s) as Hs. unfold set_step, ideal_edge.
    destruct (w_step w s) as [t|] eqn:Et, (u s) as [x|] eqn:Ex; try tauto.
    2:{ exists w. split; [reflexivity|]. split; [exact HS|rewrite app_nil_r; reflexivity]. }
    destruct Hs as (A1 & A2 & A3 & A4 & A5 & A6 & A7 & A8). rewrite A1.
    destruct (Bool.eqb (v_step (v s)) b); [exists w; split; [reflexivity|]; split; [exact HS|rewrite app_nil_r; reflexivity]|].
    set (w1 := put w s _).
    set (v1 := upv v s (mkView b (v_sim (v s)) (v_count (v s)) (v_total (v s)))).
    assert (S1 : shows c0 w1 u v1 src).
    { apply (shows_put w v src s _ x _ HS Ex). cbn. auto 10. }
    destruct (iterate_good f (Z.to_nat (t_count t)) w1 v1 src s x S1 Ex) as (w2 & E2 & S2 & L2).
    exists w2. split; [exact E2|]. split.
    - destruct S2 as (Es2 & H2). split; [exact Es2|]. intros i. specialize (H2 i). subst v1. unfold upv in *.
      destruct (Nat.eqb_spec i s) as [Qi|Qi]; [subst i|exact H2].
      rewrite !Nat.eqb_refl in H2. cbn [v_step v_sim v_count v_total] in *. rewrite A3, Z2Nat.id in H2 by lia. exact H2.
    - rewrite L2. cbn [w1 put w_log]. f_equal. rewrite A3. apply ideal_iter_ext. intros i. subst v1. unfold upv.
      destruct (Nat.eqb_spec i s) as [->|]; reflexivity.
  Qed.

  Lemma step_good f w v src o : shows c0 w u v src ->
    exists w', step fails (S (S f)) w o = (w', false) /\
      let '(l, v', src') := ideal_step u v src o in shows c0 w' u v' src' /\ w_log w' = w_log w ++ l.
  Proof.
    intros HS. destruct o as [s b|s n|s b|s]; cbn [step ideal_step].
    - apply edge_good, HS.
    - eexists. split; [reflexivity|]. pose proof HS as (Es & H). pose proof (H s) as Hs. unfold set_count.
      destruct (w_step w s) as [t|] eqn:Et, (u s) as [x|] eqn:Ex; try tauto.
      2:{ split; [exact HS|rewrite app_nil_r; reflexivity]. }
      destruct Hs as (A1 & A2 & A3 & A4 & A5 & A6 & A7 & A8).
      split; [|cbn; rewrite app_nil_r; reflexivity]. apply (shows_put w v src s _ x _ HS Ex).
      cbn [t_step t_sim t_count t_counts t_time t_now t_dt t_poll v_step v_sim v_count v_total].
      repeat split; auto; apply Z.mod_pos_bound; lia.
    - eexists. split; [reflexivity|]. pose proof HS as (Es & H). pose proof (H s) as Hs. unfold set_sim.
      destruct (w_step w s) as [t|] eqn:Et, (u s) as [x|] eqn:Ex; try tauto.
      2:{ split; [exact HS|rewrite app_nil_r; reflexivity]. }
      destruct Hs as (A1 & A2 & A3 & A4 & A5 & A6 & A7 & A8). rewrite A2.
      destruct (Bool.eqb (v_sim (v s)) b); [split; [exact HS|rewrite app_nil_r; reflexivity]|].
      set (w1 := mkWorld _ _ _).
      assert (Ew : w_step w1 s = Some (mkStepper (t_step t) b (t_count t) (t_counts t) (t_time t) (t_now t) (t_dt t) (t_poll t)))
        by (apply put_same).
      unfold poll_time. rewrite Ew. split; [|cbn; rewrite app_nil_r; reflexivity].
      assert (S1 : shows c0 w1 u (upv v s (mkView (v_step (v s)) b (v_count (v s)) (v_total (v s)))) (if b then Some s else None)).
      { split; [reflexivity|]. intros i. subst w1. cbn [w_step put]. destruct (Nat.eqb_spec i s) as [->|N].
        - rewrite Ex, upv_eq. cbn. auto 10.
        - rewrite upv_ne by exact N. apply H. }
      destruct S1 as (Es1 & H1). split; [exact Es1|]. intros i. cbn [put w_step]. specialize (H1 i).
      destruct (Nat.eqb_spec i s) as [->|N]; [|exact H1]. rewrite Ew in H1. destruct (u s); [|tauto].
      cbn [s_time t_step t_sim t_count t_counts t_time t_now t_dt t_poll] in *. exact H1.
    - pose proof HS as (Es & H). pose proof (H s) as Hs.
      destruct (w_step w s) as [t|] eqn:Et, (u s) as [x|] eqn:Ex; try tauto.
      2:{ exists w. split; [reflexivity|]. unfold ideal_edge. rewrite Ex. split; [exact HS|rewrite app_nil_r; reflexivity]. }
      destruct Hs as (A1 & _). rewrite A1. apply edge_good, HS.
  Qed.

  Lemma run_good f ops : forall w v src, shows c0 w u v src ->
    exists w', run fails (S (S f)) w ops = (w', map (fun _ => false) ops) /\
      let '(l, v', src') := ideal_run u v src ops in shows c0 w' u v' src' /\ w_log w' = w_log w ++ l.
  Proof.
    induction ops as [|o ops IH]; intros w v src HS.
    - exists w. split; [reflexivity|]. split; [exact HS|rewrite app_nil_r; reflexivity].
    - destruct (step_good f w v src o HS) as (w1 & E1 & G1). cbn [run ideal_run map]. rewrite E1.
      destruct (ideal_step u v src o) as [[l1 v1] s1]. destruct G1 as (S1 & L1).
      destruct (IH w1 v1 s1 S1) as (w2 & E2 & G2). rewrite E2. exists w2. split; [reflexivity|].
      destruct (ideal_run u v1 s1 ops) as [[l2 v2] s2]. destruct G2 as (S2 & L2). split; [exact S2|].
      rewrite L2, L1, <- app_assoc. reflexivity.
  Qed.
End Good.
