(** Proofs about tasks. *)
From Verif Require Import Base BaseLemmas PrimModel TaskModel TaskSpec.
From Coq Require Import ZifyBool ZifyNat Lia.
Ltac Zify.zify_post_hook ::= Z.div_mod_to_equations.
Open Scope list_scope.
Open Scope Z_scope.

Lemma store_u8 v : k_store U8 v = v mod 256.
Proof. reflexivity. Qed.
Lemma store_u16 v : k_store U16 v = v mod 65536.
Proof. reflexivity. Qed.
Lemma store_u32 v : k_store U32 v = v mod 4294967296.
Proof. reflexivity. Qed.

(** ** Asynchronous tasks *)
Lemma cmds_count cs : forall a, a_count (a_cmds a cs) = a_count a.
Proof. induction cs as [|c cs IH]; intros a; [reflexivity|]. cbn [a_cmds fold_left]. change (a_count (a_cmds (a_cmd a c) cs) = a_count a). rewrite IH. destruct c; reflexivity. Qed.
Lemma cmds_max cs : forall a, limit_kept cs -> a_max (a_cmds a cs) = a_max a.
Proof.
  induction cs as [|c cs IH]; intros a H; [reflexivity|]. change (a_max (a_cmds (a_cmd a c) cs) = a_max a).
  rewrite IH; [destruct c; [reflexivity|destruct (H n); left; reflexivity]|]. intros n Hn. apply (H n). right. exact Hn.
Qed.
Lemma cmds_enabled cs : forall a, a_enabled a = true -> ~ In (ASetEnabled false) cs -> a_enabled (a_cmds a cs) = true.
Proof.
  induction cs as [|c cs IH]; intros a E H; [exact E|]. change (a_enabled (a_cmds (a_cmd a c) cs) = true).
  apply IH; [|intros Hn; apply H; right; exact Hn]. destruct c as [[|]|n]; [reflexivity|destruct H; left; reflexivity|exact E].
Qed.

Lemma iter_max a i : limit_kept (it_during i) -> limit_kept (it_asleep i) -> a_max (a_iter a i) = a_max a.
Proof.
  intros H1 H2. unfold a_iter. cbn zeta.
  repeat match goal with |- context[if ?c then _ else _] => destruct c end; cbn [a_set_enabled a_max];
    rewrite ?cmds_max by assumption; cbn [a_set_enabled a_max]; rewrite ?cmds_max by assumption; reflexivity.
Qed.
Lemma iter_count a i : a_count (a_iter a i) = (a_count a + 1) mod 256.
Proof.
  unfold a_iter. cbn zeta.
  repeat match goal with |- context[if ?c then _ else _] => destruct c end; cbn [a_set_enabled a_count];
    rewrite ?cmds_count; cbn [a_set_enabled a_count]; rewrite ?cmds_count; apply store_u8.
Qed.
(** Reaching the limit ends the run. *)
Lemma iter_limit a i : limit_kept (it_during i) -> 0 < a_max a -> a_max a <= (a_count a + 1) mod 256 -> a_enabled (a_iter a i) = false.
Proof.
  intros H1 H2 H3. unfold a_iter. cbn zeta. cbn [a_set_enabled a_max a_count a_enabled].
  rewrite cmds_max, cmds_count by assumption. rewrite store_u8.
  replace ((a_max a >? 0) && ((a_count a + 1) mod 256 >=? a_max a)) with true by lia. reflexivity.
Qed.
Lemma iter_quiet a i : limit_kept (it_during i) -> quiet i -> a_enabled a = true ->
  (a_max a <= 0 \/ (a_count a + 1) mod 256 < a_max a) -> a_enabled (a_iter a i) = true.
Proof.
  intros H1 (Q1 & Q2 & Q3 & Q4) E H3. unfold a_iter. cbn zeta. cbn [a_set_enabled a_max a_count a_enabled].
  rewrite cmds_max, cmds_count by assumption. rewrite store_u8.
  replace ((a_max a >? 0) && ((a_count a + 1) mod 256 >=? a_max a)) with false by lia. rewrite Q2. cbn [orb].
  rewrite E, Q1, Q3. cbn [andb a_enabled]. apply cmds_enabled; [reflexivity|exact Q4].
Qed.

Lemma loop_limit l : forall a, limit_fixed l -> 0 < a_max a <= 255 -> 0 <= a_count a < a_max a ->
  Z.of_nat (fst (fst (a_loop a l))) <= a_max a - a_count a.
Proof.
  induction l as [|i l IH]; intros a F M C; cbn [a_loop]; destruct (a_enabled a) eqn:E; cbn [fst snd]; try lia.
  assert (F1 : limit_kept (it_during i) /\ limit_kept (it_asleep i)) by (apply F; left; reflexivity). destruct F1 as [F1 F2].
  pose proof (iter_max a i F1 F2) as Hm. pose proof (iter_count a i) as Hc.
  destruct (Z.eq_dec (a_count a + 1) (a_max a)) as [X|X].
  - assert (D : a_enabled (a_iter a i) = false) by (apply iter_limit; [exact F1|lia|lia]).
    destruct l; cbn [a_loop]; rewrite D; cbn [fst snd]; lia.
  - assert (F' : limit_fixed l) by (intros j Hj; apply F; right; exact Hj).
    specialize (IH (a_iter a i) F'). rewrite Hm, Hc in IH.
    destruct (a_loop (a_iter a i) l) as [[n e] a']. cbn [fst snd] in *. lia.
Qed.
Lemma loop_exact l : forall a, limit_fixed l -> Forall quiet l -> a_enabled a = true -> 0 < a_max a <= 255 -> 0 <= a_count a < a_max a ->
  Z.of_nat (fst (fst (a_loop a l))) = Z.min (Z.of_nat (List.length l)) (a_max a - a_count a) /\
  (snd (fst (a_loop a l)) = true <-> a_max a - a_count a <= Z.of_nat (List.length l)).
Proof.
  induction l as [|i l IH]; intros a F Q E M C; cbn [a_loop]; rewrite E; cbn [fst snd List.length]; [split; [lia|split; [discriminate|lia]]|].
  assert (F1 : limit_kept (it_during i) /\ limit_kept (it_asleep i)) by (apply F; left; reflexivity). destruct F1 as [F1 F2].
  inversion Q as [|? ? Q1 Q2]; subst. pose proof (iter_max a i F1 F2) as Hm. pose proof (iter_count a i) as Hc.
  destruct (Z.eq_dec (a_count a + 1) (a_max a)) as [X|X].
  - assert (D : a_enabled (a_iter a i) = false) by (apply iter_limit; [exact F1|lia|lia]).
    destruct l; cbn [a_loop]; rewrite D; cbn [fst snd]; (split; [|split; [|reflexivity]]; intros; cbn [List.length]; lia).
  - assert (F' : limit_fixed l) by (intros j Hj; apply F; right; exact Hj).
    assert (E' : a_enabled (a_iter a i) = true) by (apply iter_quiet; [exact F1|exact Q1|exact E|lia]).
    specialize (IH (a_iter a i) F' Q2 E'). rewrite Hm, Hc in IH.
    destruct (a_loop (a_iter a i) l) as [[n e] a']. cbn [fst snd] in *. split; [lia|]. destruct IH as [_ IH]; [lia|lia|]. rewrite IH. lia.
Qed.
Lemma loop_forever l : forall a, limit_fixed l -> Forall quiet l -> a_enabled a = true -> 256 <= a_max a ->
  fst (fst (a_loop a l)) = List.length l /\ snd (fst (a_loop a l)) = false.
Proof.
  induction l as [|i l IH]; intros a F Q E M; cbn [a_loop]; rewrite E; cbn [fst snd List.length]; [split; reflexivity|].
  assert (F1 : limit_kept (it_during i) /\ limit_kept (it_asleep i)) by (apply F; left; reflexivity). destruct F1 as [F1 F2].
  inversion Q as [|? ? Q1 Q2]; subst. pose proof (iter_max a i F1 F2) as Hm. 
  assert (F' : limit_fixed l) by (intros j Hj; apply F; right; exact Hj).
  assert (E' : a_enabled (a_iter a i) = true) by (apply iter_quiet; [exact F1|exact Q1|exact E|lia]).
  destruct (IH _ F' Q2 E' ltac:(lia)) as [A B]. destruct (a_loop (a_iter a i) l) as [[n e] a']. cbn [fst snd] in *. split; congruence.
Qed.

Lemma loop_unlimited l : forall a, limit_fixed l -> Forall quiet l -> a_enabled a = true -> a_max a <= 0 ->
  fst (fst (a_loop a l)) = List.length l /\ snd (fst (a_loop a l)) = false.
Proof.
  induction l as [|i l IH]; intros a F Q E M; cbn [a_loop]; rewrite E; cbn [fst snd List.length]; [split; reflexivity|].
  assert (F1 : limit_kept (it_during i) /\ limit_kept (it_asleep i)) by (apply F; left; reflexivity). destruct F1 as [F1 F2].
  inversion Q as [|? ? Q1 Q2]; subst. pose proof (iter_max a i F1 F2) as Hm.
  assert (F' : limit_fixed l) by (intros j Hj; apply F; right; exact Hj).
  assert (E' : a_enabled (a_iter a i) = true) by (apply iter_quiet; [exact F1|exact Q1|exact E|lia]).
  destruct (IH _ F' Q2 E' ltac:(lia)) as [A B]. destruct (a_loop (a_iter a i) l) as [[n e] a']. cbn [fst snd] in *. split; congruence.
Qed.
Lemma iter_ends a i : it_result i = false \/ it_stop i = true \/ it_cancel i = true -> a_enabled (a_iter a i) = false.
Proof.
  intros H. unfold a_iter. cbn zeta. destruct (it_result i); [|rewrite andb_false_r].
  - destruct (it_stop i); [rewrite orb_true_r; reflexivity|]. destruct H as [H|[H|H]]; try discriminate. rewrite H.
    match goal with |- a_enabled (if a_enabled ?x then _ else _) = _ => destruct (a_enabled x) eqn:E end; [reflexivity|exact E].
  - match goal with |- a_enabled (if a_enabled ?x then _ else _) = _ => assert (E : a_enabled x = false) by (match goal with |- context[if ?c then _ else _] => destruct c end; reflexivity); rewrite E; exact E end.
Qed.
Lemma loop_ends l1 i l2 : forall a, it_result i = false \/ it_stop i = true \/ it_cancel i = true ->
  (fst (fst (a_loop a (l1 ++ i :: l2))) <= S (List.length l1))%nat /\ snd (fst (a_loop a (l1 ++ i :: l2))) = true.
Proof.
  induction l1 as [|k l1 IH]; intros a H; cbn [app a_loop List.length]; destruct (a_enabled a); cbn [fst snd]; try (split; [lia|reflexivity]).
  - pose proof (iter_ends a i H) as E. destruct l2; cbn [a_loop]; rewrite E; cbn [fst snd]; (split; [lia|reflexivity]).
  - destruct (IH (a_iter a k) H) as [A B]. destruct (a_loop (a_iter a k) (l1 ++ i :: l2)) as [[n e] a']. cbn [fst snd] in *. split; [lia|exact B].
Qed.

(** ** Periodic tasks *)
Lemma upd_nth {A} i (x : A) l : (i < List.length l)%nat -> nth_error (upd i x l) i = Some x.
Proof. revert l. induction i; intros [|y l] H; cbn in *; try lia; [reflexivity|]. apply IHi. lia. Qed.
Lemma upd_nth_ne {A} i j (x : A) l : i <> j -> nth_error (upd i x l) j = nth_error l j.
Proof. revert j l. induction i; intros [|j] [|y l] H; cbn; try reflexivity; try congruence. apply IHi. congruence. Qed.
Lemma upd_length {A} i (x : A) l : List.length (upd i x l) = List.length l.
Proof. revert l. induction i; intros [|y l]; cbn; try reflexivity. f_equal. apply IHi. Qed.
Lemma nth_lt {A} i (l : list A) x : nth_error l i = Some x -> (i < List.length l)%nat.
Proof. intros H. apply nth_error_Some. congruence. Qed.

Lemma run_app p h1 h2 : p_run p (h1 ++ h2) = p_run (p_run p h1) h2.
Proof. apply fold_left_app. Qed.

Lemma cancel_cases i p : cancel i p = p \/ exists x, nth_error (p_loops p) i = Some x /\ finished (lp_pc x) = false /\
  cancel i p = p_set_loops (upd i (mkLoop (lp_pc x) (lp_stop x) true) (p_loops p)) p.
Proof.
  unfold cancel. destruct (nth_error (p_loops p) i) as [x|] eqn:E; [|left; reflexivity].
  destruct (finished (lp_pc x)) eqn:F; [left; reflexivity|]. right. exists x. auto.
Qed.

(** What a resumption of a loop can do. *)
Definition tail_pc (p : ptask) (stop : bool) : lpc * bool :=
  let e := if stop then negb (p_sig p) else p_enabled p in
  (if e then LSleep else LEnd, e).
Lemma tail_spec i x p : p_tail i x p =
  set_pc i x (if (if lp_stop x then negb (p_sig p) else p_enabled p) then LSleep else LEnd)
    (if lp_stop x then p_set_enabled (negb (p_sig p)) p else p).
Proof. unfold p_tail. destruct (lp_stop x); cbn zeta; [cbn [p_enabled p_set_enabled]; destruct (negb (p_sig p)); reflexivity|destruct (p_enabled p); reflexivity]. Qed.

Ltac crush_fields :=
  unfold set_pc, set_call, p_set_loops, p_set_calls, p_set_task, p_set_enabled, p_set_sig, p_set_paused, p_start, p_measure; cbn [p_enabled p_paused p_sig p_task p_loops p_calls p_started p_dispatches p_overruns].

Lemma resume_started i r p :
  p_started (p_resume i r p) = p_started p ++
    match nth_error (p_loops p) i with
    | Some (mkLoop LSleep _ false) => if p_enabled p && negb (p_paused p) then [i] else []
    | Some (mkLoop LNew _ false) => if negb (p_enabled p) && negb (p_paused p) then [i] else []
    | _ => []
    end.
Proof.
  unfold p_resume. destruct (nth_error (p_loops p) i) as [[pc st c]|]; [|symmetry; apply app_nil_r]. cbn [lp_pc lp_cancel].
  destruct pc, c; try (symmetry; apply app_nil_r).
  - destruct (p_enabled p); cbn [negb andb]; [symmetry; apply app_nil_r|].
    unfold p_head. cbn [p_enabled p_set_enabled]. crush_fields. destruct (p_paused p) eqn:Ep; cbn [negb].
    + rewrite tail_spec. cbn [lp_stop]. destruct st; symmetry; apply app_nil_r.
    + reflexivity.
  - destruct r; [|symmetry; apply app_nil_r]. rewrite tail_spec. cbn [lp_stop]. destruct st; symmetry; apply app_nil_r.
  - unfold p_head. destruct (p_enabled p) eqn:Ee; cbn [negb andb]; [|symmetry; apply app_nil_r].
    destruct (p_paused p) eqn:Ep; cbn [negb].
    + rewrite tail_spec. cbn [lp_stop]. destruct st; symmetry; apply app_nil_r.
    + reflexivity.
Qed.
Lemma cancel_started i p : p_started (cancel i p) = p_started p.
Proof. destruct (cancel_cases i p) as [->|(x & _ & _ & ->)]; reflexivity. Qed.
Lemma finish_started j c p : p_started (c_finish j c p) = p_started p.
Proof. unfold c_finish. destruct (cl_task c); reflexivity. Qed.
Lemma call_started j p : p_started (c_resume j p) = p_started p.
Proof.
  unfold c_resume. destruct (nth_error (p_calls p) j) as [c|]; [|reflexivity]. destruct (cl_pc c); try reflexivity.
  - destruct (p_task p) as [i|]; [|apply finish_started]. destruct (nth_error (p_loops p) i) as [x|]; [|reflexivity].
    destruct (finished (lp_pc x)); [reflexivity|]. change (p_started (cancel i (p_set_enabled false p)) = p_started p). rewrite cancel_started. reflexivity.
  - destruct (nth_error (p_loops p) l) as [x|]; [|reflexivity]. destruct (lp_pc x); reflexivity.
  - apply finish_started.
Qed.
Lemma step_started p e : match e with PLoop _ _ => True | _ => p_started (p_step p e) = p_started p end.
Proof. destruct e; cbn [p_step]; try exact I; try reflexivity; [apply cancel_started|apply call_started]. Qed.

Lemma started_other p e : (forall i r, e <> PLoop i r) -> p_started (p_step p e) = p_started p.
Proof. intros H. pose proof (step_started p e) as S. destruct e; try exact S. destruct (H i r eq_refl). Qed.

Lemma starts_app p i l l' : p_started p = l ++ l' -> starts p i = (count_occ Nat.eq_dec l i + count_occ Nat.eq_dec l' i)%nat.
Proof. intros E. unfold starts. rewrite E. apply count_occ_app. Qed.

(** *** What a step does to a given loop *)
Lemma set_pc_loops i x pc p : p_loops (set_pc i x pc p) = upd i (mkLoop pc (lp_stop x) false) (p_loops p).
Proof. reflexivity. Qed.
Lemma resume_loops i r p : p_loops (p_resume i r p) = p_loops p \/
  exists x pc, nth_error (p_loops p) i = Some x /\ finished (lp_pc x) = false /\
    p_loops (p_resume i r p) = upd i (mkLoop pc (lp_stop x) false) (p_loops p).
Proof.
  unfold p_resume. destruct (nth_error (p_loops p) i) as [[pc st c]|] eqn:E; [|left; reflexivity]. cbn [lp_pc lp_cancel lp_stop].
  destruct pc; try (left; reflexivity); right; eexists; unfold p_head; rewrite ?tail_spec; cbn [lp_stop];
    [destruct c; [|destruct (p_enabled p); [|cbn [p_enabled p_set_enabled]; destruct (p_paused (p_set_enabled true p)); rewrite ?tail_spec; cbn [lp_stop]; [destruct st|]]]
    |destruct c; [|destruct r; rewrite ?tail_spec; cbn [lp_stop]; [destruct st|]]
    |destruct c; [|destruct (p_enabled p); [destruct (p_paused p); rewrite ?tail_spec; cbn [lp_stop]; [destruct st|]|]]];
    eexists; (split; [reflexivity|]); (split; [reflexivity|]); reflexivity.
Qed.
Lemma cancel_loops i p : p_loops (cancel i p) = p_loops p \/
  exists x, nth_error (p_loops p) i = Some x /\ finished (lp_pc x) = false /\
    p_loops (cancel i p) = upd i (mkLoop (lp_pc x) (lp_stop x) true) (p_loops p).
Proof. destruct (cancel_cases i p) as [->|(x & A & B & ->)]; [left; reflexivity|right; exists x; auto]. Qed.
Lemma finish_loops j c p : p_loops (c_finish j c p) = p_loops p \/ exists st, p_loops (c_finish j c p) = p_loops p ++ [mkLoop LNew st false].
Proof. unfold c_finish. destruct (cl_task c) as [st|]; [right; exists st|left]; reflexivity. Qed.
(** The loops after a step: unchanged, one more, one cancelled or one resumed. *)
Lemma step_loops p e :
  p_loops (p_step p e) = p_loops p \/
  (exists st, p_loops (p_step p e) = p_loops p ++ [mkLoop LNew st false]) \/
  (exists i x, nth_error (p_loops p) i = Some x /\ finished (lp_pc x) = false /\
     p_loops (p_step p e) = upd i (mkLoop (lp_pc x) (lp_stop x) true) (p_loops p)) \/
  (exists i r x pc, e = PLoop i r /\ nth_error (p_loops p) i = Some x /\ finished (lp_pc x) = false /\
     p_loops (p_step p e) = upd i (mkLoop pc (lp_stop x) false) (p_loops p)).
Proof.
  destruct e as [b| | |st|st| |i|i r|j]; cbn [p_step]; try (left; reflexivity).
  - right; left. exists st. reflexivity.
  - destruct (cancel_loops i p) as [E|(x & A & B & C)]; [left; exact E|right; right; left; exists i, x; auto].
  - destruct (resume_loops i r p) as [E|(x & pc & A & B & C)]; [left; exact E|right; right; right; exists i, r, x, pc; auto].
  - unfold c_resume. destruct (nth_error (p_calls p) j) as [c|]; [|left; reflexivity].
    assert (FL : forall q, p_loops q = p_loops p -> p_loops (c_finish j c q) = p_loops p \/ exists st, p_loops (c_finish j c q) = p_loops p ++ [mkLoop LNew st false]).
    { intros q E. rewrite <- E. apply finish_loops. }
    destruct (cl_pc c) as [|l| | |]; try (left; reflexivity).
    + destruct (p_task p) as [i|].
      * destruct (nth_error (p_loops p) i) as [x|]; [|left; reflexivity]. destruct (finished (lp_pc x)); [left; reflexivity|].
        change (p_loops (set_call j c (CWait i) (cancel i (p_set_enabled false p)))) with (p_loops (cancel i (p_set_enabled false p))).
        destruct (cancel_loops i (p_set_enabled false p)) as [E|(y & A & B & C)]; [left; exact E|]. right; right; left. exists i, y. auto.
      * destruct (FL p eq_refl) as [E|E]; [left; exact E|right; left; exact E].
    + destruct (nth_error (p_loops p) l) as [x|]; [|left; reflexivity]. destruct (lp_pc x); left; reflexivity.
    + destruct (FL p eq_refl) as [E|E]; [left; exact E|right; left; exact E].
Qed.

Lemma step_loop_at p e i x : nth_error (p_loops p) i = Some x ->
  exists y, nth_error (p_loops (p_step p e)) i = Some y /\ lp_stop y = lp_stop x /\
    (finished (lp_pc x) = true -> y = x) /\
    (lp_pc y = lp_pc x \/ exists r, e = PLoop i r).
Proof.
  intros H. assert (K : forall j z y, nth_error (p_loops p) j = Some z -> finished (lp_pc z) = false -> lp_stop y = lp_stop z ->
     (j = i -> lp_pc y = lp_pc x \/ exists r, e = PLoop i r) -> p_loops (p_step p e) = upd j y (p_loops p) ->
     exists y, nth_error (p_loops (p_step p e)) i = Some y /\ lp_stop y = lp_stop x /\
    (finished (lp_pc x) = true -> y = x) /\ (lp_pc y = lp_pc x \/ exists r, e = PLoop i r)).
  { intros j z y A B C D E. rewrite E. destruct (Nat.eq_dec j i) as [->|Hj].
    - rewrite upd_nth by (eapply nth_lt; exact H). exists y. rewrite H in A. injection A as <-.
      split; [reflexivity|]. split; [exact C|]. split; [congruence|apply D; reflexivity].
    - rewrite upd_nth_ne by exact Hj. exists x. rewrite H. auto. }
  destruct (step_loops p e) as [E|[(st & E)|[(j & z & A & B & E)|(j & r & z & pc & -> & A & B & E)]]].
  - rewrite E. exists x. auto.
  - rewrite E. rewrite nth_error_app1 by (eapply nth_lt; exact H). exists x. auto.
  - apply (K j z (mkLoop (lp_pc z) (lp_stop z) true) A B eq_refl); [|exact E]. intros ->. left. rewrite H in A. injection A as <-. reflexivity.
  - apply (K j z (mkLoop pc (lp_stop z) false) A B eq_refl); [|exact E]. intros ->. right. exists r. reflexivity.
Qed.

Lemma run_loop_at h : forall p i x, nth_error (p_loops p) i = Some x ->
  exists y, nth_error (p_loops (p_run p h)) i = Some y /\ lp_stop y = lp_stop x.
Proof.
  induction h as [|e h IH]; intros p i x H; [exists x; auto|].
  destruct (step_loop_at p e i x H) as (y & A & B & _). destruct (IH _ _ _ A) as (z & C & D). exists z. split; [exact C|congruence].
Qed.

Lemma step_starts_other p e i : (forall r, e <> PLoop i r) -> starts (p_step p e) i = starts p i.
Proof.
  intros H. unfold starts. destruct e; try (rewrite (step_started p _); reflexivity);
    try (match goal with |- context[p_step p ?e] => pose proof (step_started p e) as S; cbn in S |- *; rewrite ?S; reflexivity end).
  cbn [p_step]. rewrite resume_started. rewrite count_occ_app.
  assert (Hne : i0 <> i) by (intros ->; apply (H r); reflexivity).
  destruct (nth_error (p_loops p) i0) as [[pc st c]|]; [|cbn; lia].
  destruct pc, c; try (cbn; lia); destruct (_ && _); cbn; try lia; destruct (Nat.eq_dec i0 i); try lia; congruence.
Qed.

(** A finished loop starts nothing. *)
Lemma finished_starts h : forall p i x, nth_error (p_loops p) i = Some x -> finished (lp_pc x) = true ->
  starts (p_run p h) i = starts p i /\ nth_error (p_loops (p_run p h)) i = Some x.
Proof.
  induction h as [|e h IH]; intros p i x H F; [auto|].
  destruct (step_loop_at p e i x H) as (y & A & _ & B & _). rewrite (B F) in A.
  destruct (IH (p_step p e) i x A F) as [C D]. split; [|exact D]. change (p_run p (e :: h)) with (p_run (p_step p e) h). rewrite C.
  destruct e as [b| | |st|st| |j|j r|j]; try (apply step_starts_other; intros; discriminate).
  destruct (Nat.eq_dec j i) as [->|Hne]; [|apply step_starts_other; congruence].
  unfold starts. cbn [p_step]. rewrite resume_started, H. destruct x as [pc st c]. destruct pc; try discriminate; rewrite app_nil_r; reflexivity.
Qed.

(** *** The stop signal *)
Lemma step_sig p e : p_sig p = true -> p_sig (p_step p e) = true.
Proof.
  intros H. destruct e as [b| | |st|st| |j|j r|j]; cbn [p_step]; try exact H; try reflexivity.
  - destruct (cancel_cases j p) as [->|(x & _ & _ & ->)]; exact H.
  - unfold p_resume. destruct (nth_error (p_loops p) j) as [[pc st c]|]; [|exact H]. cbn [lp_pc lp_cancel].
    destruct pc, c; try exact H; unfold p_head;
    repeat (rewrite ?tail_spec; cbn [lp_stop]; match goal with |- context[if ?c then _ else _] => destruct c | |- context[match r with _ => _ end] => destruct r end);
    rewrite ?tail_spec; try exact H; repeat (cbn [lp_stop]; match goal with |- context[if ?c then _ else _] => destruct c end); exact H.
  - unfold c_resume. destruct (nth_error (p_calls p) j) as [c|]; [|exact H]. unfold c_finish.
    destruct (cl_pc c); try exact H; destruct (cl_task c); try exact H;
    try (destruct (p_task p) as [i|]; try exact H; destruct (nth_error (p_loops p) i) as [x|]; try exact H; destruct (finished (lp_pc x)); try exact H;
         destruct (cancel_cases i (p_set_enabled false p)) as [->|(y & _ & _ & ->)]; exact H);
    try (destruct (nth_error (p_loops p) l) as [x|]; [destruct (lp_pc x)|]; exact H).
Qed.
Definition budget (x : loop) : nat := match lp_pc x with LNew | LSleep => 1 | _ => 0 end.
Lemma signal_budget h : forall p i x, p_sig p = true -> nth_error (p_loops p) i = Some x -> lp_stop x = true ->
  (starts (p_run p h) i <= starts p i + budget x)%nat.
Proof.
  induction h as [|e h IH]; intros p i x S H St; [cbn; lia|].
  change (p_run p (e :: h)) with (p_run (p_step p e) h).
  destruct (step_loop_at p e i x H) as (y & A & B & C & D).
  pose proof (IH (p_step p e) i y (step_sig p e S) A ltac:(congruence)) as I.
  assert (K : (forall r, e <> PLoop i r) \/ exists r, e = PLoop i r).
  { destruct e as [b| | |st|st| |j|j r|j]; try (left; intros; discriminate). destruct (Nat.eq_dec j i) as [->|N]; [right; eexists; reflexivity|left; congruence]. }
  destruct K as [K|[r ->]].
  - rewrite (step_starts_other p e i K) in I. assert (lp_pc y = lp_pc x) by (destruct D as [D|[r D]]; [exact D|destruct (K r D)]).
    unfold budget in *. rewrite H0 in I. exact I.
  - assert (Z : (starts (p_step p (PLoop i r)) i + budget y <= starts p i + budget x)%nat).
    { unfold starts. cbn [p_step] in *. rewrite resume_started, count_occ_app, H. clear I IH D.
      pose proof (nth_lt _ _ _ H) as L.
      unfold p_resume in A. rewrite H in A. destruct x as [pc st c]. cbn [lp_pc lp_stop lp_cancel] in *. subst st.
      destruct pc, c; cbn [negb andb]; rewrite ?set_pc_loops in A; unfold p_head in A; cbn [p_enabled p_set_enabled p_paused] in A;
      repeat (rewrite ?tail_spec in A; cbn [lp_stop p_sig p_set_enabled p_measure] in A; rewrite ?S in A; cbn [negb] in A;
              match type of A with context[if ?c then _ else _] => destruct c | context[match r with _ => _ end] => destruct r end);
      rewrite ?tail_spec in A; cbn [lp_stop p_sig p_set_enabled p_measure p_start p_loops set_pc p_set_loops] in A; rewrite ?S in A; cbn [negb] in A;
      try (rewrite upd_nth in A by exact L; injection A as <-); try (rewrite H in A; injection A as <-);
      cbn [budget lp_pc negb andb count_occ]; try lia; destruct (Nat.eq_dec i i); try lia; try congruence;
      repeat match goal with |- context[if ?c then _ else _] => destruct c end; cbn; try lia; try congruence. }
    lia.
Qed.

(** *** Disabling while nothing is dispatched *)
Definition calm (p : ptask) : Prop :=
  p_enabled p = false /\
  (forall i x, nth_error (p_loops p) i = Some x -> lp_pc x <> LNew /\ lp_pc x <> LDispatch) /\
  (forall j c, nth_error (p_calls p) j = Some c -> in_progress c = true -> cl_task c = None).

Lemma calm_upd p i x y : nth_error (p_loops p) i = Some x -> lp_pc y <> LNew /\ lp_pc y <> LDispatch ->
  (forall i x, nth_error (p_loops p) i = Some x -> lp_pc x <> LNew /\ lp_pc x <> LDispatch) ->
  forall k z, nth_error (upd i y (p_loops p)) k = Some z -> lp_pc z <> LNew /\ lp_pc z <> LDispatch.
Proof.
  intros A B C k z H. destruct (Nat.eq_dec i k) as [<-|N].
  - rewrite upd_nth in H by (eapply nth_lt; exact A). injection H as <-. exact B.
  - rewrite upd_nth_ne in H by exact N. apply (C k z H).
Qed.
Lemma calm_calls p j c pc : nth_error (p_calls p) j = Some c ->
  (in_progress (mkCall (cl_task c) pc) = true -> in_progress c = true) ->
  (forall j c, nth_error (p_calls p) j = Some c -> in_progress c = true -> cl_task c = None) ->
  forall k d, nth_error (upd j (mkCall (cl_task c) pc) (p_calls p)) k = Some d -> in_progress d = true -> cl_task d = None.
Proof.
  intros A B C k d H. destruct (Nat.eq_dec j k) as [<-|N].
  - rewrite upd_nth in H by (eapply nth_lt; exact A). injection H as <-. intros I. apply (C j c A). apply B. exact I.
  - rewrite upd_nth_ne in H by exact N. apply (C k d H).
Qed.

Lemma cancel_frame i p : p_enabled (cancel i p) = p_enabled p /\ p_calls (cancel i p) = p_calls p /\ p_task (cancel i p) = p_task p /\
  p_sig (cancel i p) = p_sig p /\ p_paused (cancel i p) = p_paused p /\ p_dispatches (cancel i p) = p_dispatches p /\ p_overruns (cancel i p) = p_overruns p.
Proof. destruct (cancel_cases i p) as [->|(x & _ & _ & ->)]; repeat split. Qed.

Lemma calm_step p e : calm p -> (forall b, e <> PRun b /\ e <> PTask b) -> calm (p_step p e) /\ p_started (p_step p e) = p_started p.
Proof.
  intros (E & L & C) N. destruct e as [b| | |st|st| |i|i r|j]; cbn [p_step].
  - repeat split; [exact E|apply (L i x H)|apply (L i x H)|apply C].
  - repeat split; [apply (L i x H)|apply (L i x H)|apply C].
  - repeat split; [exact E|apply (L i x H)|apply (L i x H)|apply C].
  - destruct (N st) as [X _]; congruence.
  - destruct (N st) as [_ X]; congruence.
  - split; [|reflexivity]. split; [exact E|]. split; [exact L|]. cbn [p_calls p_set_calls]. intros j c H I.
    destruct (Nat.lt_ge_cases j (List.length (p_calls p))) as [G|G].
    + rewrite nth_error_app1 in H by exact G. apply (C j c H I).
    + rewrite nth_error_app2 in H by exact G. destruct (j - _)%nat as [|n]; [injection H as <-; reflexivity|destruct n; discriminate].
  - split; [|apply cancel_started]. destruct (cancel_frame i p) as (F1 & F2 & _). split; [congruence|]. rewrite F2. split; [|exact C].
    destruct (cancel_loops i p) as [->|(x & A & B & ->)]; [exact L|]. apply (calm_upd p i x); [exact A|apply (L i x A)|exact L].
  - unfold p_resume. destruct (nth_error (p_loops p) i) as [[pc st c]|] eqn:A; [|split; [split; auto|reflexivity]]. cbn [lp_pc lp_cancel].
    destruct (L i _ A) as [L1 L2]. cbn [lp_pc] in L1, L2.
    destruct pc; try congruence; try (split; [split; auto|reflexivity]). unfold p_head. rewrite E.
    assert (K : forall k z, nth_error (upd i (mkLoop LEnd st false) (p_loops p)) k = Some z -> lp_pc z <> LNew /\ lp_pc z <> LDispatch).
    { apply (calm_upd p i _ _ A); [split; discriminate|exact L]. }
    destruct c; (split; [|reflexivity]); (split; [try exact E; reflexivity|]); (split; [exact K|exact C]).
  - split; [|apply call_started]. unfold c_resume. destruct (nth_error (p_calls p) j) as [c|] eqn:A; [|split; auto].
    assert (FI : in_progress c = true -> calm (c_finish j c p)).
    { intros I. unfold c_finish. rewrite (C j c A I). split; [exact E|]. split; [exact L|]. apply (calm_calls p j c); [exact A|discriminate|exact C]. }
    destruct (cl_pc c) as [|l| | |] eqn:Ec; try (split; auto; fail).
    + assert (I : in_progress c = true) by (unfold in_progress; rewrite Ec; reflexivity).
      destruct (p_task p) as [i|]; [|apply FI; exact I]. destruct (nth_error (p_loops p) i) as [x|] eqn:X; [|split; auto].
      destruct (finished (lp_pc x)).
      * split; [exact E|]. split; [exact L|]. apply (calm_calls p j c); auto.
      * destruct (cancel_frame i (p_set_enabled false p)) as (F1 & F2 & _).
        split; [exact F1|]. split.
        -- change (p_loops (set_call j c (CWait i) (cancel i (p_set_enabled false p)))) with (p_loops (cancel i (p_set_enabled false p))).
           destruct (cancel_loops i (p_set_enabled false p)) as [->|(y & Y & _ & ->)]; [exact L|].
           change (p_loops (p_set_enabled false p)) with (p_loops p) in *. apply (calm_upd p i y); [exact Y|apply (L i y Y)|exact L].
        -- change (p_calls (set_call j c (CWait i) (cancel i (p_set_enabled false p)))) with (upd j (mkCall (cl_task c) (CWait i)) (p_calls (cancel i (p_set_enabled false p)))).
           rewrite F2. apply (calm_calls p j c); auto.
    + assert (I : in_progress c = true) by (unfold in_progress; rewrite Ec; reflexivity).
      destruct (nth_error (p_loops p) l) as [x|]; [|split; auto].
      destruct (lp_pc x); try (split; auto; fail); (split; [exact E|]); (split; [exact L|]); apply (calm_calls p j c); auto.
    + apply FI. unfold in_progress. rewrite Ec. reflexivity.
Qed.
Lemma calm_run h : forall p, calm p -> no_new_run h -> p_started (p_run p h) = p_started p.
Proof.
  induction h as [|e h IH]; intros p C N; [reflexivity|].
  destruct (calm_step p e C) as [C' S].
  { intros b. destruct (N b) as [N1 N2]. split; intros ->; [apply N1|apply N2]; left; reflexivity. }
  change (p_run p (e :: h)) with (p_run (p_step p e) h). rewrite IH; [exact S|exact C'|].
  intros b. destruct (N b) as [N1 N2]. split; intros X; [apply N1|apply N2]; right; exact X.
Qed.

(** *** One run loop at a time *)
Record SQ (p : ptask) : Prop := {
  sq_loop : forall i x, nth_error (p_loops p) i = Some x -> finished (lp_pc x) = false -> p_task p = Some i;
  sq_last : forall j c, nth_error (p_calls p) j = Some c -> in_progress c = true -> S j = List.length (p_calls p);
  sq_extra : forall j c, nth_error (p_calls p) j = Some c -> cl_pc c = CExtra -> p_task p = None;
  sq_wait : forall j c i, nth_error (p_calls p) j = Some c -> cl_pc c = CWait i -> p_task p = Some i
}.
Lemma sq_new : SQ p_new.
Proof. constructor; intros [|i]; discriminate. Qed.

(** Steps that change neither the calls, nor the current task, nor revive a
    loop. *)
Lemma sq_frame p q : SQ p -> p_calls q = p_calls p -> p_task q = p_task p ->
  (forall i y, nth_error (p_loops q) i = Some y -> finished (lp_pc y) = false -> exists x, nth_error (p_loops p) i = Some x /\ finished (lp_pc x) = false) -> SQ q.
Proof.
  intros [A B C D] E1 E2 H. constructor; rewrite ?E1, ?E2; auto.
  intros i y Y F. destruct (H i y Y F) as (x & X1 & X2). apply (A i x X1 X2).
Qed.
Lemma sq_upd p i x y : nth_error (p_loops p) i = Some x -> finished (lp_pc x) = false ->
  forall k z, nth_error (upd i y (p_loops p)) k = Some z -> finished (lp_pc z) = false -> exists x, nth_error (p_loops p) k = Some x /\ finished (lp_pc x) = false.
Proof.
  intros A B k z H F. destruct (Nat.eq_dec i k) as [<-|N]; [exists x; auto|]. rewrite upd_nth_ne in H by exact N. exists z. auto.
Qed.
Lemma call_upd p j c d : nth_error (p_calls p) j = Some c -> forall k e, nth_error (upd j d (p_calls p)) k = Some e -> (k = j /\ e = d) \/ (k <> j /\ nth_error (p_calls p) k = Some e).
Proof.
  intros A k e H. destruct (Nat.eq_dec j k) as [<-|N].
  - rewrite upd_nth in H by (eapply nth_lt; exact A). injection H as <-. auto.
  - rewrite upd_nth_ne in H by exact N. auto.
Qed.
(** A call in progress is the only one. *)
Lemma sq_only p j c k d : SQ p -> nth_error (p_calls p) j = Some c -> in_progress c = true ->
  nth_error (p_calls p) k = Some d -> in_progress d = true -> k = j.
Proof. intros Q A B C D. pose proof (sq_last p Q j c A B). pose proof (sq_last p Q k d C D). lia. Qed.

(** The call moves on, possibly changing the current task. *)
Lemma sq_call p q j c d : SQ p -> nth_error (p_calls p) j = Some c -> in_progress c = true ->
  p_calls q = upd j d (p_calls p) ->
  (forall i x, nth_error (p_loops q) i = Some x -> finished (lp_pc x) = false -> p_task q = Some i) ->
  (cl_pc d = CExtra -> p_task q = None) -> (forall i, cl_pc d = CWait i -> p_task q = Some i) -> SQ q.
Proof.
  intros Q A I E L X W. constructor; [exact L| | |]; rewrite E.
  - intros k e K F. rewrite upd_length. destruct (call_upd p j c d A k e K) as [[-> ->]|[N K']]; [apply (sq_last p Q j c A I)|apply (sq_last p Q k e K' F)].
  - intros k e K F. destruct (call_upd p j c d A k e K) as [[-> ->]|[N K']]; [apply X; exact F|].
    destruct N. apply (sq_only p j c k e Q A I K'). unfold in_progress. rewrite F. reflexivity.
  - intros k e i K F. destruct (call_upd p j c d A k e K) as [[-> ->]|[N K']]; [apply W; exact F|].
    destruct N. apply (sq_only p j c k e Q A I K'). unfold in_progress. rewrite F. reflexivity.
Qed.

Lemma resume_frame i r p : p_calls (p_resume i r p) = p_calls p /\ p_task (p_resume i r p) = p_task p.
Proof.
  unfold p_resume. destruct (nth_error (p_loops p) i) as [[pc st c]|]; [|auto]. cbn [lp_pc lp_cancel].
  destruct pc, c; auto; unfold p_head; cbn [p_enabled p_set_enabled p_paused]; try destruct r; auto;
  repeat match goal with |- context[if p_enabled ?p then _ else _] => destruct (p_enabled p) | |- context[if p_paused ?p then _ else _] => destruct (p_paused p) end; auto;
  rewrite tail_spec; cbn [lp_stop]; destruct st; auto.
Qed.

Lemma sq_finish p j c : SQ p -> nth_error (p_calls p) j = Some c -> in_progress c = true -> p_task p = None -> SQ (c_finish j c p).
Proof.
  intros Q A I T. unfold c_finish. destruct (cl_task c) as [st|] eqn:Et.
  - apply (sq_call p _ j c (mkCall (cl_task c) CDone) Q A I); [reflexivity| |discriminate|discriminate].
    crush_fields. intros i x H F. destruct (Nat.lt_ge_cases i (List.length (p_loops p))) as [G|G].
    + rewrite nth_error_app1 in H by exact G. rewrite (sq_loop p Q i x H F) in T. discriminate.
    + rewrite nth_error_app2 in H by exact G. destruct (i - _)%nat as [|n] eqn:Ei; [f_equal; lia|destruct n; discriminate].
  - apply (sq_call p _ j c (mkCall (cl_task c) CDone) Q A I); [reflexivity| |discriminate|discriminate]. apply (sq_loop p Q).
Qed.

Lemma sq_push p k : SQ p -> forallb (fun c => negb (in_progress c)) (p_calls p) = true ->
  SQ (p_set_calls (p_calls p ++ [mkCall k CNew]) p).
Proof.
  intros Q N. assert (K : forall j c, nth_error (p_calls p ++ [mkCall k CNew]) j = Some c -> in_progress c = true -> j = List.length (p_calls p) /\ c = mkCall k CNew).
  { intros j c H I. destruct (Nat.lt_ge_cases j (List.length (p_calls p))) as [G|G].
    - rewrite nth_error_app1 in H by exact G. rewrite forallb_forall in N. specialize (N c (nth_error_In _ _ H)). rewrite I in N. discriminate.
    - rewrite nth_error_app2 in H by exact G. destruct (j - _)%nat as [|n] eqn:Ei; [injection H as <-; split; [lia|reflexivity]|destruct n; discriminate]. }
  constructor; cbn [p_calls p_task p_loops p_set_calls].
  - apply (sq_loop p Q).
  - intros j c H I. destruct (K j c H I) as [-> _]. rewrite app_length. cbn. lia.
  - intros j c H E. destruct (K j c H) as [_ ->]; [unfold in_progress; rewrite E; reflexivity|discriminate].
  - intros j c i H E. destruct (K j c H) as [_ ->]; [unfold in_progress; rewrite E; reflexivity|discriminate].
Qed.

Lemma sq_step p e : SQ p -> sequential p [e] -> SQ (p_step p e).
Proof.
  intros Q S. destruct e as [b| | |st|st| |i|i r|j]; cbn [p_step]; cbn [sequential] in S; destruct S as [S _].
  - apply (sq_frame p); auto. intros i y Y F. exists y. auto.
  - apply (sq_frame p); auto. intros i y Y F. exists y. auto.
  - apply (sq_frame p); auto. intros i y Y F. exists y. auto.
  - destruct S.
  - apply sq_push; assumption.
  - apply sq_push; assumption.
  - destruct (cancel_frame i p) as (F1 & F2 & F3 & _). apply (sq_frame p); auto.
    destruct (cancel_loops i p) as [->|(x & A & B & ->)]; [intros k y Y F; exists y; auto|]. apply (sq_upd p i x _ A B).
  - destruct (resume_frame i r p) as [F1 F2]. apply (sq_frame p); auto.
    destruct (resume_loops i r p) as [->|(x & pc & A & B & ->)]; [intros k y Y F; exists y; auto|]. apply (sq_upd p i x _ A B).
  - unfold c_resume. destruct (nth_error (p_calls p) j) as [c|] eqn:A; [|exact Q].
    destruct (cl_pc c) as [|l| | |] eqn:Ec; try exact Q.
    + assert (I : in_progress c = true) by (unfold in_progress; rewrite Ec; reflexivity).
      destruct (p_task p) as [i|] eqn:T; [|apply sq_finish; assumption]. destruct (nth_error (p_loops p) i) as [x|] eqn:X; [|exact Q].
      destruct (finished (lp_pc x)) eqn:F.
      * apply (sq_call p _ j c (mkCall (cl_task c) CExtra) Q A I); [reflexivity| |reflexivity|discriminate].
        intros k y Y G. change (nth_error (p_loops p) k = Some y) in Y. pose proof (sq_loop p Q k y Y G) as Z. rewrite T in Z. injection Z as <-. congruence.
      * destruct (cancel_frame i (p_set_enabled false p)) as (F1 & F2 & F3 & _).
        apply (sq_call p _ j c (mkCall (cl_task c) (CWait i)) Q A I).
        -- change (upd j (mkCall (cl_task c) (CWait i)) (p_calls (cancel i (p_set_enabled false p))) = upd j (mkCall (cl_task c) (CWait i)) (p_calls p)). rewrite F2. reflexivity.
        -- change (p_task (set_call j c (CWait i) (cancel i (p_set_enabled false p)))) with (p_task (cancel i (p_set_enabled false p))). rewrite F3.
           change (p_loops (set_call j c (CWait i) (cancel i (p_set_enabled false p)))) with (p_loops (cancel i (p_set_enabled false p))).
           destruct (cancel_loops i (p_set_enabled false p)) as [->|(y & Y & G & ->)]; [apply (sq_loop p Q)|].
           intros k z Z H. change (p_loops (p_set_enabled false p)) with (p_loops p) in *.
           destruct (sq_upd p i y _ Y G k z Z H) as (w & W & V). apply (sq_loop p Q k w W V).
        -- discriminate.
        -- intros k E. injection E as <-. change (p_task (cancel i (p_set_enabled false p)) = Some i). rewrite F3. exact T.
    + assert (I : in_progress c = true) by (unfold in_progress; rewrite Ec; reflexivity).
      pose proof (sq_wait p Q j c l A Ec) as T. destruct (nth_error (p_loops p) l) as [x|] eqn:X; [|exact Q].
      assert (NL : finished (lp_pc x) = true -> forall k y, nth_error (p_loops p) k = Some y -> finished (lp_pc y) = false -> False).
      { intros F k y Y G. pose proof (sq_loop p Q k y Y G) as Z. rewrite T in Z. injection Z as <-. congruence. }
      destruct (lp_pc x) eqn:Ex; try exact Q.
      * apply (sq_call p _ j c (mkCall (cl_task c) CExtra) Q A I); [reflexivity| |reflexivity|discriminate].
        intros k y Y G. destruct (NL eq_refl k y Y G).
      * apply (sq_call p _ j c (mkCall (cl_task c) CRaised) Q A I); [reflexivity|apply (sq_loop p Q)|discriminate|discriminate].
      * apply (sq_call p _ j c (mkCall (cl_task c) CExtra) Q A I); [reflexivity| |reflexivity|discriminate].
        intros k y Y G. destruct (NL eq_refl k y Y G).
      * apply (sq_call p _ j c (mkCall (cl_task c) CRaised) Q A I); [reflexivity|apply (sq_loop p Q)|discriminate|discriminate].
    + apply sq_finish; auto; [unfold in_progress; rewrite Ec; reflexivity|apply (sq_extra p Q j c A Ec)].
Qed.
Lemma sq_run h : forall p, SQ p -> sequential p h -> SQ (p_run p h).
Proof.
  induction h as [|e h IH]; intros p Q S; [exact Q|]. destruct S as [S1 S2]. apply (IH (p_step p e)); [|exact S2].
  apply sq_step; [exact Q|]. cbn [sequential]. split; [exact S1|exact I].
Qed.
Lemma live_nil p : (forall i x, nth_error (p_loops p) i = Some x -> finished (lp_pc x) = true) -> live p = [].
Proof.
  intros H. unfold live.
  assert (G : forall x, In x (p_loops p) -> negb (finished (lp_pc x)) = false).
  { intros x Hx. apply In_nth_error in Hx as [i Hi]. rewrite (H i x Hi). reflexivity. }
  clear H. induction (p_loops p) as [|y l IH]; [reflexivity|]. cbn [filter]. rewrite (G y) by (left; reflexivity).
  apply IH. intros x Hx. apply G. right. exact Hx.
Qed.
Lemma filter_one {A} (f : A -> bool) (l : list A) k :
  (forall i x, nth_error l i = Some x -> f x = true -> i = k) -> (List.length (filter f l) <= 1)%nat.
Proof.
  revert k. induction l as [|y l IH]; intros k H; [cbn; lia|]. cbn [filter]. destruct (f y) eqn:F.
  - pose proof (H 0%nat y eq_refl F) as <-. replace (filter f l) with (@nil A); [cbn; lia|].
    symmetry. assert (G : forall x, In x l -> f x = false).
    { intros x Hx. apply In_nth_error in Hx as [i Hi]. destruct (f x) eqn:Fx; [|reflexivity]. specialize (H (S i) x Hi Fx). discriminate. }
    clear -G. induction l as [|z l IH]; [reflexivity|]. cbn. rewrite (G z) by (left; reflexivity). apply IH. intros; apply G; right; assumption.
  - apply (IH (pred k)). intros i x Hi Fx. specialize (H (S i) x Hi Fx). lia.
Qed.
Lemma sq_live p : SQ p -> (List.length (live p) <= 1)%nat.
Proof.
  intros Q. unfold live. destruct (p_task p) as [k|] eqn:T.
  - apply (filter_one _ _ k). intros i x H F. pose proof (sq_loop p Q i x H) as E. rewrite T in E. 
    assert (E' : Some k = Some i) by (apply E; destruct (finished (lp_pc x)); [discriminate|reflexivity]). congruence.
  - apply (filter_one _ _ 0%nat). intros i x H F. pose proof (sq_loop p Q i x H) as E. rewrite T in E.
    assert (E' : None = Some i) by (apply E; destruct (finished (lp_pc x)); [discriminate|reflexivity]). discriminate.
Qed.

(** The current task exists. *)
Lemma resume_length i r p : List.length (p_loops (p_resume i r p)) = List.length (p_loops p).
Proof. destruct (resume_loops i r p) as [->|(x & pc & A & B & ->)]; [reflexivity|]. apply upd_length. Qed.
Lemma cancel_length i p : List.length (p_loops (cancel i p)) = List.length (p_loops p).
Proof. destruct (cancel_loops i p) as [->|(x & A & B & ->)]; [reflexivity|]. apply upd_length. Qed.
Definition TK (p : ptask) : Prop := forall k, p_task p = Some k -> (k < List.length (p_loops p))%nat.
Lemma tk_finish j c p : TK p -> TK (c_finish j c p).
Proof.
  intros T k H. unfold c_finish in *. destruct (cl_task c) as [st|]; [|exact (T k H)].
  change (Some (List.length (p_loops p)) = Some k) in H. injection H as <-.
  change (List.length (p_loops p) < List.length (p_loops p ++ [mkLoop LNew st false]))%nat. rewrite app_length. cbn. lia.
Qed.
Lemma tk_step p e : TK p -> TK (p_step p e).
Proof.
  intros T. destruct e as [b| | |st|st| |i|i r|j]; cbn [p_step]; try exact T.
  - intros k H. change (List.length (p_loops p ++ [mkLoop LNew st false]) > k)%nat. rewrite app_length. specialize (T k H). lia.
  - destruct (cancel_frame i p) as (_ & _ & F & _). intros k H. rewrite F in H. rewrite cancel_length. apply (T k H).
  - destruct (resume_frame i r p) as [_ F]. intros k H. rewrite F in H. rewrite resume_length. apply (T k H).
  - unfold c_resume. destruct (nth_error (p_calls p) j) as [c|]; [|exact T]. destruct (cl_pc c) as [|l| | |]; try exact T.
    + destruct (p_task p) as [i|] eqn:E; [|apply tk_finish; exact T]. destruct (nth_error (p_loops p) i) as [x|]; [|exact T].
      destruct (finished (lp_pc x)); [discriminate|].
      intros k H. change (p_task (cancel i (p_set_enabled false p)) = Some k) in H.
      change (k < List.length (p_loops (cancel i (p_set_enabled false p))))%nat.
      destruct (cancel_frame i (p_set_enabled false p)) as (_ & _ & F & _). rewrite F in H. rewrite cancel_length. apply (T k H).
    + destruct (nth_error (p_loops p) l) as [x|]; [|exact T]. destruct (lp_pc x); try exact T; discriminate.
    + apply tk_finish; exact T.
Qed.
Lemma tk_run h : forall p, TK p -> TK (p_run p h).
Proof. induction h as [|e h IH]; intros p T; [exact T|]. apply (IH (p_step p e)). apply tk_step. exact T. Qed.

(** *** Starting again *)
Definition busy (p : ptask) : Prop := exists i x, nth_error (p_loops p) i = Some x /\ (lp_pc x = LDispatch \/ lp_pc x = LSleep).
Record RS (p : ptask) : Prop := {
  rs_busy : p_enabled p = true -> busy p;
  rs_cancel : forall i st, nth_error (p_loops p) i = Some (mkLoop LDispatch st true) -> p_enabled p = false
}.
Lemma rs_same p q : RS p -> (p_enabled q = true -> p_enabled p = true) -> p_loops q = p_loops p -> RS q.
Proof.
  intros [A B] E L. constructor.
  - intros H. destruct (A (E H)) as (i & x & X). exists i, x. rewrite L. exact X.
  - intros i st H. rewrite L in H. specialize (B i st H). destruct (p_enabled q) eqn:Q; [|reflexivity]. rewrite E in B by reflexivity. discriminate.
Qed.
Lemma sq_unique p i x k y : SQ p -> nth_error (p_loops p) i = Some x -> finished (lp_pc x) = false ->
  nth_error (p_loops p) k = Some y -> finished (lp_pc y) = false -> k = i.
Proof. intros Q A B C D. pose proof (sq_loop p Q i x A B) as E. pose proof (sq_loop p Q k y C D) as F. congruence. Qed.

(** A loop moves on: [q] is the state with the flag set. *)
Lemma rs_set p i x q pc : SQ p -> nth_error (p_loops p) i = Some x -> finished (lp_pc x) = false -> p_loops q = p_loops p ->
  (p_enabled q = true -> pc = LDispatch \/ pc = LSleep) -> RS (set_pc i x pc q).
Proof.
  intros Q A F L H. constructor.
  - intros E. exists i, (mkLoop pc (lp_stop x) false). rewrite set_pc_loops, L, upd_nth by (eapply nth_lt; exact A). split; [reflexivity|exact (H E)].
  - intros k st K. rewrite set_pc_loops, L in K. destruct (Nat.eq_dec i k) as [<-|N].
    + rewrite upd_nth in K by (eapply nth_lt; exact A). injection K as _ _ K. discriminate.
    + rewrite upd_nth_ne in K by exact N. destruct N. symmetry. apply (sq_unique p i x k _ Q A F K). reflexivity.
Qed.
Lemma rs_tail p i x q : SQ p -> nth_error (p_loops p) i = Some x -> finished (lp_pc x) = false -> p_loops q = p_loops p -> RS (p_tail i x q).
Proof.
  intros Q A F L. rewrite tail_spec. apply (rs_set p); auto; [destruct (lp_stop x); exact L|].
  destruct (lp_stop x); cbn [p_enabled p_set_enabled]; intros ->; auto.
Qed.
Lemma rs_head p i x q : SQ p -> nth_error (p_loops p) i = Some x -> finished (lp_pc x) = false -> p_loops q = p_loops p -> RS (p_head i x q).
Proof.
  intros Q A F L. unfold p_head. destruct (p_enabled q) eqn:E.
  - destruct (p_paused q); [apply (rs_tail p); auto|]. apply (rs_set p); auto.
  - apply (rs_set p); auto. rewrite E. discriminate.
Qed.
Lemma rs_cancel_ev p i q : SQ p -> RS p -> p_loops q = p_loops p -> (p_enabled q = true -> p_enabled p = true) ->
  (p_enabled q = true -> forall st, nth_error (p_loops p) i <> Some (mkLoop LDispatch st false)) -> RS (cancel i q).
Proof.
  intros Q R L E H. assert (Rq : RS q) by (apply (rs_same p); assumption).
  destruct (cancel_cases i q) as [->|(x & A & F & ->)]; [exact Rq|]. constructor.
  - intros Eq. destruct (rs_busy q Rq Eq) as (k & y & Y & B). destruct (Nat.eq_dec i k) as [<-|N].
    + exists i, (mkLoop (lp_pc x) (lp_stop x) true). crush_fields. rewrite upd_nth by (eapply nth_lt; exact A). split; [reflexivity|]. cbn [lp_pc]. congruence.
    + exists k, y. crush_fields. rewrite upd_nth_ne by exact N. auto.
  - intros k st K. cbn [p_set_loops p_enabled]. change (nth_error (upd i (mkLoop (lp_pc x) (lp_stop x) true) (p_loops q)) k = Some (mkLoop LDispatch st true)) in K.
    destruct (Nat.eq_dec i k) as [<-|N].
    + rewrite upd_nth in K by (eapply nth_lt; exact A). injection K as K1 K2. destruct (p_enabled q) eqn:Eq; [|reflexivity].
      destruct x as [pc s [|]]; cbn [lp_pc lp_stop] in K1, K2; subst.
      * rewrite <- Eq. apply (rs_cancel q Rq i st A).
      * destruct (H eq_refl st). rewrite <- L. exact A.
    + rewrite upd_nth_ne in K by exact N. apply (rs_cancel q Rq k st K).
Qed.
Lemma rs_finish j c p : RS p -> RS (c_finish j c p).
Proof.
  intros R. unfold c_finish. destruct (cl_task c) as [st|]; [|apply (rs_same p); auto].
  assert (L : forall i x, nth_error (p_loops p) i = Some x -> nth_error (p_loops p ++ [mkLoop LNew st false]) i = Some x).
  { intros i x H. rewrite nth_error_app1 by (eapply nth_lt; exact H). exact H. }
  constructor.
  - intros E. destruct (rs_busy p R E) as (i & x & X & B). exists i, x. split; [apply L; exact X|exact B].
  - intros i s H. change (nth_error (p_loops p ++ [mkLoop LNew st false]) i = Some (mkLoop LDispatch s true)) in H.
    destruct (Nat.lt_ge_cases i (List.length (p_loops p))) as [G|G].
    + rewrite nth_error_app1 in H by exact G. apply (rs_cancel p R i s H).
    + rewrite nth_error_app2 in H by exact G. destruct (i - _)%nat as [|[|n]]; discriminate.
Qed.
Lemma rs_step p e : SQ p -> RS p -> sequential p [e] -> orderly p [e] -> RS (p_step p e).
Proof.
  intros Q R S O. destruct e as [b| | |st|st| |i|i r|j]; cbn [p_step]; cbn [sequential] in S; cbn [orderly] in O; destruct S as [S _]; destruct O as [O _].
  - apply (rs_same p); auto.
  - apply (rs_same p); auto. discriminate.
  - apply (rs_same p); auto.
  - destruct S.
  - apply (rs_same p); auto.
  - apply (rs_same p); auto.
  - apply (rs_cancel_ev p); auto. intros _ st H. rewrite H in O. exact O.
  - unfold p_resume. destruct (nth_error (p_loops p) i) as [[pc st c]|] eqn:A; [|exact R]. cbn [lp_pc lp_cancel].
    destruct pc; try exact R.
    + destruct c.
      * constructor.
        -- intros E. destruct (rs_busy p R E) as (k & y & Y & B). assert (N : i <> k) by (intros <-; rewrite A in Y; injection Y as <-; destruct B; discriminate).
           exists k, y. rewrite set_pc_loops, upd_nth_ne by exact N. auto.
        -- intros k s K. rewrite set_pc_loops in K. destruct (Nat.eq_dec i k) as [<-|N]; [rewrite upd_nth in K by (eapply nth_lt; exact A); discriminate|].
           rewrite upd_nth_ne in K by exact N. apply (rs_cancel p R k s K).
      * destruct (p_enabled p) eqn:E; [|apply (rs_head p); auto].
        exfalso. destruct (rs_busy p R E) as (k & y & Y & B).
        assert (k = i) as -> by (apply (sq_unique p i (mkLoop LNew st false) k y Q A eq_refl Y); destruct B as [-> | ->]; reflexivity).
        rewrite A in Y. injection Y as <-. destruct B; discriminate.
    + destruct c; [apply (rs_set p); auto; rewrite (rs_cancel p R i st A); discriminate|].
      destruct r as [ok over|]; [|destruct O]. apply (rs_tail p); auto.
    + destruct c; [apply (rs_set p); auto; discriminate|apply (rs_head p); auto].
  - unfold c_resume. destruct (nth_error (p_calls p) j) as [c|] eqn:A; [|exact R].
    destruct (cl_pc c) as [|l| | |]; try exact R.
    + destruct (p_task p) as [i|]; [|apply rs_finish; exact R]. destruct (nth_error (p_loops p) i) as [x|]; [|exact R].
      destruct (finished (lp_pc x)); [apply (rs_same p); auto|].
      apply (rs_same (cancel i (p_set_enabled false p))); auto. apply (rs_cancel_ev p); auto; discriminate.
    + destruct (nth_error (p_loops p) l) as [x|]; [|exact R]. destruct (lp_pc x); try exact R; apply (rs_same p); auto.
    + apply rs_finish; exact R.
Qed.
Lemma rs_run h : forall p, SQ p -> RS p -> sequential p h -> orderly p h -> RS (p_run p h).
Proof.
  induction h as [|e h IH]; intros p Q R S O; [exact R|]. destruct S as [S1 S2], O as [O1 O2].
  assert (S' : sequential p [e]) by (split; [exact S1|exact I]). assert (O' : orderly p [e]) by (split; [exact O1|exact I]).
  apply (IH (p_step p e)); auto; [apply sq_step|apply rs_step]; auto.
Qed.

(** *** Counters *)
Definition counted (p : ptask) (e : pev) : list bool := returned p [e].
Lemma step_metrics p e :
  p_dispatches (p_step p e) = match counted p e with [] => p_dispatches p | _ => (p_dispatches p + 1) mod 4294967296 end /\
  p_overruns (p_step p e) = match counted p e with true :: _ => (p_overruns p + 1) mod 65536 | _ => p_overruns p end /\
  (List.length (counted p e) <= 1)%nat.
Proof.
  unfold counted. destruct e as [b| | |st|st| |i|i r|j]; cbn [returned p_step]; try (repeat split; cbn; lia).
  - destruct (cancel_frame i p) as (_ & _ & _ & _ & _ & F1 & F2). rewrite F1, F2. cbn. auto.
  - unfold p_resume. destruct r as [ok over|].
    + destruct (nth_error (p_loops p) i) as [[pc st c]|]; [|cbn; auto]. cbn [lp_pc lp_cancel].
      destruct pc, c; try (cbn; auto; fail); unfold p_head; cbn [p_enabled p_set_enabled p_paused app List.length];
      repeat match goal with |- context[if p_enabled ?p then _ else _] => destruct (p_enabled p) | |- context[if p_paused ?p then _ else _] => destruct (p_paused p) end;
      rewrite ?tail_spec; cbn [lp_stop]; try destruct st; try destruct over; cbn -[Z.modulo Z.add]; auto.
    + destruct (nth_error (p_loops p) i) as [[pc st c]|]; [|cbn; auto]. cbn [lp_pc lp_cancel].
      destruct pc, c; try (cbn; auto; fail); unfold p_head; cbn [p_enabled p_set_enabled p_paused app List.length];
      repeat match goal with |- context[if p_enabled ?p then _ else _] => destruct (p_enabled p) | |- context[if p_paused ?p then _ else _] => destruct (p_paused p) end;
      rewrite ?tail_spec; cbn [lp_stop]; try destruct st; cbn -[Z.modulo Z.add]; auto.
  - cbn [app List.length]. unfold c_resume, c_finish. destruct (nth_error (p_calls p) j) as [c|]; [|auto].
    destruct (cl_pc c); auto; try destruct (cl_task c); auto;
    try (destruct (p_task p) as [i|]; auto; destruct (nth_error (p_loops p) i) as [x|]; auto; destruct (finished (lp_pc x)); auto;
         destruct (cancel_frame i (p_set_enabled false p)) as (_ & _ & _ & _ & _ & F1 & F2); cbn [p_dispatches p_overruns set_call p_set_calls]; rewrite F1, F2; auto);
    try (destruct (nth_error (p_loops p) l) as [x|]; [destruct (lp_pc x)|]; auto).
Qed.
Lemma run_metrics h : forall p, 0 <= p_dispatches p < 4294967296 -> 0 <= p_overruns p < 65536 ->
  p_dispatches (p_run p h) = (p_dispatches p + Z.of_nat (List.length (returned p h))) mod 4294967296 /\
  p_overruns (p_run p h) = (p_overruns p + Z.of_nat (List.length (filter (fun b => b) (returned p h)))) mod 65536.
Proof.
  induction h as [|e h IH]; intros p A B; [cbn; lia|].
  change (p_run p (e :: h)) with (p_run (p_step p e) h).
  replace (returned p (e :: h)) with (counted p e ++ returned (p_step p e) h).
  2:{ unfold counted. cbn [returned]. rewrite app_nil_r. reflexivity. }
  destruct (step_metrics p e) as (D & O & L). rewrite filter_app, !app_length.
  destruct (IH (p_step p e)) as [D' O'].
  - rewrite D. destruct (counted p e); lia.
  - rewrite O. destruct (counted p e) as [|[|] ?]; lia.
  - rewrite D', O', D, O. destruct (counted p e) as [|b [|b' l]]; cbn [List.length] in L; [|destruct b|lia]; cbn [filter List.length]; lia.
Qed.
