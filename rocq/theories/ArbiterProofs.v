(** Proofs about application stages. *)
From Verif Require Import Base BaseLemmas TaskProofs ArbiterModel ArbiterSpec.
From Coq Require Import Permutation ZifyBool ZifyNat Lia.
Open Scope list_scope.
Open Scope Z_scope.

Definition returns (a : appl) : bool := match a_out a with Returned _ => true | _ => false end.
Lemma returns_true a : returns a = true <-> exists c, a_out a = Returned c.
Proof. unfold returns. destruct (a_out a); split; intros H; try discriminate; try (destruct H; discriminate); eauto. Qed.

(** gather *)
Lemma gather_none s apps order t : gather s apps order = (t, None) ->
  forall i a, In i order -> nth_error apps i = Some a -> exists c, a_out a = Returned c /\ In (Ended s i (Returned c)) t.
Proof.
  revert t. induction order as [|j order IH]; intros t H i a Hi Ha; [destruct Hi|]. cbn [gather] in H.
  destruct (nth_error apps j) as [b|] eqn:Eb.
  - destruct (a_out b) eqn:Ob; try discriminate. destruct (gather s apps order) as [t' o'] eqn:G. cbn [fst snd] in H. injection H as <- ->.
    destruct Hi as [<-|Hi].
    + rewrite Ha in Eb. injection Eb as <-. exists code. split; [exact Ob|left; reflexivity].
    + destruct (IH t' eq_refl i a Hi Ha) as (c & C1 & C2). exists c. split; [exact C1|right; exact C2].
  - destruct Hi as [<-|Hi]; [congruence|]. apply (IH t H i a Hi Ha).
Qed.
Lemma gather_some s apps order t o : gather s apps order = (t, Some o) -> exists i a, In i order /\ nth_error apps i = Some a /\ a_out a = o /\ returns a = false.
Proof.
  revert t. induction order as [|j order IH]; intros t H; [discriminate|]. cbn [gather] in H.
  destruct (nth_error apps j) as [b|] eqn:Eb.
  - destruct (a_out b) eqn:Ob.
    + destruct (gather s apps order) as [t' o'] eqn:G. cbn [fst snd] in H. injection H as <- ->. destruct (IH t' eq_refl) as (i & a & H1 & H2). exists i, a. split; [right; exact H1|exact H2].
    + injection H as <- <-. exists j, b. unfold returns. rewrite Ob. repeat split; auto. left; reflexivity.
    + injection H as <- <-. exists j, b. unfold returns. rewrite Ob. repeat split; auto. left; reflexivity.
  - destruct (IH t H) as (i & a & H1 & H2). exists i, a. split; [right; exact H1|exact H2].
Qed.
Lemma gather_no_began s apps order k i : ~ In (Began k i) (fst (gather s apps order)).
Proof.
  induction order as [|j order IH]; cbn [gather]; [intros []|]. destruct (nth_error apps j) as [b|]; [|exact IH].
  destruct (a_out b); cbn [fst]; intros [H|H]; try discriminate; try (destruct H). apply IH, H.
Qed.
Lemma proper_gather_none s st t : proper st -> gather s (st_apps st) (st_order st) = (t, None) ->
  all_return st /\ forall i a, nth_error (st_apps st) i = Some a -> exists c, a_out a = Returned c /\ In (Ended s i (Returned c)) t.
Proof.
  intros P G.
  assert (H : forall i a, nth_error (st_apps st) i = Some a -> exists c, a_out a = Returned c /\ In (Ended s i (Returned c)) t).
  { intros i a Ha. apply (gather_none s _ _ t G i a); [|exact Ha]. apply (Permutation_in i (Permutation_sym P)). apply in_seq. apply nth_lt in Ha. lia. }
  split; [|exact H]. intros a Ha. apply In_nth_error in Ha as [i Ha]. destruct (H i a Ha) as (c & C & _). eauto.
Qed.
Lemma proper_gather_some s st t o : gather s (st_apps st) (st_order st) = (t, Some o) -> ~ all_return st /\ exists a, In a (st_apps st) /\ a_out a = o.
Proof.
  intros G. destruct (gather_some _ _ _ _ _ G) as (i & a & H1 & H2 & H3 & H4). pose proof (nth_error_In _ _ H2) as Hin. split; [|eauto].
  intros A. specialize (A a Hin). apply returns_true in A. congruence.
Qed.

Lemma total_sum apps : total apps = sum (map (fun a => match a_out a with Returned c => c | _ => 0 end) apps).
Proof.
  unfold total. enough (G : forall t, fold_left (fun t a => t + code_of a) apps t = t + sum (map (fun a => match a_out a with Returned c => c | _ => 0 end) apps)) by (rewrite G; lia).
  induction apps as [|a apps IH]; intros t; cbn [fold_left map sum fold_right]; [lia|]. rewrite IH. fold (sum (map (fun a => match a_out a with Returned c => c | _ => 0 end) apps)). unfold code_of. lia.
Qed.

(** The outcome of one stage. *)
Definition good_results (st : stage) : list result := map (fun a => mkResult (a_name a) (from_int (code_of a)) (Some (code_of a)) None) (st_apps st).
Definition exc_results (e : Z) (st : stage) : list result := map (fun a => mkResult (a_name a) EXCEPTION None (Some e)) (st_apps st).
Lemma run_apps_cases s st : proper st ->
  (all_return st /\ exists t, run_apps s st = (map (Began s) (seq 0 (List.length (st_apps st))) ++ t, Result (sum (codes st)), [good_results st]) /\
     (forall k i, ~ In (Began k i) t) /\ forall i a, nth_error (st_apps st) i = Some a -> exists c, a_out a = Returned c /\ In (Ended s i (Returned c)) t) \/
  (~ all_return st /\ exists t e, run_apps s st = (map (Began s) (seq 0 (List.length (st_apps st))) ++ t, Result (-1), [exc_results e st]) /\
     (forall k i, ~ In (Began k i) t) /\ exists a, In a (st_apps st) /\ a_out a = Raised e) \/
  (~ all_return st /\ exists t, run_apps s st = (map (Began s) (seq 0 (List.length (st_apps st))) ++ t, Propagates, []) /\
     (forall k i, ~ In (Began k i) t) /\ exists a, In a (st_apps st) /\ a_out a = Cancelled).
Proof.
  intros P. unfold run_apps. pose proof (gather_no_began s (st_apps st) (st_order st)) as N. destruct (gather s (st_apps st) (st_order st)) as [t o] eqn:G. cbn [fst] in N. destruct o as [o|].
  - destruct (proper_gather_some s st t o G) as [A (a & A1 & A2)]. right. destruct o as [c|e|].
    + destruct (gather_some _ _ _ _ _ G) as (i & b & H1 & H2 & H3 & H4). unfold returns in H4. rewrite H3 in H4. discriminate.
    + left. split; [exact A|]. exists t, e. split; [reflexivity|]. eauto.
    + right. split; [exact A|]. exists t. split; [reflexivity|]. eauto.
  - destruct (proper_gather_none s st t P G) as [A B]. left. split; [exact A|]. exists t. rewrite total_sum. split; [reflexivity|]. eauto.
Qed.

(** The loop over the stages. *)
Lemma loop_stopped s r sts : r <> 0 -> run_loop s r sts = ([], Result r, map (fun st => map not_run (st_apps st)) sts).
Proof.
  intros N. revert s. induction sts as [|st sts IH]; intros s; [reflexivity|]. cbn [run_loop map]. replace (r =? 0) with false by lia. rewrite IH. reflexivity.
Qed.
Lemma loop_app l1 l2 : forall s r, run_loop s r (l1 ++ l2) =
  match run_loop s r l1 with
  | (t, Propagates, res) => (t, Propagates, res)
  | (t, Result r1, res) => let '(t', f, res') := run_loop (s + List.length l1) r1 l2 in (t ++ t', f, res ++ res')
  end.
Proof.
  induction l1 as [|st l1 IH]; intros s r.
  - cbn [app run_loop List.length]. rewrite Nat.add_0_r. destruct (run_loop s r l2) as [[t f] res]. reflexivity.
  - cbn [app run_loop List.length]. replace (s + S (List.length l1))%nat with (S s + List.length l1)%nat by lia. destruct (r =? 0).
    + destruct (run_apps s st) as [[t [r1|]] res]; [|reflexivity]. rewrite IH. destruct (run_loop (S s) r1 l1) as [[t1 [r2|]] res1]; [|reflexivity].
      destruct (run_loop (S s + List.length l1) r2 l2) as [[t2 f] res2]. rewrite !app_assoc. reflexivity.
    + rewrite IH. destruct (run_loop (S s) r l1) as [[t1 [r2|]] res1]; [|reflexivity].
      destruct (run_loop (S s + List.length l1) r2 l2) as [[t2 f] res2]. reflexivity.
Qed.

Definition loop_trace (s : nat) (r : Z) (sts : list stage) : list tev := fst (fst (run_loop s r sts)).
Definition loop_flow (s : nat) (r : Z) (sts : list stage) : flow := snd (fst (run_loop s r sts)).
Definition loop_results (s : nat) (r : Z) (sts : list stage) : list (list result) := snd (run_loop s r sts).
(** The loop over the initialization methods and then the applications is the
    loop over all of them, apart from the results. *)
Lemma main_loop check inits apps :
  fst (run_main check true inits apps) = fst (run_loop 0 0 (inits ++ apps)) /\
  snd (run_main check true inits apps) = Some (match loop_flow 0 0 inits with Result 0 => loop_results 0 0 (inits ++ apps) | _ => loop_results 0 0 inits end).
Proof.
  unfold run_main, loop_flow, loop_results, run_apps_list. rewrite Bool.orb_true_r, loop_app. destruct (run_loop 0 0 inits) as [[t [r|]] res]; [|split; reflexivity].
  cbn [fst snd Nat.add]. destruct (Z.eqb_spec r 0) as [->|N].
  - destruct (run_loop (List.length inits) 0 apps) as [[t' f] res']. split; reflexivity.
  - rewrite (loop_stopped _ _ _ N). cbn [fst snd]. rewrite app_nil_r. split; [reflexivity|]. destruct r; try reflexivity. congruence.
Qed.

Lemma stage_ok_dec st : {stage_ok st} + {~ stage_ok st}.
Proof.
  destruct (forallb returns (st_apps st)) eqn:F.
  - destruct (Z.eq_dec (sum (codes st)) 0) as [E|N].
    + left. split; [|exact E]. intros a Ha. apply returns_true. rewrite forallb_forall in F. apply F, Ha.
    + right. intros [_ E]. contradiction.
  - right. intros [A _]. enough (forallb returns (st_apps st) = true) by congruence. apply forallb_forall. intros a Ha. apply returns_true, A, Ha.
Qed.

(** A stage that is ok goes on with 0; another does not. *)
Lemma loop_cons_ok s st sts : proper st -> stage_ok st -> exists t,
  run_apps s st = (map (Began s) (seq 0 (List.length (st_apps st))) ++ t, Result 0, [good_results st]) /\
  (forall k i, ~ In (Began k i) t) /\ (forall i a, nth_error (st_apps st) i = Some a -> exists c, a_out a = Returned c /\ In (Ended s i (Returned c)) t) /\
  run_loop s 0 (st :: sts) = ((map (Began s) (seq 0 (List.length (st_apps st))) ++ t) ++ loop_trace (S s) 0 sts, loop_flow (S s) 0 sts, good_results st :: loop_results (S s) 0 sts).
Proof.
  intros P [A Z]. destruct (run_apps_cases s st P) as [(_ & t & E & N & H)|[(B & _)|(B & _)]]; [|contradiction|contradiction].
  exists t. rewrite Z in E. split; [exact E|]. split; [exact N|]. split; [exact H|]. cbn [run_loop Z.eqb]. rewrite E. unfold loop_trace, loop_flow, loop_results.
  destruct (run_loop (S s) 0 sts) as [[t' f] res']. reflexivity.
Qed.
Lemma loop_cons_bad s st sts : proper st -> ~ stage_ok st -> exists t,
  (forall k i, ~ In (Began k i) t) /\ loop_trace s 0 (st :: sts) = map (Began s) (seq 0 (List.length (st_apps st))) ++ t /\
  (forall i c, In i (seq 0 (List.length (st_apps st))) -> all_return st -> nth_error (codes st) i = Some c -> In (Ended s i (Returned c)) t) /\
  ((exists r, r <> 0 /\ loop_flow s 0 (st :: sts) = Result r /\ (all_return st -> r = sum (codes st)) /\
    ((all_return st /\ loop_results s 0 (st :: sts) = good_results st :: map (fun st => map not_run (st_apps st)) sts) \/
     (~ all_return st /\ exists e, (exists a, In a (st_apps st) /\ a_out a = Raised e) /\ loop_results s 0 (st :: sts) = exc_results e st :: map (fun st => map not_run (st_apps st)) sts))) \/
   ((exists a, In a (st_apps st) /\ a_out a = Cancelled) /\ loop_flow s 0 (st :: sts) = Propagates /\ loop_results s 0 (st :: sts) = [])).
Proof.
  intros P B. unfold loop_trace, loop_flow, loop_results. cbn [run_loop Z.eqb].
  destruct (run_apps_cases s st P) as [(A & t & E & N & H)|[(A & t & e & E & N & H)|(A & t & E & N & H)]]; rewrite E.
  - assert (Nz : sum (codes st) <> 0) by (intros Z; apply B; split; assumption). rewrite (loop_stopped _ _ _ Nz). cbn [fst snd app].
    exists t. split; [exact N|]. split; [rewrite app_nil_r; reflexivity|]. split; [|left; eauto 10].
    intros i c _ _ Hc. unfold codes in Hc. rewrite nth_error_map in Hc. destruct (nth_error (st_apps st) i) as [a|] eqn:Ea; [|discriminate]. destruct (H i a Ea) as (c' & C1 & C2). cbn in Hc. rewrite C1 in Hc. injection Hc as <-. exact C2.
  - rewrite loop_stopped by discriminate. cbn [fst snd app]. exists t. split; [exact N|]. split; [rewrite app_nil_r; reflexivity|]. split; [contradiction|].
    left. exists (-1). split; [discriminate|]. split; [reflexivity|]. split; [contradiction|]. right. split; [exact A|]. eauto.
  - cbn [fst snd]. exists t. split; [exact N|]. split; [reflexivity|]. split; [contradiction|]. right. auto.
Qed.

Definition all_proper (sts : list stage) : Prop := forall st, In st sts -> proper st.

(** Which methods are started. *)
Lemma began_block s n k i : In (Began k i) (map (Began s) (seq 0 n)) <-> k = s /\ (i < n)%nat.
Proof.
  rewrite in_map_iff. split.
  - intros (x & H & Hin). injection H as <- <-. apply in_seq in Hin. split; [reflexivity|lia].
  - intros [-> L]. exists i. split; [reflexivity|]. apply in_seq. lia.
Qed.
Lemma loop_began sts : forall s k i, all_proper sts ->
  In (Began k i) (loop_trace s 0 sts) <-> exists j, k = (s + j)%nat /\ (exists a, method sts j i a) /\ forall j' st, (j' < j)%nat -> nth_error sts j' = Some st -> stage_ok st.
Proof.
  induction sts as [|st sts IH]; intros s k i P.
  { split; [intros []|]. intros (j & _ & (a & st & H & _) & _). destruct j; discriminate. }
  assert (Ps : proper st) by (apply P; left; reflexivity). assert (Pr : all_proper sts) by (intros x Hx; apply P; right; exact Hx).
  assert (Hd : forall t, (forall k i, ~ In (Began k i) t) -> In (Began k i) (map (Began s) (seq 0 (List.length (st_apps st))) ++ t) <-> k = s /\ (i < List.length (st_apps st))%nat).
  { intros t N. rewrite in_app_iff, began_block. split; [intros [H|H]; [exact H|destruct (N k i H)]|auto]. }
  assert (M0 : (exists a, method (st :: sts) 0 i a) <-> (i < List.length (st_apps st))%nat).
  { split.
    - intros (a & st' & H & Ha). cbn in H. injection H as <-. apply nth_lt in Ha. exact Ha.
    - intros L. destruct (nth_error (st_apps st) i) as [a|] eqn:E; [|apply nth_error_None in E; lia]. exists a, st. split; [reflexivity|exact E]. }
  destruct (stage_ok_dec st) as [O|O].
  - destruct (loop_cons_ok s st sts Ps O) as (t & _ & N & _ & E). unfold loop_trace at 1. rewrite E. cbn [fst snd]. rewrite in_app_iff, (Hd t N), (IH (S s) k i Pr). split.
    + intros [[-> L]|(j & -> & (a & M) & Q)].
      * exists 0%nat. split; [lia|]. split; [apply M0, L|]. intros j' st' Hj. lia.
      * exists (S j). split; [lia|]. split; [exists a; exact M|]. intros [|j'] st' Hj Hn; [injection Hn as <-; exact O|]. apply (Q j' st'); [lia|exact Hn].
    + intros (j & -> & M & Q). destruct j as [|j]; [left; split; [lia|apply M0, M]|]. right. exists j. split; [lia|]. split; [exact M|]. intros j' st' Hj Hn. apply (Q (S j') st'); [lia|exact Hn].
  - destruct (loop_cons_bad s st sts Ps O) as (t & N & E & _). rewrite E, (Hd t N). split.
    + intros [-> L]. exists 0%nat. split; [lia|]. split; [apply M0, L|]. intros j' st' Hj. lia.
    + intros (j & -> & M & Q). destruct j as [|j]; [split; [lia|apply M0, M]|]. destruct O. apply (Q 0%nat st); [lia|reflexivity].
Qed.

(** Stages one after the other. *)
Lemma split_began s n t pre k i post : (forall k i, ~ In (Began k i) t) -> map (Began s) (seq 0 n) ++ t = pre ++ Began k i :: post -> k = s /\ (i < n)%nat.
Proof.
  intros N E. assert (H : In (Began k i) (map (Began s) (seq 0 n) ++ t)) by (rewrite E; apply in_app_iff; right; left; reflexivity).
  apply in_app_iff in H as [H|H]; [apply began_block in H; exact H|destruct (N k i H)].
Qed.
Lemma app_split {A} (x y pre post : list A) b : x ++ y = pre ++ b :: post ->
  (exists l, x = pre ++ b :: l) \/ (exists l, pre = x ++ l /\ y = l ++ b :: post).
Proof.
  revert pre. induction x as [|a x IH]; intros pre H.
  - right. exists pre. auto.
  - destruct pre as [|c pre]; cbn [app] in H; injection H as -> H.
    + left. exists x. reflexivity.
    + destruct (IH pre H) as [(l & ->)|(l & -> & ->)]; [left; exists l; reflexivity|right; exists l; auto].
Qed.
Lemma loop_order sts : forall s pre k i post, all_proper sts -> loop_trace s 0 sts = pre ++ Began k i :: post ->
  forall j i' a, (s + j < k)%nat -> method sts j i' a -> exists c, a_out a = Returned c /\ In (Ended (s + j) i' (Returned c)) pre.
Proof.
  induction sts as [|st sts IH]; intros s pre k i post P E j i' a L M; [destruct M as (x & H & _); destruct j; discriminate|].
  assert (Ps : proper st) by (apply P; left; reflexivity). assert (Pr : all_proper sts) by (intros x Hx; apply P; right; exact Hx).
  destruct (stage_ok_dec st) as [O|O].
  - destruct (loop_cons_ok s st sts Ps O) as (t & _ & N & H & E'). unfold loop_trace at 1 in E. rewrite E' in E. cbn [fst snd] in E.
    destruct (app_split _ _ _ _ _ E) as [(l & X)|(l & -> & X)].
    + destruct (split_began s _ t pre k i l N X) as [-> _]. lia.
    + destruct j as [|j].
      * destruct M as (x & Hx & Ha). cbn in Hx. injection Hx as <-. destruct (H i' a Ha) as (c & C1 & C2). exists c. rewrite Nat.add_0_r. split; [exact C1|]. rewrite !in_app_iff. auto.
      * destruct (IH (S s) l k i post Pr X j i' a) as (c & C1 & C2); [lia|exact M|]. exists c. split; [exact C1|]. replace (s + S j)%nat with (S s + j)%nat by lia. apply in_app_iff. right. exact C2.
  - destruct (loop_cons_bad s st sts Ps O) as (t & N & E' & _). rewrite E' in E. destruct (split_began s _ t pre k i post N E) as [-> _]. lia.
Qed.
Lemma began_nodup s n : NoDup (map (Began s) (seq 0 n)).
Proof. apply FinFun.Injective_map_NoDup; [|apply seq_NoDup]. intros x y H. injection H as ->. reflexivity. Qed.
Definition is_began (e : tev) : bool := match e with Began _ _ => true | _ => false end.
Lemma no_began_filter t : (forall k i, ~ In (Began k i) t) -> filter is_began t = [].
Proof.
  induction t as [|e t IH]; intros N; [reflexivity|]. destruct e as [k i|k i o]; [destruct (N k i); left; reflexivity|]. cbn [filter is_began]. apply IH. intros k' i' H. apply (N k' i'). right. exact H.
Qed.
Lemma block_filter s l : filter is_began (map (Began s) l) = map (Began s) l.
Proof. induction l as [|x l IH]; [reflexivity|]. cbn [map filter is_began]. rewrite IH. reflexivity. Qed.
Lemma loop_once sts : forall s, all_proper sts -> NoDup (filter is_began (loop_trace s 0 sts)).
Proof.
  induction sts as [|st sts IH]; intros s P; [constructor|].
  assert (Ps : proper st) by (apply P; left; reflexivity). assert (Pr : all_proper sts) by (intros x Hx; apply P; right; exact Hx).
  destruct (stage_ok_dec st) as [O|O].
  - destruct (loop_cons_ok s st sts Ps O) as (t & _ & N & H & E'). unfold loop_trace at 1. rewrite E'. cbn [fst snd]. rewrite !filter_app, block_filter, (no_began_filter t N), app_nil_r.
    apply NoDup_app; [apply began_nodup|apply IH, Pr|]. intros e H1 H2. apply in_map_iff in H1 as (i & <- & _). apply filter_In in H2 as [H2 _]. apply (loop_began sts (S s) s i Pr) in H2 as (j & Hj & _). lia.
  - destruct (loop_cons_bad s st sts Ps O) as (t & N & E' & _). rewrite E', filter_app, block_filter, (no_began_filter t N), app_nil_r. apply began_nodup.
Qed.

(** The result. *)
Lemma loop_ok sts : forall s, all_proper sts -> loop_flow s 0 sts = Result 0 <-> forall st, In st sts -> stage_ok st.
Proof.
  induction sts as [|st sts IH]; intros s P; [split; [intros _ st []|reflexivity]|].
  assert (Ps : proper st) by (apply P; left; reflexivity). assert (Pr : all_proper sts) by (intros x Hx; apply P; right; exact Hx).
  destruct (stage_ok_dec st) as [O|O].
  - destruct (loop_cons_ok s st sts Ps O) as (t & _ & _ & _ & E'). unfold loop_flow at 1. rewrite E'. cbn [fst snd]. rewrite (IH (S s) Pr). split; [intros H x [<-|Hx]; auto|intros H x Hx; apply H; right; exact Hx].
  - destruct (loop_cons_bad s st sts Ps O) as (t & _ & _ & _ & [(r & R1 & R2 & _)|(_ & R & _)]); (split; [|intros H; destruct O; apply H; left; reflexivity]); rewrite ?R2, ?R; intros H; congruence.
Qed.
Lemma loop_no_cancel sts : forall s, all_proper sts -> (forall st a, In st sts -> In a (st_apps st) -> a_out a <> Cancelled) -> exists r, loop_flow s 0 sts = Result r.
Proof.
  induction sts as [|st sts IH]; intros s P C; [exists 0; reflexivity|].
  assert (Ps : proper st) by (apply P; left; reflexivity). assert (Pr : all_proper sts) by (intros x Hx; apply P; right; exact Hx).
  destruct (stage_ok_dec st) as [O|O].
  - destruct (loop_cons_ok s st sts Ps O) as (t & _ & _ & _ & E'). unfold loop_flow. rewrite E'. cbn [fst snd]. apply (IH (S s) Pr). intros x a Hx. apply C. right. exact Hx.
  - destruct (loop_cons_bad s st sts Ps O) as (t & _ & _ & _ & [(r & R1 & R2 & _)|((a & A1 & A2) & _)]); [eauto|]. destruct (C st a (or_introl eq_refl) A1 A2).
Qed.

(** What is recorded for a stage. *)
Lemma good_recorded st (Q : Prop) : Q -> all_return st -> recorded Q st (good_results st).
Proof.
  intros H A. apply rec_run; [exact H|]. unfold good_results. assert (A' : forall a, In a (st_apps st) -> exists c, a_out a = Returned c) by exact A. clear A. revert A'.
  induction (st_apps st) as [|a l IH]; intros A; [constructor|]. cbn [map]. constructor; [|apply IH; intros b Hb; apply A; right; exact Hb].
  destruct (A a (or_introl eq_refl)) as [c C]. exists c. split; [exact C|]. unfold code_of. rewrite C. reflexivity.
Qed.
Lemma recorded_iff (P Q : Prop) st l : (P <-> Q) -> recorded P st l -> recorded Q st l.
Proof. intros H R. destruct R; [apply rec_run; tauto|eapply rec_exc; eauto; tauto|apply rec_not; tauto]. Qed.
Lemma loop_recorded sts : forall s, all_proper sts -> (forall st a, In st sts -> In a (st_apps st) -> a_out a <> Cancelled) ->
  List.length (loop_results s 0 sts) = List.length sts /\
  forall j st l, nth_error sts j = Some st -> nth_error (loop_results s 0 sts) j = Some l -> recorded (forall j' st', (j' < j)%nat -> nth_error sts j' = Some st' -> stage_ok st') st l.
Proof.
  induction sts as [|st sts IH]; intros s P C; [split; [reflexivity|intros [|j] st l H; discriminate]|].
  assert (Ps : proper st) by (apply P; left; reflexivity). assert (Pr : all_proper sts) by (intros x Hx; apply P; right; exact Hx).
  assert (Cr : forall x a, In x sts -> In a (st_apps x) -> a_out a <> Cancelled) by (intros x a Hx; apply C; right; exact Hx).
  destruct (stage_ok_dec st) as [O|O].
  - destruct (loop_cons_ok s st sts Ps O) as (t & _ & _ & _ & E'). unfold loop_results at 1 2. rewrite E'. cbn [fst snd List.length]. destruct (IH (S s) Pr Cr) as [L R]. split; [rewrite L; reflexivity|].
    intros [|j] x l H1 H2; cbn [nth_error] in H1, H2.
    + injection H1 as <-. injection H2 as <-. apply good_recorded; [intros j' st' Hj; lia|apply O].
    + apply (recorded_iff (forall j' st', (j' < j)%nat -> nth_error sts j' = Some st' -> stage_ok st')); [|apply R; assumption]. split.
      * intros H [|j'] st' Hj Hn; [injection Hn as <-; exact O|apply (H j' st'); [lia|exact Hn]].
      * intros H j' st' Hj Hn. apply (H (S j') st'); [lia|exact Hn].
  - destruct (loop_cons_bad s st sts Ps O) as (t & _ & _ & _ & [(r & R1 & R2 & _ & R3)|((a & A1 & A2) & _)]); [|destruct (C st a (or_introl eq_refl) A1 A2)].
    assert (Rest : forall x l j l0, nth_error (x :: map (fun st => map not_run (st_apps st)) sts) (S j) = Some l0 -> nth_error sts j = Some l ->
       recorded (forall j' st', (j' < S j)%nat -> nth_error (st :: sts) j' = Some st' -> stage_ok st') l l0).
    { intros x l j l0 H1 H2. cbn [nth_error] in H1. rewrite nth_error_map, H2 in H1. cbn in H1. injection H1 as <-. apply rec_not; [|reflexivity]. intros H. apply O. apply (H 0%nat st); [lia|reflexivity]. }
    destruct R3 as [[A E]|(A & e & (a & A1 & A2) & E)]; rewrite E; cbn [List.length]; rewrite map_length; (split; [reflexivity|]); intros [|j] x l H1 H2;
      try (eapply Rest; [exact H2|exact H1]); cbn [nth_error] in H1, H2; injection H1 as <-; injection H2 as <-.
    + apply good_recorded; [intros j' st' Hj; lia|exact A].
    + eapply rec_exc; [intros j' st' Hj; lia|exact A1|exact A2|reflexivity].
Qed.

(** A method all of whose stage's results pass has returned 0. *)
Lemma recorded_pass Q st l : recorded Q st l -> forallb (fun r => state_bool (r_state r)) l = true -> forall a, In a (st_apps st) -> passes a.
Proof.
  intros R F a Ha. rewrite forallb_forall in F. destruct R as [_ R|e b _ _ _ ->| _ ->].
  - induction R as [|b r bs rs (c & C & ->) R IH]; [destruct Ha|]. destruct Ha as [<-|Ha].
    + specialize (F _ (or_introl eq_refl)). cbn [r_state] in F. unfold passes. destruct (Z.eqb_spec c 0) as [->|]; [exact C|discriminate].
    + apply IH; [|exact Ha]. intros x Hx. apply F. right. exact Hx.
  - specialize (F _ (in_map _ _ _ Ha)). discriminate.
  - specialize (F _ (in_map _ _ _ Ha)). discriminate.
Qed.
Lemma fold_and {A} (f : A -> bool) l : fold_left (fun b x => b && f x) l true = forallb f l.
Proof.
  enough (G : forall b, fold_left (fun b x => b && f x) l b = b && forallb f l) by apply G.
  induction l as [|x l IH]; intros b; cbn [fold_left forallb]; [symmetry; apply Bool.andb_true_r|]. rewrite IH, Bool.andb_assoc. reflexivity.
Qed.
Lemma success_forall l : results_success l = true <-> forall x, In x l -> forallb (fun r => state_bool (r_state r)) x = true.
Proof.
  unfold results_success. rewrite fold_and, forallb_forall. split; intros H x Hx; specialize (H x Hx); unfold stage_success in *; rewrite fold_and in *; exact H.
Qed.
Lemma pass_ok st : (forall a, In a (st_apps st) -> passes a) -> stage_ok st.
Proof.
  intros H. split; [intros a Ha; exists 0; apply H, Ha|]. unfold codes. induction (st_apps st) as [|a l IH]; [reflexivity|]. cbn [map sum fold_right].
  rewrite (H a (or_introl eq_refl)). fold (sum (map (fun a => match a_out a with Returned c => c | _ => 0 end) l)). rewrite IH; [reflexivity|]. intros b Hb. apply H. right. exact Hb.
Qed.
Lemma sum_nonneg l : (forall x, In x l -> 0 <= x) -> 0 <= sum l /\ (sum l = 0 -> forall x, In x l -> x = 0).
Proof.
  induction l as [|x l IH]; intros H; cbn [sum fold_right]; [split; [lia|intros _ y []]|]. fold (sum l). destruct IH as [I1 I2]; [intros y Hy; apply H; right; exact Hy|].
  pose proof (H x (or_introl eq_refl)). split; [lia|]. intros E y [<-|Hy]; [lia|]. apply I2; [lia|exact Hy].
Qed.
Lemma ok_pass st : (forall a c, In a (st_apps st) -> a_out a = Returned c -> 0 <= c) -> stage_ok st -> forall a, In a (st_apps st) -> passes a.
Proof.
  intros N [A S] a Ha. destruct (sum_nonneg (codes st)) as [_ H].
  - intros x Hx. unfold codes in Hx. apply in_map_iff in Hx as (b & <- & Hb). destruct (A b Hb) as [c C]. rewrite C. apply (N b c Hb C).
  - destruct (A a Ha) as [c C]. unfold passes. rewrite C. f_equal. apply (H S). unfold codes. apply in_map_iff. exists a. rewrite C. auto.
Qed.
Lemma in_method sts st a : In st sts -> In a (st_apps st) -> exists s i, method sts s i a.
Proof. intros H1 H2. apply In_nth_error in H1 as [s H1]. apply In_nth_error in H2 as [i H2]. exists s, i, st. auto. Qed.
Lemma method_in sts s i a : method sts s i a -> exists st, In st sts /\ In a (st_apps st).
Proof. intros (st & H1 & H2). exists st. split; eapply nth_error_In; eassumption. Qed.
Lemma loop_report sts s : all_proper sts -> (forall st a, In st sts -> In a (st_apps st) -> a_out a <> Cancelled) ->
  results_success (loop_results s 0 sts) = true <-> forall st a, In st sts -> In a (st_apps st) -> passes a.
Proof.
  intros P C. destruct (loop_recorded sts s P C) as [L R]. rewrite success_forall. split.
  - intros H st a Hs Ha. apply In_nth_error in Hs as [j Hj]. destruct (nth_error (loop_results s 0 sts) j) as [l|] eqn:E.
    + apply (recorded_pass _ _ _ (R j st l Hj E)); [|exact Ha]. apply H. eapply nth_error_In. exact E.
    + apply nth_error_None in E. apply nth_lt in Hj. lia.
  - intros H x Hx. apply In_nth_error in Hx as [j Hj]. destruct (nth_error sts j) as [st|] eqn:E.
    + assert (Pass : forall a, In a (st_apps st) -> passes a) by (intros a; apply H; eapply nth_error_In; exact E).
      destruct (R j st x E Hj) as [_ Q|e a _ Ha Hr _|N _].
      * apply forallb_forall. intros r Hr. clear - Q Pass Hr. induction Q as [|b r' bs rs (c & Cc & ->) Q IH]; [destruct Hr|]. destruct Hr as [<-|Hr].
        -- pose proof (Pass b (or_introl eq_refl)) as X. unfold passes in X. rewrite Cc in X. injection X as ->. reflexivity.
        -- apply IH; [intros a Ha; apply Pass; right; exact Ha|exact Hr].
      * specialize (Pass a Ha). unfold passes in Pass. congruence.
      * destruct N. intros j' st' _ Hn. apply pass_ok. intros a. apply H. eapply nth_error_In. exact Hn.
    + apply nth_error_None in E. apply nth_lt in Hj. lia.
Qed.
(** If every method of a stage returns, every method that is started ends. *)
Lemma loop_ended sts : forall s k i, all_proper sts -> (forall st, In st sts -> all_return st) -> In (Began k i) (loop_trace s 0 sts) -> exists c, In (Ended k i (Returned c)) (loop_trace s 0 sts).
Proof.
  induction sts as [|st sts IH]; intros s k i P A H; [destruct H|].
  assert (Ps : proper st) by (apply P; left; reflexivity). assert (Pr : all_proper sts) by (intros x Hx; apply P; right; exact Hx).
  destruct (stage_ok_dec st) as [O|O].
  - destruct (loop_cons_ok s st sts Ps O) as (t & _ & N & G & E). unfold loop_trace in *. rewrite E in *. cbn [fst snd] in *. apply in_app_iff in H as [H|H].
    + assert (X : k = s /\ (i < List.length (st_apps st))%nat).
      { apply in_app_iff in H as [H|H]; [apply began_block in H; exact H|destruct (N k i H)]. } destruct X as [-> L].
      destruct (nth_error (st_apps st) i) as [a|] eqn:Ea; [|apply nth_error_None in Ea; lia]. destruct (G i a Ea) as (c & _ & C). exists c. rewrite !in_app_iff. auto.
    + destruct (IH (S s) k i Pr) as [c C]; [intros x Hx; apply A; right; exact Hx|exact H|]. exists c. apply in_app_iff. right. exact C.
  - destruct (loop_cons_bad s st sts Ps O) as (t & N & E & G & _). rewrite E in *. apply in_app_iff in H as [H|H]; [|destruct (N k i H)]. apply began_block in H as [-> L].
    destruct (nth_error (codes st) i) as [c|] eqn:Ec.
    + exists c. apply in_app_iff. right. apply G; [apply in_seq; lia|apply A; left; reflexivity|exact Ec].
    + apply nth_error_None in Ec. unfold codes in Ec. rewrite map_length in Ec. lia.
Qed.
