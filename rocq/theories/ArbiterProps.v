(** Properties C43 and C59: application stages. *)
From Verif Require Import Base BaseLemmas TaskProofs ArbiterModel ArbiterSpec ArbiterProofs.
From Coq Require Import Permutation ZifyBool ZifyNat Lia.
Open Scope list_scope.
Open Scope Z_scope.

Lemma cancel_in sts : no_cancel sts -> forall st a, In st sts -> In a (st_apps st) -> a_out a <> Cancelled.
Proof. intros C st a H1 H2. destruct (in_method sts st a H1 H2) as (s & i & M). apply (C s i a M). Qed.
Lemma pass_in sts : all_pass sts <-> forall st a, In st sts -> In a (st_apps st) -> passes a.
Proof.
  split.
  - intros C st a H1 H2. destruct (in_method sts st a H1 H2) as (s & i & M). apply (C s i a M).
  - intros C s i a M. destruct (method_in sts s i a M) as (st & H1 & H2). apply (C st a H1 H2).
Qed.

Section Run.
Context (check : bool) (inits apps : list stage).
Let all : list stage := inits ++ apps.
Hypothesis ends : forall st, In st all -> proper st.
Let trace : list tev := fst (fst (run_main check true inits apps)).
Let flow_ : flow := snd (fst (run_main check true inits apps)).
Let results : option (list (list result)) := snd (run_main check true inits apps).

(** C43.  The initialization methods and then the applications run in order: when
    a method of a stage starts, every method of every earlier stage has ended,
    by returning.  No method starts twice. *)
Theorem C43_order : forall pre s i post, trace = pre ++ Began s i :: post ->
  forall s' i' a, (s' < s)%nat -> method all s' i' a -> exists c, a_out a = Returned c /\ In (Ended s' i' (Returned c)) pre.
Proof.
  intros pre s i post E s' i' a L M. destruct (main_loop check inits apps) as [X _]. unfold trace in E. rewrite X in E. apply (loop_order all 0 pre s i post ends E s' i' a L M).
Qed.
Theorem C43_once : NoDup (filter is_began trace).
Proof. destruct (main_loop check inits apps) as [X _]. unfold trace. rewrite X. apply (loop_once all 0 ends). Qed.

(** C43.  The methods of a stage are started exactly when in every earlier stage
    all methods returned and their codes add up to 0. *)
Theorem C43_started : forall s i, In (Began s i) trace <-> (exists a, method all s i a) /\ reached all s.
Proof.
  intros s i. destruct (main_loop check inits apps) as [X _]. unfold trace. rewrite X. rewrite (loop_began all 0 s i ends : In (Began s i) (fst (fst (run_loop 0 0 (inits ++ apps)))) <-> _). split.
  - intros (j & -> & H). exact H.
  - intros H. exists s. split; [reflexivity|exact H].
Qed.
(** C43, as a user wants it: if no method returns a negative code, a stage is
    started exactly when every earlier method returned 0. *)
Theorem C43_started_partial : no_negative all -> forall s i, In (Began s i) trace <->
  (exists a, method all s i a) /\ forall s' i' a, (s' < s)%nat -> method all s' i' a -> passes a.
Proof.
  intros N s i. rewrite C43_started. split; intros [H1 H2]; (split; [exact H1|]).
  - intros s' i' a L (st & M1 & M2). apply (ok_pass st); [|apply (H2 s' st L M1)|eapply nth_error_In; exact M2].
    intros b c Hb. apply In_nth_error in Hb as [k Hb]. apply (N s' k b c). exists st. auto.
  - intros s' st L M1. apply pass_ok. intros a Ha. apply In_nth_error in Ha as [k Ha]. apply (H2 s' k a L). exists st. auto.
Qed.

(** C43.  The result is 0 exactly when in every stage all methods returned and
    their codes add up to 0. *)
Theorem C43_result : flow_ = Result 0 <-> forall st, In st all -> stage_ok st.
Proof. destruct (main_loop check inits apps) as [X _]. unfold flow_. rewrite X. apply (loop_ok all 0 ends). Qed.
(** C43, as a user wants it: if no method returns a negative code, the result is
    0 exactly when every method returned 0. *)
Theorem C43_result_partial : no_negative all -> flow_ = Result 0 <-> all_pass all.
Proof.
  intros N. rewrite C43_result, pass_in. split.
  - intros H st a Hs Ha. apply (ok_pass st); [|apply H, Hs|exact Ha]. intros b c Hb. destruct (in_method all st b Hs Hb) as (s & i & M). apply (N s i b c M).
  - intros H st Hs. apply pass_ok. intros a. apply H, Hs.
Qed.
(** C43.  Unless a method is cancelled there is a result, and a success of all
    means success. *)
Theorem C43_has_result : no_cancel all -> exists r, flow_ = Result r.
Proof. intros C. destruct (main_loop check inits apps) as [X _]. unfold flow_. rewrite X. apply (loop_no_cancel all 0 ends (cancel_in all C)). Qed.

(** C43.  If the initialization methods succeed, something is recorded for every
    stage, and it is what happened. *)
Theorem C43_recorded_partial : no_cancel all -> (forall st, In st inits -> stage_ok st) ->
  exists res, results = Some res /\ List.length res = List.length all /\
  forall s st l, nth_error all s = Some st -> nth_error res s = Some l -> recorded (reached all s) st l.
Proof.
  intros C I. destruct (main_loop check inits apps) as [_ X]. unfold results. rewrite X.
  assert (F : loop_flow 0 0 inits = Result 0) by (apply loop_ok; [intros st Hs; apply ends; apply in_app_iff; auto|exact I]). rewrite F.
  exists (loop_results 0 0 all). split; [reflexivity|]. apply (loop_recorded all 0 ends (cancel_in all C)).
Qed.

(** C43.  The report says "success" exactly when every method returned 0. *)
Theorem C43_report : no_cancel all -> exists res, results = Some res /\ (results_success res = true <-> all_pass all).
Proof.
  intros C. destruct (main_loop check inits apps) as [_ X]. unfold results. rewrite X.
  assert (Pi : all_proper inits) by (intros st Hs; apply ends; apply in_app_iff; auto).
  assert (Ci : forall st a, In st inits -> In a (st_apps st) -> a_out a <> Cancelled) by (intros st a Hs; apply (cancel_in all C); apply in_app_iff; auto).
  assert (Bad : loop_flow 0 0 inits <> Result 0 -> results_success (loop_results 0 0 inits) = true <-> forall st a, In st all -> In a (st_apps st) -> passes a).
  { intros N. split.
    - intros S. destruct N. apply loop_ok; [exact Pi|]. intros st Hs. apply pass_ok. intros a. apply (proj1 (loop_report inits 0 Pi Ci) S st a Hs).
    - intros H. apply (loop_report inits 0 Pi Ci). intros st a Hs. apply H. apply in_app_iff. auto. }
  destruct (loop_flow 0 0 inits) as [[|p|p]|] eqn:F; eexists; (split; [reflexivity|]); rewrite pass_in; try (apply Bad; discriminate). apply (loop_report all 0 ends (cancel_in all C)).
Qed.

(** C59.  If every method of every stage returns, then every method that was
    started has ended when the run is over. *)
Theorem C59_all_ended_partial : (forall st, In st all -> all_return st) -> forall s i, In (Began s i) trace -> exists c, In (Ended s i (Returned c)) trace.
Proof. intros A s i. destruct (main_loop check inits apps) as [X _]. unfold trace. rewrite X. apply (loop_ended all 0 s i ends A). Qed.
End Run.
Print Assumptions C43_order.
Print Assumptions C43_once.
Print Assumptions C43_started.
Print Assumptions C43_started_partial.
Print Assumptions C43_result.
Print Assumptions C43_result_partial.
Print Assumptions C43_has_result.
Print Assumptions C43_recorded_partial.
Print Assumptions C43_report.
Print Assumptions C59_all_ended_partial.

(** C43.  If a registered connection was disabled during its initialization (and
    the check is on), nothing runs and the result is -1. *)
Theorem C43_dead_connection : forall inits apps, run_main true false inits apps = ([], Result (-1), None).
Proof. reflexivity. Qed.
Print Assumptions C43_dead_connection.

(** C43.  The configured methods are the stages, in order; a name by itself is a
    stage of one method; wait_for_stop comes last; and without any the default
    remains. *)
Theorem C43_configured : forall dflt c (w : bool),
  configured_apps dflt c w =
  match c, w with
  | CNone, false | CList [], false => dflt
  | CNone, true => [["runtimepy.net.apps.wait_for_stop"%string]]
  | CStr p, false => [[p]]
  | CStr p, true => [[p]; ["runtimepy.net.apps.wait_for_stop"%string]]
  | CList l, false => map (fun x => match x with One p => [p] | Many ps => ps end) l
  | CList l, true => map (fun x => match x with One p => [p] | Many ps => ps end) l ++ [["runtimepy.net.apps.wait_for_stop"%string]]
  end.
Proof.
  intros dflt c w. unfold configured_apps, get_apps. destruct c as [|p|l], w; try reflexivity.
  - rewrite map_app. cbn [map paths_of]. change (map paths_of l) with (map (fun x => match x with One p => [p] | Many ps => ps end) l). destruct (map _ l ++ _) eqn:E; [destruct (map _ l); discriminate|destruct l; reflexivity].
  - destruct l as [|x l]; reflexivity.
Qed.
Print Assumptions C43_configured.

Definition ok (n : string) : appl := mkApp n (Returned 0).
Definition par (l : list appl) : stage := mkStage l (rev (seq 0 (List.length l))).
Example C43_case :
  let inits := [par [ok "i"]] in let apps := [par [ok "a"; ok "b"]; par [mkApp "c" (Returned 3); ok "d"]; par [ok "e"]] in
  (forall st, In st (inits ++ apps) -> proper st) /\ no_negative (inits ++ apps) /\ no_cancel (inits ++ apps) /\
  run_main true true inits apps =
  ([Began 0 0; Ended 0 0 (Returned 0); Began 1 0; Began 1 1; Ended 1 1 (Returned 0); Ended 1 0 (Returned 0);
    Began 2 0; Began 2 1; Ended 2 1 (Returned 0); Ended 2 0 (Returned 3)], Result 3,
   Some [[mkResult "i" PASS (Some 0) None]; [mkResult "a" PASS (Some 0) None; mkResult "b" PASS (Some 0) None];
         [mkResult "c" FAIL (Some 3) None; mkResult "d" PASS (Some 0) None]; [mkResult "e" NOT_RUN None None]]).
Proof.
  assert (Pr : forall l, proper (par l)) by (intros l; unfold proper, par; cbn [st_order st_apps]; apply Permutation_sym, Permutation_rev).
  split; [intros st Hs; cbn in Hs; repeat (destruct Hs as [<-|Hs]; [apply (Pr _)|]); destruct Hs|].
  split; [|split; [|reflexivity]].
  - intros s i a c M O. apply method_in in M as (st & H1 & H2). cbn in H1. repeat (destruct H1 as [<-|H1]; [cbn in H2; repeat (destruct H2 as [<-|H2]; [cbn in O; injection O; lia|]); destruct H2|]). destruct H1.
  - intros s i a M. apply method_in in M as (st & H1 & H2). cbn in H1. repeat (destruct H1 as [<-|H1]; [cbn in H2; repeat (destruct H2 as [<-|H2]; [discriminate|]); destruct H2|]). destruct H1.
Qed.

(** C43 is false in general: the codes of a stage are added up, so a 1 and a -1
    make a success of two failures; the next stage runs and the result is 0. *)
Theorem C43_codes_cancel_refuted : forall c, c <> 0 ->
  let apps := [par [mkApp "a" (Returned c); mkApp "b" (Returned (- c))]; par [ok "c"]] in
  exists t res, run_main true true [] apps = (t, Result 0, Some res) /\ In (Began 1 0) t /\ ~ all_pass apps /\ results_success res = false.
Proof.
  intros c N apps. unfold run_main, run_apps_list, apps. cbn [negb orb run_loop Z.eqb List.length].
  assert (E : run_apps 0 (par [mkApp "a" (Returned c); mkApp "b" (Returned (- c))]) =
    ([Began 0 0; Began 0 1; Ended 0 1 (Returned (- c)); Ended 0 0 (Returned c)], Result 0, [[mkResult "a" (from_int c) (Some c) None; mkResult "b" (from_int (- c)) (Some (- c)) None]])).
  { unfold run_apps, total. cbn [par st_apps st_order List.length seq rev app map gather nth_error a_out fst snd a_name fold_left code_of]. replace (0 + c + - c) with 0 by lia. reflexivity. }
  rewrite E. cbn [run_apps run_loop]. eexists _, _. split; [reflexivity|]. split; [cbn; auto 10|]. split.
  - intros H. assert (X : passes (mkApp "a" (Returned c))) by (apply (H 0%nat 0%nat); exists (par [mkApp "a" (Returned c); mkApp "b" (Returned (- c))]); split; reflexivity).
    unfold passes in X. cbn [a_out] in X. congruence.
  - unfold results_success. cbn [fold_left app]. unfold stage_success at 1. cbn [fold_left r_state]. unfold from_int. replace (c =? 0) with false by lia. reflexivity.
Qed.
Print Assumptions C43_codes_cancel_refuted.
(** C43 is false when an initialization method fails: nothing is recorded for
    the applications, not even that they did not run. *)
Theorem C43_init_fails_refuted :
  run_main true true [par [mkApp "i" (Returned 1)]; par [ok "j"]] [par [ok "a"]] =
  ([Began 0 0; Ended 0 0 (Returned 1)], Result 1, Some [[mkResult "i" FAIL (Some 1) None]; [mkResult "j" NOT_RUN None None]]).
Proof. reflexivity. Qed.
Print Assumptions C43_init_fails_refuted.
(** C59 is false when a method raises: the run is over while the others are
    still going on, and they are all recorded as having raised. *)
Theorem C59_exception_refuted :
  let apps := [mkStage [ok "a"; mkApp "b" (Raised 7)] [1%nat; 0%nat]] in
  proper (mkStage [ok "a"; mkApp "b" (Raised 7)] [1%nat; 0%nat]) /\
  run_main true true [] apps =
  ([Began 0 0; Began 0 1; Ended 0 1 (Raised 7)], Result (-1), Some [[mkResult "a" EXCEPTION None (Some 7); mkResult "b" EXCEPTION None (Some 7)]]).
Proof. split; [apply perm_swap|reflexivity]. Qed.
Print Assumptions C59_exception_refuted.
