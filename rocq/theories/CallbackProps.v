(** Properties C09 and C10: change callbacks. *)
From Verif Require Import Base BaseLemmas PrimModel PrimSpec CallbackModel CallbackSpec CallbackProofs.

(** C09, full statement, is false: assigning an out-of-range value calls back
    with a value that is not stored, even when the stored value is unchanged. *)
Theorem C09_callbacks_report_change_refuted :
  ~ (forall p v ts, v_reachable p -> passive p -> calls_report_change p v ts).
Proof.
  intros H.
  specialize (H (fst (v_run (v_init U8 0 0) [VRegister (mkCbk 7 APass) false])) 256 1).
  assert (C : calls_report_change
            (fst (v_run (v_init U8 0 0) [VRegister (mkCbk 7 APass) false])) 256 1).
  { apply H; [exists U8, 0, 0; eexists; reflexivity|repeat constructor]. }
  vm_compute in C. destruct C as [_ C]. discriminate C.
Qed.
Print Assumptions C09_callbacks_report_change_refuted.

(** C09 for every value the kind can hold (passive callbacks). *)
Theorem C09_callbacks_report_change_partial :
  forall p v ts,
    passive p -> k_value (v_kind p) v -> calls_report_change p v ts.
Proof. exact calls_report_in_range. Qed.
Print Assumptions C09_callbacks_report_change_partial.

(** C09, exactly: with at least one callback registered, the claim holds of an
    assignment iff the value is stored unchanged. *)
Theorem C09_callbacks_report_change_iff :
  forall p v ts,
    passive p -> v_cbs p <> [] ->
    (calls_report_change p v ts <-> k_store (v_kind p) v = v).
Proof. exact calls_report_iff. Qed.
Print Assumptions C09_callbacks_report_change_iff.

(** C09, what does hold of every assigned value: the callbacks run, in order,
    once each, iff the assigned value differs from the stored one, and receive
    the stored value and the assigned value. *)
Theorem C09_callbacks_get_assigned_value :
  forall p v ts,
    passive p ->
    exists p',
      v_set p v ts =
        (p',
         if v_raw p =? v then []
         else map (fun e => mkCall (fst e) (cb_tag (fst (snd e))) (v_raw p) v) (v_cbs p),
         true) /\
      v_raw p' = k_store (v_kind p) v /\ v_ts p' = ts.
Proof. exact set_passive. Qed.
Print Assumptions C09_callbacks_get_assigned_value.

(** C10.  Identifiers handed out over a history are pairwise distinct, and a
    new one is never that of a live registration. *)
Theorem C10_identifiers_never_reused :
  (forall k v ts ops, NoDup (all_idents (snd (v_run (v_init k v ts) ops)))) /\
  (forall p c once, v_reachable p -> ~ In (snd (v_register p c once)) (dkeys (v_cbs p))).
Proof. split; [exact idents_unique|exact ident_fresh]. Qed.
Print Assumptions C10_identifiers_never_reused.

(** C10.  Once removed, a callback is never called again, whatever follows. *)
Theorem C10_removed_never_called :
  forall p i ops,
    v_reachable p -> In i (dkeys (v_cbs p)) ->
    let p1 := fst (v_remove p i) in
    times_called i (all_calls (snd (v_run p1 ops))) = 0%nat.
Proof. exact removed_never_fires. Qed.
Print Assumptions C10_removed_never_called.

(** C10, one-shot callbacks, full statement, is false: when another callback
    raises, one-shot callbacks already called are not removed. *)
Theorem C10_once_at_most_once_refuted :
  ~ (forall p i c ops, v_reachable p -> In (i, (c, true)) (v_cbs p) ->
       (times_called i (all_calls (snd (v_run p ops))) <= 1)%nat).
Proof.
  intros H.
  specialize (H (fst (v_run (v_init U8 0 0)
                   [VRegister (mkCbk 1 APass) true; VRegister (mkCbk 2 ARaise) false]))
                0 (mkCbk 1 APass) [VSet 1 1; VSet 2 2]).
  assert (C : (2 <= 1)%nat).
  { apply H; [exists U8, 0, 0; eexists; reflexivity|left; reflexivity]. }
  lia.
Qed.
Print Assumptions C10_once_at_most_once_refuted.

(** C10, one-shot callbacks, over every history in which no assignment
    raises. *)
Theorem C10_once_at_most_once_partial :
  forall p i c ops,
    v_reachable p -> In (i, (c, true)) (v_cbs p) ->
    Forall (fun o => o_ok o = true) (snd (v_run p ops)) ->
    (times_called i (all_calls (snd (v_run p ops))) <= 1)%nat.
Proof. intros p i c ops H. exact (once_at_most_once ops p i c (reachable_inv p H)). Qed.
Print Assumptions C10_once_at_most_once_partial.

(** A history that meets the hypotheses: two callbacks, one of them one-shot,
    three assignments; the one-shot is called once, the other twice. *)
Definition cb_demo_p : cprim :=
  fst (v_run (v_init I16 5 0) [VRegister (mkCbk 1 APass) true; VRegister (mkCbk 2 APass) false]).
Example cb_demo :
  v_reachable cb_demo_p /\ passive cb_demo_p /\ k_value (v_kind cb_demo_p) (-3) /\
  In (0, (mkCbk 1 APass, true)) (v_cbs cb_demo_p) /\
  let outs := snd (v_run cb_demo_p [VSet 6 1; VSet 6 2; VRemove 9; VSet (-3) 3]) in
  Forall (fun o => o_ok o = true) outs /\
  times_called 0 (all_calls outs) = 1%nat /\ times_called 1 (all_calls outs) = 2%nat.
Proof.
  split; [exists I16, 5, 0; eexists; reflexivity|].
  split; [repeat constructor|]. split; [split; vm_compute; congruence|].
  split; [left; reflexivity|]. vm_compute. repeat split; repeat constructor.
Qed.
(** A callback that removes itself makes the assignment raise (RuntimeError)
    after the value has been stored. *)
Example cb_self_remove :
  let p := fst (v_run (v_init U8 0 0) [VRegister (mkCbk 1 (ARemove 0)) false]) in
  let '(p', calls, ok) := v_set p 9 1 in
  ok = false /\ v_raw p' = 9 /\ List.length calls = 1%nat /\ v_cbs p' = [].
Proof. repeat split. Qed.

(** C10.  Removing reports whether the registration was live, ends it, and
    leaves every other registration in place. *)
Theorem C10_remove_reports :
  forall p i, 
    let '(p', found) := v_remove p i in
    (found = true <-> In i (map fst (v_cbs p))) /\
    v_cbs p' = filter (fun e => negb (fst e =? i)) (v_cbs p) /\
    v_raw p' = v_raw p /\ v_ts p' = v_ts p.
Proof.
  intros p i. pose proof (remove_filter p i) as F. pose proof (remove_rest p i) as (_ & A & B & _).
  assert (S1 : snd (v_remove p i) = true <-> In i (map fst (v_cbs p))).
  { unfold v_remove. destruct (dmem i (v_cbs p)) eqn:E; cbn [snd].
    - split; [intros _|reflexivity]. unfold dmem in E.
      destruct (dget i (v_cbs p)) as [x|] eqn:G; [|discriminate]. apply dget_In in G.
      apply in_map_iff. exists (i, x). auto.
    - split; [discriminate|]. apply dmem_false, dget_None_notin in E. intros C. elim (E C). }
  destruct (v_remove p i) as [p' found]. auto.
Qed.
Print Assumptions C10_remove_reports.

(** C10.  When no callback disturbs the table, an assignment of a different
    value calls each registration once, in order, returns normally, and then
    exactly the one-shot registrations are gone. *)
Theorem C10_undisturbed_assignment :
  forall p v ts,
    v_reachable p ->
    Forall (fun e => ~ disruptive p (cb_act (fst (snd e)))) (v_cbs p) ->
    v_raw p <> v ->
    let '(p', calls, ok) := v_set p v ts in
    ok = true /\ calls = calls_of (v_cbs p) (v_raw p) v /\
    v_raw p' = k_store (v_kind p) v /\
    v_cbs p' = filter (fun e => negb (snd (snd e))) (v_cbs p).
Proof. intros p v ts R. apply set_harmless. apply reachable_inv. exact R. Qed.
Print Assumptions C10_undisturbed_assignment.

(** C10.  The first callback that raises, removes a live registration (its own
    included) or registers another one ends the assignment with an exception:
    the callbacks up to it were called, those after it are not, the value is
    stored, and one-shot registrations already called stay. *)
Theorem C10_disturbed_assignment :
  forall p v ts pre i c once post,
    v_reachable p -> v_raw p <> v -> v_cbs p = pre ++ (i, (c, once)) :: post ->
    Forall (fun e => ~ disruptive p (cb_act (fst (snd e)))) pre ->
    disruptive p (cb_act c) ->
    let '(p', calls, ok) := v_set p v ts in
    ok = false /\ calls = calls_of (pre ++ [(i, (c, once))]) (v_raw p) v /\
    v_raw p' = k_store (v_kind p) v /\
    match cb_act c with
    | APass | ARaise => v_cbs p' = v_cbs p
    | ARemove j => v_cbs p' = filter (fun e => negb (fst e =? j)) (v_cbs p)
    | ARegister t o => exists n, ~ In n (map fst (v_cbs p)) /\
        v_cbs p' = v_cbs p ++ [(n, (mkCbk t APass, o))]
    end.
Proof. intros p v ts pre i c once post R. apply set_disrupted. apply reachable_inv. exact R. Qed.
Print Assumptions C10_disturbed_assignment.
Example cb_disturbed :
  let p := fst (v_run (v_init U8 0 0)
             [VRegister (mkCbk 1 APass) true; VRegister (mkCbk 2 (ARegister 9 true)) false;
              VRegister (mkCbk 3 APass) false]) in
  v_reachable p /\ disruptive p (ARegister 9 true) /\ ~ disruptive p (ARemove 44) /\
  let '(p', calls, ok) := v_set p 9 1 in
  ok = false /\ v_raw p' = 9 /\ map c_id calls = [0; 1] /\ map fst (v_cbs p') = [0; 1; 2; 3].
Proof.
  split; [exists U8, 0, 0; eexists; reflexivity|]. split; [exact I|].
  split; [cbn; intuition discriminate|]. repeat split.
Qed.

(** C10.  Registering and removing never raise and call nobody. *)
Theorem C10_table_calls_are_quiet :
  forall p o, (forall v ts, o <> VSet v ts) ->
    o_ok (snd (v_step p o)) = true /\ o_calls (snd (v_step p o)) = [] /\
    v_raw (fst (v_step p o)) = v_raw p.
Proof.
  intros p o H. destruct o as [c once|i|v ts]; [auto| |elim (H v ts); reflexivity].
  cbn [v_step fst snd o_ok o_calls]. split; [reflexivity|]. split; [reflexivity|]. apply remove_rest.
Qed.
Print Assumptions C10_table_calls_are_quiet.
