(** Remote log entries. *)
From Verif Require Import Base BaseLemmas IfaceModel IfaceSpec IfaceProofs IfaceSys IfaceStd.
From Coq Require Import ZifyBool ZifyNat Lia.
Open Scope string_scope.
Open Scope list_scope.
Open Scope Z_scope.

Section Logs.
  Context {S : Type} (evaluate : string -> option (target S)).
  Notation step := (step evaluate).
  Notation step_st := (step_st evaluate).
  Notation run := (run evaluate).
  (** No handler answers under the reserved log key. *)
  Context (NK : forall k t, evaluate k = Some t -> t_key t <> k_log).

  Lemma send_json_logs st d st' o : send_json st d = (st', o) -> dget k_log d = None ->
    exists m, o = Some m /\ logs_in m = i_logs st /\ i_logs st' = [].
  Proof.
    unfold send_json, logs_in. destruct (i_logs st) as [|l ls] eqn:E.
    - intros H Hd. injection H as <- <-. exists d. rewrite Hd. auto.
    - intros H Hd. apply dmem_false in Hd. rewrite Hd in H. injection H as <- <-. eexists. split; [reflexivity|].
      rewrite dget_dset_eq. auto.
  Qed.

  Lemma collect_keys d : forall ts ig, collect evaluate d = Some (ts, ig) ->
    forall k t ib, In (k, Some (t, ib)) ts -> k = t_key t /\ exists k0, evaluate k0 = Some t.
  Proof.
    induction d as [|[k j] d IH]; cbn [collect]; intros ts ig H.
    - injection H as <- <-. intros ? ? ? [].
    - destruct (evaluate k) as [t|] eqn:Ek.
      + destruct (t_prep t j) as [ib|]; [|discriminate]. destruct (collect evaluate d) as [[ts' ig']|]; [|discriminate].
        injection H as <- <-. intros k1 t1 ib1 [H|H]; [injection H as <- <- <-; eauto|eapply IH; eauto].
      + destruct (collect evaluate d) as [[ts' ig']|]; [|discriminate].
        destruct (reserved k); injection H as <- <-; intros k1 t1 ib1 H1; [destruct H1 as [H1|H1]; [discriminate|]|]; eapply IH; eauto.
  Qed.
  Lemma gather_keys ts : forall (s s' : S) l, gather s ts = (s', Some l) ->
    forall k b, In (k, b) l -> b <> [] -> exists t ib, In (k, Some (t, ib)) ts.
  Proof.
    induction ts as [|[k [[t ib]|]] ts IH]; cbn [gather]; intros s s' l H.
    - injection H as <- <-. intros ? ? [].
    - destruct (t_run t s ib) as [s1 [b0|]]; destruct (gather s1 ts) as [s2 [l2|]] eqn:Eg; try (injection H; discriminate); try discriminate.
      injection H as <- <-. intros k1 b1 [H|H] Hb.
      + injection H as <- <-. exists t, ib. left. reflexivity.
      + destruct (IH _ _ _ Eg k1 b1 H Hb) as (t1 & ib1 & H1). exists t1, ib1. right. exact H1.
    - destruct (gather s ts) as [s2 [l2|]] eqn:Eg; [|discriminate]. injection H as <- <-. intros k1 b1 [H|H] Hb.
      + injection H as <- <-. destruct (Hb eq_refl).
      + destruct (IH _ _ _ Eg k1 b1 H Hb) as (t1 & ib1 & H1). exists t1, ib1. right. exact H1.
  Qed.
  Lemma answer_no_log d ts ig (s s' : S) subs : collect evaluate d = Some (ts, ig) -> gather s ts = (s', Some subs) ->
    dget k_log (answer subs ig) = None.
  Proof.
    intros Hc Hg. apply dget_None_notin. unfold dkeys. intros H. apply in_map_iff in H as ([k j] & E & H). cbn in E. subst k.
    apply answer_In in H as [[E _]|(b & Hb & Hne & _)]; [discriminate|].
    destruct (gather_keys _ _ _ _ Hg _ _ Hb Hne) as (t & ib & Hi). destruct (collect_keys _ _ _ Hc _ _ _ Hi) as (E & k0 & Hk).
    apply (NK _ _ Hk). auto.
  Qed.

  Definition op_clean (o : op) : Prop :=
    match o with OSend d f | OWait d f => f = false /\ dget k_log d = None | _ => True end.
  Definition op_staged (o : op) : list json := match o with OLog l => [l] | _ => [] end.

  Lemma step_logs x o x' out ok : step x o = (x', out, ok) -> op_clean o ->
    List.concat (map logs_in out) ++ i_logs (snd x') = i_logs (snd x) ++ op_staged o.
  Proof.
    destruct x as [s st]. destruct o; cbn [IfaceModel.step op_clean op_staged]; intros H C.
    - injection H as <- <- <-. reflexivity.
    - destruct C as [-> C]. destruct (send_json st d) as [st' o] eqn:E. apply send_json_logs in E as (m & -> & L & N); [|exact C].
      injection H as <- <- <-. cbn. rewrite N, L, !app_nil_r. reflexivity.
    - destruct C as [-> C]. unfold wait_json in H. destruct (dmem k_id d); [injection H as <- <- <-; cbn; rewrite app_nil_r; reflexivity|].
      cbn [id_next i_waiting] in H. destruct (dmem (id_cur (i_ident st)) (i_waiting st)); [injection H as <- <- <-; cbn; rewrite app_nil_r; reflexivity|].
      match type of H with context [send_json ?a ?b] => destruct (send_json a b) as [st' o] eqn:E end.
      apply send_json_logs in E as (m & -> & L & N).
      + injection H as <- <- <-. cbn. rewrite N, L. cbn. rewrite !app_nil_r. reflexivity.
      + rewrite dget_dset_ne by discriminate. exact C.
    - rewrite app_nil_r. destruct (process_json evaluate s st d) as [[[s' st'] out'] ok'] eqn:P. injection H as <- <- <-.
      unfold process_json in P. destruct (collect evaluate d) as [[ts ig]|] eqn:Ec; [|injection P as <- <- <- <-; reflexivity].
      destruct (gather s ts) as [s1 [subs|]] eqn:Eg; [|injection P as <- <- <- <-; reflexivity].
      pose proof (answer_no_log _ _ _ _ _ _ Ec Eg) as AN.
      destruct (handle_reserved st d (answer subs ig)) as [st1 o] eqn:HR.
      apply reserved_cases in HR as [[_ L1] [(_ & _ & _ & _ & Ho)|(z & r & m & _ & _ & _ & _ & _ & Ho)]].
      + destruct Ho as [->|(resp & -> & R1 & R2)]; [injection P as <- <- <- <-; exact L1|].
        assert (dget k_log resp = None) as RN.
        { destruct (dget k_id d) as [j|]; [rewrite (R2 j eq_refl), dget_dset_ne by discriminate; exact AN|rewrite (R1 eq_refl); exact AN]. }
        destruct resp as [|p resp]; [injection P as <- <- <- <-; exact L1|].
        destruct (send_json st1 (p :: resp)) as [st2 o] eqn:E. apply send_json_logs in E as (m & -> & L & N); [|exact RN].
        injection P as <- <- <- <-. cbn. rewrite N, L, !app_nil_r. exact L1.
      + assert (st' = st1 /\ out' = []) as [-> ->].
        { destruct Ho as [->|(resp & ->)]; injection P as <- <- <- <-; auto. }
        exact L1.
    - injection H as <- <- <-. cbn. rewrite app_nil_r. unfold wake. destruct (nth_error (i_reqs st) r) as [[id [| | | |]]|] eqn:E; try reflexivity.
      destruct (dget id (i_resp st)); erewrite status_reqs by exact E; reflexivity.
    - injection H as <- <- <-. cbn. rewrite app_nil_r. unfold time_out. destruct (nth_error (i_reqs st) r) as [[id [| | | |]]|] eqn:E; try reflexivity;
        erewrite status_reqs by exact E; reflexivity.
  Qed.

  Lemma run_logs ops : forall x, clean ops ->
    List.concat (map logs_in (sent evaluate x ops)) ++ i_logs (snd (run x ops)) = i_logs (snd x) ++ staged ops.
  Proof.
    induction ops as [|o ops IH]; intros x C; [cbn; rewrite app_nil_r; reflexivity|].
    assert (C' : clean ops) by (intros d f H; apply (C d f); cbn; tauto).
    assert (Co : op_clean o).
    { destruct o; cbn; auto; apply C; cbn; auto. }
    cbn [sent]. unfold IfaceModel.run. cbn [fold_left]. fold (run (step_st x o) ops).
    rewrite map_app, concat_app, <- app_assoc, IH by exact C'. unfold IfaceModel.step_st.
    destruct (step x o) as [[x' out] ok] eqn:E. cbn [fst snd]. rewrite app_assoc. rewrite (step_logs _ _ _ _ _ E Co).
    rewrite <- app_assoc. f_equal. destruct o; reflexivity.
  Qed.

  (** Receiving: a message that is handled passes its entries to the logger. *)
  Lemma recv_logs s st d x' out : step (s, st) (ORecv d) = (x', out, true) ->
    i_seen (snd x') = i_seen st ++ logs_in d.
  Proof.
    cbn [IfaceModel.step]. destruct (process_json evaluate s st d) as [[[s' st'] out'] ok'] eqn:P. intros H; injection H as <- <- ->.
    cbn [snd]. unfold process_json in P. destruct (collect evaluate d) as [[ts ig]|]; [|discriminate].
    destruct (gather s ts) as [s1 [subs|]]; [|discriminate].
    destruct (handle_reserved st d (answer subs ig)) as [st1 o] eqn:HR.
    assert (o <> None -> i_seen st1 = i_seen st ++ logs_in d) as L.
    { unfold handle_reserved in HR. unfold logs_in.
      assert (Ev : forall st r, i_seen (set_event st r) = i_seen st).
      { intros a r. unfold set_event, set_status. destruct (nth_error (i_reqs a) r) as [[? [| | | |]]|]; reflexivity. }
      assert (Lo : forall j l, logs_of j = Some l -> match j with JArr l0 => l0 | _ => [] end = l).
      { intros j l. destruct j; try discriminate. cbn. destruct (forallb log_ok l0); [congruence|discriminate]. }
      assert (Dd : dget k_log (ddel k_id d) = dget k_log d) by (apply dget_ddel_ne; discriminate).
      destruct (dget k_id d) as [j|].
      - destruct (ident_of j) as [i|]; [|injection HR as <- <-; congruence].
        match type of HR with context [match ?X with Some _ => _ | None => _ end] =>
          match X with match i with _ => _ end => destruct X as [[z r]|] end end.
        + rewrite Dd in HR. destruct (dget k_log d) as [l|].
          * destruct (logs_of l) as [ls|] eqn:El; injection HR as <- <-; [|congruence]. intros _. cbn. rewrite Ev. cbn.
            rewrite <- (Lo _ _ El). destruct l; reflexivity.
          * injection HR as <- <-. intros _. rewrite Ev, app_nil_r. reflexivity.
        + destruct (dget k_log d) as [l|].
          * destruct (logs_of l) as [ls|] eqn:El; injection HR as <- <-; [|congruence]. intros _. cbn. 
            rewrite <- (Lo _ _ El). destruct l; reflexivity.
          * injection HR as <- <-. rewrite app_nil_r. reflexivity.
      - destruct (dget k_log d) as [l|].
        + destruct (logs_of l) as [ls|] eqn:El; injection HR as <- <-; [|congruence]. intros _. cbn. 
          rewrite <- (Lo _ _ El). destruct l; reflexivity.
        + injection HR as <- <-. rewrite app_nil_r. reflexivity. }
    destruct o as [[resp b]|]; [|discriminate]. rewrite <- L by discriminate.
    destruct b; [|injection P as <- <- <-; reflexivity]. destruct resp as [|p resp]; [injection P as <- <- <-; reflexivity|].
    destruct (send_json st1 (p :: resp)) as [st2 [m|]] eqn:E; [|discriminate]. injection P as <- <- <-.
    apply send_json_cases in E as (_ & _ & _ & _ & E & _). exact E.
  Qed.
End Logs.
