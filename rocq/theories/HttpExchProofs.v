From Coq Require Import ZifyBool ZifyNat Lia.
From Verif Require Import Base BaseLemmas HttpExchModel HttpExchSpec.
Open Scope list_scope.

Definition opt {X} (o : option X) : list X := match o with Some x => [x] | None => [] end.

Lemma run_app s es es' : run s (es ++ es') = run (run s es) es'.
Proof. apply fold_left_app. Qed.
Lemma calls_app es es' : calls (es ++ es') = calls es ++ calls es'.
Proof. unfold calls. rewrite flat_map_app. reflexivity. Qed.
Lemma memb_in i l : existsb (Nat.eqb i) l = true <-> In i l.
Proof.
  rewrite existsb_exists. split; [intros (x & H & E); apply Nat.eqb_eq in E; subst; exact H|].
  intros H. exists i. split; [exact H|apply Nat.eqb_refl].
Qed.
Lemma stays_up_app es es' : stays_up (es ++ es') <-> stays_up es /\ stays_up es'.
Proof. unfold stays_up. rewrite !in_app_iff. tauto. Qed.

(** What holds in every state of a connection that stays up: where the responses to the
    requests sent are. *)
Definition Flow (s : ex) : Prop :=
  exists rest, x_sent s = map snd (x_results s) ++ opt (x_queue s) ++ opt (x_putting s) ++ rest /\
    (x_reading s = true -> rest = x_to_client s ++ x_to_server s).
Lemma flow_step s e : Flow s -> stays_up [e] -> Flow (step s e).
Proof.
  intros (rest & E & R) [U1 U2]. destruct e as [i|i| |i| | | | |]; try (exfalso; cbn [In] in *; tauto).
  - exists rest. cbn. auto.
  - cbn [step]. destruct (x_turn s); [exists rest; auto|]. destruct (existsb _ _); [|exists rest; auto].
    exists (rest ++ [i]). unfold acquire. cbn. rewrite E, <- !app_assoc. split; [reflexivity|]. intros H. rewrite (R H), <- app_assoc. reflexivity.
  - cbn [step]. destruct (x_turn s); [|exists rest; auto]. destruct (x_queue s) as [r|] eqn:Q; [|exists rest; rewrite Q; auto].
    exists rest. unfold wake. cbn. rewrite E, map_app. cbn. rewrite <- app_assoc. auto.
  - cbn [step]. unfold cancel. destruct (existsb _ _); [exists rest; cbn; auto|]. destruct (x_turn s) as [j|]; [|exists rest; auto].
    destruct (Nat.eqb i j); exists rest; cbn; auto.
  - cbn [step]. destruct (x_to_server s) as [|i r] eqn:T; [exists rest; rewrite T; auto|]. exists rest. cbn. split; auto.
    intros H. rewrite R by exact H. rewrite <- app_assoc. reflexivity.
  - cbn [step]. destruct (x_putting s) as [p|] eqn:P; [exists rest; rewrite P; auto|]. destruct (x_to_client s) as [|r c] eqn:T; [exists rest; rewrite P, T; auto|].
    destruct (x_reading s) eqn:Rd; [|exists rest; rewrite P, T, Rd; split; auto; discriminate].
    specialize (R eq_refl). unfold deliver. destruct (x_expecting s && negb (x_spoiled s)).
    + destruct (x_queue s) as [q|] eqn:Q; exists (c ++ x_to_server s); cbn; rewrite E, R; cbn; auto.
    + exists rest. cbn. split; auto; discriminate.
  - cbn [step]. destruct (x_putting s) as [p|] eqn:P; [|exists rest; rewrite P; auto]. destruct (x_queue s) as [q|] eqn:Q; [exists rest; rewrite P, Q; auto|].
    exists rest. cbn. rewrite E. cbn. auto.
Qed.
Lemma flow_run s es : Flow s -> stays_up es -> Flow (run s es).
Proof.
  revert s. induction es as [|e es IH]; intros s F U; [exact F|]. change (e :: es) with ([e] ++ es) in U. apply stays_up_app in U as [U1 U2].
  cbn [run fold_left]. apply IH; [apply flow_step; assumption|exact U2].
Qed.
Lemma flow_init : Flow ex_init.
Proof. exists []. auto. Qed.

(** Who was sent, who returned. *)
Definition kept (s : ex) : list nat := filter (fun i => negb (existsb (Nat.eqb i) (x_cancelled s))) (x_sent s).
Record Who (es : list event) (s : ex) : Prop := {
  w_nodup : NoDup (x_line s ++ x_sent s);
  w_calls : incl (x_line s ++ x_sent s ++ x_cancelled s) (calls es);
  w_line : forall i, In i (x_line s) -> ~ In i (x_cancelled s);
  w_kept : map fst (x_results s) ++ opt (x_turn s) = kept s;
  w_exp : x_turn s <> None -> x_expecting s = true
}.
Lemma who_init : Who [] ex_init.
Proof. split; cbn; try constructor; try tauto; try (intros x []); try congruence. Qed.
Lemma in_remove' i j l : In j (remove Nat.eq_dec i l) <-> In j l /\ j <> i.
Proof. split; [apply in_remove|]. intros [H N]. apply in_in_remove; assumption. Qed.
Lemma nodup_remove i l : NoDup l -> NoDup (remove Nat.eq_dec i l).
Proof.
  induction 1 as [|x l N H IH]; cbn; [constructor|]. destruct (Nat.eq_dec i x); [exact IH|]. constructor; [|exact IH].
  rewrite in_remove'. tauto.
Qed.
Lemma nodup_app (l m : list nat) : NoDup (l ++ m) <-> NoDup l /\ NoDup m /\ forall x, In x l -> ~ In x m.
Proof.
  induction l as [|a l IH]; cbn.
  - split; [intros H; repeat split; [constructor|exact H|tauto]|tauto].
  - rewrite !NoDup_cons_iff, IH, in_app_iff. split.
    + intros (N & H1 & H2 & H3). repeat split; try tauto. intros x [<-|Hx]; [tauto|]. apply H3, Hx.
    + intros ((N & H1) & H2 & H3). repeat split; try tauto; [intros [?|?]; [tauto|]; apply (H3 a); auto|]. intros x Hx. apply H3. auto.
Qed.
Lemma filter_same {X} (f g : X -> bool) l : (forall x, In x l -> f x = g x) -> filter f l = filter g l.
Proof. induction l as [|a l IH]; intros H; [reflexivity|]. cbn. rewrite (H a), IH; [reflexivity| |left; reflexivity]. intros x Hx. apply H. right. exact Hx. Qed.

Lemma who_step es s e : fresh (es ++ [e]) -> Who es s -> Who (es ++ [e]) (step s e).
Proof.
  intros Fr [N C L K X]. unfold fresh in Fr. rewrite calls_app in Fr.
  assert (Same : forall s', x_line s' = x_line s -> x_sent s' = x_sent s -> x_cancelled s' = x_cancelled s ->
    map fst (x_results s') ++ opt (x_turn s') = map fst (x_results s) ++ opt (x_turn s) -> (x_turn s' <> None -> x_expecting s' = true) -> Who (es ++ [e]) s').
  { intros s' E1 E2 E3 E4 E5. split; rewrite ?E1, ?E2, ?E3; auto.
    - rewrite calls_app. intros y Hy. apply in_or_app. left. apply C, Hy.
    - unfold kept. rewrite E2, E3, E4. exact K. }
  destruct e as [i|i| |i| | | | |]; cbn [step].
  - (* Call *) assert (Ni : ~ In i (x_line s ++ x_sent s ++ x_cancelled s)).
    { intros H. apply C in H. cbn in Fr. apply nodup_app in Fr as (_ & _ & Fr). apply (Fr i H). left. reflexivity. }
    rewrite !in_app_iff in Ni. split; cbn [x_line x_sent x_cancelled x_results x_turn x_expecting]; auto.
    + rewrite <- app_assoc. cbn [app]. apply nodup_app in N as (N1 & N2 & N3). apply nodup_app. repeat split; [exact N1|constructor; tauto|].
      intros x Hx [<-|Hs]; [tauto|]. apply (N3 x); assumption.
    + rewrite calls_app. cbn. intros y Hy. rewrite in_app_iff. rewrite !in_app_iff in Hy. cbn in Hy. destruct Hy as [[Hy|[<-|[]]]|Hy]; [|right; left; reflexivity|];
        left; apply C; rewrite !in_app_iff; tauto.
    + intros y Hy. apply in_app_iff in Hy as [Hy|[<-|[]]]; [apply L, Hy|tauto].
  - (* Acquire *) destruct (x_turn s) as [t|] eqn:T; [apply Same; auto; rewrite T; auto|]. destruct (existsb _ _) eqn:M; [|apply Same; auto; rewrite ?T; auto; congruence].
    apply memb_in in M. split; cbn [acquire x_line x_sent x_cancelled x_results x_turn x_expecting].
    + apply nodup_app in N as (N1 & N2 & N3). apply nodup_app. repeat split; [apply nodup_remove, N1| |].
      * apply nodup_app. repeat split; [exact N2|repeat constructor; tauto|]. intros x Hx [<-|[]]. apply (N3 i M Hx).
      * intros x Hx. apply in_remove' in Hx as [Hx Hn]. rewrite in_app_iff. intros [H|[H|[]]]; [apply (N3 x Hx H)|congruence].
    + rewrite calls_app. intros y Hy. rewrite !in_app_iff, in_remove' in Hy. cbn in Hy. apply in_or_app. left. apply C. rewrite !in_app_iff.
      destruct Hy as [[Hy _]|[[Hy|[<-|[]]]|Hy]]; tauto.
    + intros y Hy. apply in_remove' in Hy as [Hy _]. apply L, Hy.
    + unfold kept in *. cbn [acquire x_sent x_cancelled]. rewrite filter_app, <- K. rewrite app_nil_r. cbn [filter opt].
      destruct (existsb (Nat.eqb i) (x_cancelled s)) eqn:Q; [apply memb_in in Q; exfalso; apply (L i M Q)|]. reflexivity.
    + auto.
  - (* Wake *) destruct (x_turn s) as [t|] eqn:T; [|apply Same; auto; rewrite ?T; auto; congruence]. destruct (x_queue s) as [r|]; [|apply Same; auto; rewrite ?T; auto].
    apply Same; auto; cbn; try congruence. rewrite map_app, app_nil_r. reflexivity.
  - (* Cancel *) unfold cancel. destruct (existsb (Nat.eqb i) (x_line s)) eqn:M.
    + apply memb_in in M. split; cbn [x_line x_sent x_cancelled x_results x_turn x_expecting]; auto.
      * apply nodup_app in N as (N1 & N2 & N3). apply nodup_app. repeat split; [apply nodup_remove, N1|exact N2|].
        intros x Hx. apply in_remove' in Hx as [Hx Hn]. apply N3, Hx.
      * rewrite calls_app. intros y Hy. rewrite !in_app_iff, in_remove' in Hy. cbn in Hy. apply in_or_app. left. apply C. rewrite !in_app_iff.
        destruct Hy as [[Hy _]|[Hy|[Hy|[<-|[]]]]]; tauto.
      * intros y Hy. apply in_remove' in Hy as [Hy Hn]. rewrite in_app_iff. intros [H|[H|[]]]; [apply (L y Hy H)|congruence].
      * rewrite K. unfold kept. cbn [x_sent x_cancelled]. apply filter_same. intros x Hx. rewrite existsb_app. cbn [existsb].
        apply nodup_app in N as (_ & _ & N3). destruct (Nat.eqb_spec x i) as [->|Ne]; [exfalso; apply (N3 i M Hx)|]. rewrite !orb_false_r. reflexivity.
    + destruct (x_turn s) as [t|] eqn:T; [|apply Same; auto; rewrite ?T; auto; congruence]. destruct (Nat.eqb_spec i t) as [->|Ne]; [|apply Same; auto; rewrite ?T; auto].
      assert (Ht : In t (x_sent s)).
      { assert (H : In t (kept s)) by (rewrite <- K; apply in_or_app; right; left; reflexivity). unfold kept in H. apply filter_In in H. tauto. }
      split; cbn [x_line x_sent x_cancelled x_results x_turn x_expecting]; auto.
      * rewrite calls_app. intros y Hy. rewrite !in_app_iff in Hy. cbn in Hy. apply in_or_app. left. apply C. rewrite !in_app_iff.
        destruct Hy as [Hy|[Hy|[Hy|[<-|[]]]]]; tauto.
      * intros y Hy. rewrite in_app_iff. intros [H|[<-|[]]]; [apply (L y Hy H)|]. apply nodup_app in N as (_ & _ & N3). apply (N3 t Hy Ht).
      * rewrite app_nil_r. unfold kept in *. cbn [x_sent x_cancelled].
        assert (E : filter (fun i => negb (existsb (Nat.eqb i) (x_cancelled s ++ [t]))) (x_sent s)
                  = filter (fun i => negb (Nat.eqb i t)) (filter (fun i => negb (existsb (Nat.eqb i) (x_cancelled s))) (x_sent s))).
        { clear. induction (x_sent s) as [|a l IH]; [reflexivity|]. cbn [filter]. rewrite existsb_app. cbn [existsb]. rewrite orb_false_r.
          destruct (existsb (Nat.eqb a) (x_cancelled s)) eqn:Q; cbn [negb orb filter]; [exact IH|]. destruct (Nat.eqb a t); cbn [negb]; rewrite IH; reflexivity. }
        rewrite E, <- K. assert (Nk : NoDup (map fst (x_results s) ++ [t])).
        { change [t] with (opt (Some t)). rewrite K. apply NoDup_filter. apply nodup_app in N. tauto. }
        rewrite filter_app. cbn [opt filter]. rewrite Nat.eqb_refl. cbn [negb]. rewrite app_nil_r.
        apply nodup_app in Nk as (_ & _ & Nk). clear - Nk. induction (map fst (x_results s)) as [|a l IH]; [reflexivity|]. cbn [filter].
        destruct (Nat.eqb_spec a t) as [->|]; [exfalso; apply (Nk t); left; reflexivity|]. cbn [negb]. f_equal. apply IH. intros x Hx. apply Nk. right. exact Hx.
  - destruct (x_to_server s); apply Same; auto.
  - destruct (x_putting s); [apply Same; auto|]. destruct (x_to_client s); [apply Same; auto|]. destruct (x_reading s); [|apply Same; auto].
    unfold deliver. destruct (x_expecting s && negb (x_spoiled s)) eqn:Q; [destruct (x_queue s)|]; apply Same; auto.
  - destruct (x_putting s); [|apply Same; auto]. destruct (x_queue s); apply Same; auto.
  - apply Same; auto.
  - apply Same; auto.
Qed.
Lemma fresh_app es es' : fresh (es ++ es') -> fresh es.
Proof. unfold fresh. rewrite calls_app. intros H. apply nodup_app in H. tauto. Qed.
Lemma who_run es : fresh es -> Who es (run ex_init es).
Proof.
  induction es as [|e es IH] using rev_ind; intros F; [apply who_init|]. rewrite run_app. cbn [run fold_left].
  apply who_step; [exact F|]. apply IH, (fresh_app es [e] F).
Qed.

(** Without cancelling and without loss nothing goes wrong. *)
Lemma no_cancel_run es : fresh es -> nothing_cancelled es -> stays_up es ->
  let s := run ex_init es in x_cancelled s = [] /\ x_reading s = true /\ x_spoiled s = false.
Proof.
  induction es as [|e es IH] using rev_ind; intros F NC U; [cbn; auto|].
  assert (NC' : nothing_cancelled es) by (intros i H; apply (NC i), in_or_app; left; exact H).
  apply stays_up_app in U as [U Ue]. specialize (IH (fresh_app _ _ F) NC' U). cbv zeta in *. rewrite run_app. cbn [run fold_left].
  pose proof (who_run es (fresh_app _ _ F)) as W. pose proof (flow_run ex_init es flow_init U) as Fl.
  destruct (run ex_init es) as [line turn exp q pt rd sp ts tc sent res can]. cbn in IH. destruct IH as (-> & -> & ->).
  destruct e as [i|i| |i| | | | |]; cbn; auto.
  - destruct turn; [cbn; auto|]. destruct (existsb _ _); cbn; auto.
  - destruct turn; cbn; auto. destruct q; cbn; auto.
  - exfalso. apply (NC i), in_or_app. right. left. reflexivity.
  - destruct ts; cbn; auto.
  - destruct pt; [cbn; auto|]. destruct tc as [|r tc]; [cbn; auto|]. unfold deliver. cbn.
    assert (turn <> None).
    { intros ->. destruct Fl as (rest & E & R). cbn in E, R. rewrite (R eq_refl) in E. destruct W as [_ _ _ K _]. unfold kept in K. cbn in K.
      rewrite app_nil_r in K.
      assert (Ft : filter (fun _ : nat => true) sent = sent) by (clear; induction sent; cbn; congruence). rewrite Ft in K. subst sent.
      apply (f_equal (@List.length nat)) in E. rewrite !app_length, !map_length in E. cbn in E. lia. }
    destruct W as [_ _ _ _ X]. cbn in X. rewrite X by assumption. destruct q; cbn; auto.
  - destruct pt; cbn; auto. destruct q; cbn; auto.
  - exfalso. destruct Ue as [Ue _]. apply Ue. left. reflexivity.
Qed.
