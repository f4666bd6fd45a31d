(** Lemmas for C09 and C10. *)
From Verif Require Import Base BaseLemmas PrimModel PrimSpec PrimProofs
  CallbackModel CallbackSpec.

Definition CInv (p : cprim) : Prop :=
  NoDup (dkeys (v_cbs p)) /\ (forall i, In i (dkeys (v_cbs p)) -> i < v_next p).

Lemma dkeys_ddel {K V} {KD : EqDec K} (k : K) (d : list (K * V)) x :
  In x (dkeys (ddel k d)) <-> In x (dkeys d) /\ x <> k.
Proof.
  induction d as [|[k' v'] d IH]; cbn; [tauto|].
  destruct (eq_dec k k') as [<-|Hne].
  - rewrite IH. intuition congruence.
  - cbn. rewrite IH. intuition congruence.
Qed.
Lemma NoDup_ddel {K V} {KD : EqDec K} (k : K) (d : list (K * V)) :
  NoDup (dkeys d) -> NoDup (dkeys (ddel k d)).
Proof.
  induction d as [|[k' v'] d IH]; cbn; intros H; [constructor|].
  inversion H as [|? ? Hn Hd]; subst. destruct (eq_dec k k'); [auto|].
  cbn. constructor; [|auto]. intros Hin. apply dkeys_ddel in Hin. tauto.
Qed.

(** The table only loses entries or gains fresh ones; [v_next] never goes back. *)
Definition CExt (p q : cprim) : Prop :=
  v_next p <= v_next q /\
  (forall e, In e (v_cbs q) -> In e (v_cbs p) \/ v_next p <= fst e).

Lemma CExt_refl p : CExt p p.
Proof. split; [lia|auto]. Qed.
Lemma CExt_trans p q r : CExt p q -> CExt q r -> CExt p r.
Proof.
  intros [A B] [C D]. split; [lia|]. intros e He. destruct (D e He) as [H|H]; [|right; lia].
  destruct (B e H); auto.
Qed.

Lemma ddel_incl {K V} {KD : EqDec K} (k : K) (d : list (K * V)) e :
  In e (ddel k d) -> In e d.
Proof.
  induction d as [|[k' v'] d IH]; cbn; [auto|].
  destruct (eq_dec k k'); cbn; intuition.
Qed.

Lemma remove_inv p i : CInv p -> CInv (fst (v_remove p i)) /\ CExt p (fst (v_remove p i)).
Proof.
  intros [Hn Hl]. unfold v_remove. destruct (dmem i (v_cbs p)); cbn.
  - split; split; cbn; [apply NoDup_ddel; exact Hn| |lia|].
    + intros j Hj. apply dkeys_ddel in Hj. apply Hl; tauto.
    + intros e He. left. eapply ddel_incl; eauto.
  - split; [split; assumption|apply CExt_refl].
Qed.

Lemma remove_gone p i : ~ In i (dkeys (v_cbs (fst (v_remove p i)))).
Proof.
  unfold v_remove. destruct (dmem i (v_cbs p)) eqn:E; cbn.
  - intros H. apply dkeys_ddel in H. tauto.
  - apply dmem_false in E. apply dget_None_notin in E. exact E.
Qed.

Lemma register_cbs p c once : CInv p ->
  v_cbs (fst (v_register p c once)) = v_cbs p ++ [(v_next p, (c, once))].
Proof.
  intros [_ Hl]. cbn. apply dset_notin. apply dget_None_notin.
  intros H. apply Hl in H. lia.
Qed.

Lemma register_inv p c once :
  CInv p -> CInv (fst (v_register p c once)) /\ CExt p (fst (v_register p c once)).
Proof.
  intros HI. pose proof (register_cbs p c once HI) as Hc. destruct HI as [Hn Hl].
  split; split.
  - rewrite Hc. unfold dkeys. rewrite map_app. cbn.
    apply NoDup_app; [exact Hn|repeat constructor; auto|].
    intros x Hx [<-|[]]. apply Hl in Hx. lia.
  - rewrite Hc. unfold dkeys. rewrite map_app. cbn. intros i Hi.
    apply in_app_iff in Hi. destruct Hi as [Hi|[<-|[]]]; [apply Hl in Hi|]; lia.
  - cbn. lia.
  - rewrite Hc. intros e He. apply in_app_iff in He. destruct He as [He|[<-|[]]]; cbn; auto.
    right; lia.
Qed.

Lemma act_inv p a : CInv p -> CInv (fst (v_act p a)) /\ CExt p (fst (v_act p a)).
Proof.
  intros HI. destruct a; cbn [v_act fst].
  - split; [exact HI|apply CExt_refl].
  - split; [exact HI|apply CExt_refl].
  - apply remove_inv; exact HI.
  - apply (register_inv p (mkCbk tag APass) once HI).
Qed.

Lemma dispatch_inv todo : forall p size curr new rm p' log r,
  CInv p -> v_dispatch p size todo curr new rm = (p', log, r) ->
  CInv p' /\ CExt p p' /\
  (exists rest, map c_id log ++ rest = dkeys todo).
Proof.
  induction todo as [|[i [c once]] todo IH]; cbn [v_dispatch]; intros p size curr new rm p' log r HI H.
  - injection H as <- <- <-. split; [exact HI|]. split; [apply CExt_refl|].
    exists []. reflexivity.
  - pose proof (act_inv p (cb_act c) HI) as [HI1 HE1].
    destruct (v_act p (cb_act c)) as [p1 ok] eqn:Ea. cbn [fst] in *.
    destruct (negb ok).
    { injection H as <- <- <-. split; [exact HI1|]. split; [exact HE1|].
      exists (dkeys todo). reflexivity. }
    destruct (negb (Nat.eqb (List.length (v_cbs p1)) size)).
    { injection H as <- <- <-. split; [exact HI1|]. split; [exact HE1|].
      exists (dkeys todo). reflexivity. }
    destruct (v_dispatch p1 size todo curr new (if once then rm ++ [i] else rm))
      as [[p2 log2] r2] eqn:Ed.
    injection H as <- <- <-. destruct (IH _ _ _ _ _ _ _ _ HI1 Ed) as (A & B & rest & C).
    split; [exact A|]. split; [eapply CExt_trans; eauto|].
    exists rest. cbn. rewrite C. reflexivity.
Qed.

Lemma fold_remove_inv rm : forall p,
  CInv p ->
  CInv (fold_left (fun q i => fst (v_remove q i)) rm p) /\
  CExt p (fold_left (fun q i => fst (v_remove q i)) rm p) /\
  (forall e, In e (v_cbs (fold_left (fun q i => fst (v_remove q i)) rm p)) ->
     In e (v_cbs p) /\ ~ In (fst e) rm).
Proof.
  induction rm as [|i rm IH]; cbn [fold_left]; intros p HI.
  - split; [exact HI|]. split; [apply CExt_refl|]. cbn; auto.
  - destruct (remove_inv p i HI) as [HI1 HE1].
    destruct (IH _ HI1) as (A & B & C). split; [exact A|]. split; [eapply CExt_trans; eauto|].
    intros e He. destruct (C e He) as [D E]. split.
    + unfold v_remove in D. destruct (dmem i (v_cbs p)); cbn in D; [|exact D].
      eapply ddel_incl; eauto.
    + intros [Hi|F]; [|tauto]. subst i.
      apply (remove_gone p (fst e)). unfold dkeys. apply in_map; exact D.
Qed.

Lemma set_inv p v ts p' log ok :
  CInv p -> v_set p v ts = (p', log, ok) ->
  CInv p' /\ CExt p p' /\ NoDup (map c_id log) /\
  (forall c, In c log -> In (c_id c) (dkeys (v_cbs p))).
Proof.
  intros HI. unfold v_set, v_check. cbn [v_cbs].
  set (p0 := mkCprim _ _ _ _ _).
  assert (HI0 : CInv p0) by exact HI. assert (HE0 : CExt p p0) by (split; [cbn; lia|auto]).
  destruct (v_cbs p) as [|ce cl] eqn:Ec.
  { intros H; injection H as <- <- <-. split; [exact HI0|]. split; [exact HE0|].
    split; [constructor|intros ? []]. }
  destruct (v_raw p =? v).
  { intros H; injection H as <- <- <-. split; [exact HI0|]. split; [exact HE0|].
    split; [constructor|intros ? []]. }
  rewrite <- Ec. intros H.
  destruct (v_dispatch p0 _ (v_cbs p) (v_raw p) v []) as [[p1 l1] r1] eqn:Ed.
  destruct (dispatch_inv _ _ _ _ _ _ _ _ _ HI0 Ed) as (A & B & rest & C).
  assert (N : NoDup (map c_id l1) /\ (forall c, In c l1 -> In (c_id c) (dkeys (v_cbs p)))).
  { split.
    - apply (NoDup_app_l _ rest). rewrite C. apply HI.
    - intros c Hc. rewrite <- C. apply in_app_iff. left. apply in_map; exact Hc. }
  destruct r1 as [rm|]; injection H as <- <- <-.
  - destruct (fold_remove_inv rm p1 A) as (A1 & B1 & _).
    split; [exact A1|]. split; [|exact N]. eapply CExt_trans; [exact HE0|].
    eapply CExt_trans; eauto.
  - split; [exact A|]. split; [|exact N]. eapply CExt_trans; eauto.
Qed.

Lemma step_inv p o p' out :
  CInv p -> v_step p o = (p', out) ->
  CInv p' /\ CExt p p' /\ NoDup (map c_id (o_calls out)) /\
  (forall c, In c (o_calls out) -> In (c_id c) (dkeys (v_cbs p))) /\
  (forall i, o_ident out = Some i -> i = v_next p /\ v_next p < v_next p').
Proof.
  intros HI. destruct o; cbn [v_step].
  - destruct (v_register p c once) as [q i] eqn:E. intros H; injection H as <- <-.
    pose proof (register_inv p c once HI) as [A B]. rewrite E in *. cbn [fst] in *.
    split; [exact A|]. split; [exact B|]. split; [constructor|]. split; [intros ? []|].
    cbn. intros j Hj. injection Hj as <-. unfold v_register in E. injection E as <- <-.
    cbn. split; [reflexivity|lia].
  - intros H; injection H as <- <-. pose proof (remove_inv p i HI) as [A B].
    split; [exact A|]. split; [exact B|]. split; [constructor|]. split; [intros ? []|].
    cbn. discriminate.
  - destruct (v_set p value ts) as [[q log] ok] eqn:E. intros H; injection H as <- <-.
    destruct (set_inv _ _ _ _ _ _ HI E) as (A & B & C & D).
    split; [exact A|]. split; [exact B|]. split; [exact C|]. split; [exact D|].
    cbn. discriminate.
Qed.

Lemma run_inv ops : forall p p' outs,
  CInv p -> v_run p ops = (p', outs) ->
  CInv p' /\ CExt p p' /\
  (forall i, In i (all_idents outs) -> v_next p <= i < v_next p') /\
  NoDup (all_idents outs) /\
  (forall c, In c (all_calls outs) ->
     In (c_id c) (dkeys (v_cbs p)) \/ v_next p <= c_id c).
Proof.
  induction ops as [|o ops IH]; cbn [v_run]; intros p p' outs HI H.
  - injection H as <- <-. split; [exact HI|]. split; [apply CExt_refl|].
    cbn. repeat split; try tauto; try constructor.
  - destruct (v_step p o) as [p1 out] eqn:Es. destruct (v_run p1 ops) as [p2 outs2] eqn:Er.
    injection H as <- <-.
    destruct (step_inv _ _ _ _ HI Es) as (A & B & _ & D & E).
    destruct (IH _ _ _ A Er) as (A2 & B2 & C2 & D2 & E2).
    split; [exact A2|]. split; [eapply CExt_trans; eauto|].
    assert (Hnx : v_next p <= v_next p1) by apply B.
    assert (Hnx2 : v_next p1 <= v_next p2) by apply B2.
    unfold all_idents in *; cbn [flat_map].
    destruct (o_ident out) as [i|] eqn:Ei.
    + destruct (E i eq_refl) as [-> Hlt]. cbn [app]. split.
      { intros j [<-|Hj]; [lia|]. apply C2 in Hj. lia. }
      split.
      { constructor; [|exact D2]. intros Hj. apply C2 in Hj. lia. }
      unfold all_calls; cbn [flat_map]. intros c Hc. apply in_app_iff in Hc.
      destruct Hc as [Hc|Hc]; [left; apply D; exact Hc|].
      apply E2 in Hc. destruct Hc as [Hc|Hc]; [|right; lia].
      apply in_map_iff in Hc as (e & He & Hin). destruct B as [_ B].
      destruct (B e Hin) as [Hin'|Hge]; [left|right; lia].
      rewrite <- He. apply in_map; exact Hin'.
    + cbn [app]. split. { intros j Hj. apply C2 in Hj. lia. }
      split; [exact D2|].
      unfold all_calls; cbn [flat_map]. intros c Hc. apply in_app_iff in Hc.
      destruct Hc as [Hc|Hc]; [left; apply D; exact Hc|].
      apply E2 in Hc. destruct Hc as [Hc|Hc]; [|right; lia].
      apply in_map_iff in Hc as (e & He & Hin). destruct B as [_ B].
      destruct (B e Hin) as [Hin'|Hge]; [left|right; lia].
      rewrite <- He. apply in_map; exact Hin'.
Qed.

Lemma init_inv k v ts : CInv (v_init k v ts).
Proof. split; cbn; [constructor|tauto]. Qed.

Lemma reachable_inv p : v_reachable p -> CInv p.
Proof.
  intros (k & v & ts & ops & ->).
  destruct (v_run (v_init k v ts) ops) as [p outs] eqn:E.
  apply (run_inv ops _ _ _ (init_inv k v ts) E).
Qed.

Lemma idents_unique k v ts ops :
  NoDup (all_idents (snd (v_run (v_init k v ts) ops))).
Proof.
  destruct (v_run (v_init k v ts) ops) as [p outs] eqn:E.
  apply (run_inv ops _ _ _ (init_inv k v ts) E).
Qed.

Lemma ident_fresh p c once :
  v_reachable p -> ~ In (snd (v_register p c once)) (dkeys (v_cbs p)).
Proof.
  intros H. apply reachable_inv in H. intros Hin. apply H in Hin. cbn in Hin. lia.
Qed.

Lemma gone_never_called p i ops :
  CInv p -> ~ In i (dkeys (v_cbs p)) -> i < v_next p ->
  times_called i (all_calls (snd (v_run p ops))) = 0%nat.
Proof.
  intros HI Hn Hlt. destruct (v_run p ops) as [p' outs] eqn:E. cbn [snd].
  destruct (run_inv ops _ _ _ HI E) as (_ & _ & _ & _ & Hc).
  unfold times_called.
  assert (forall cs, (forall c, In c cs -> c_id c <> i) ->
            filter (fun c => c_id c =? i) cs = []) as G.
  { induction cs as [|c cs IHc]; cbn; intros Hcs; [reflexivity|].
    destruct (Z.eqb_spec (c_id c) i) as [He|He].
    - exfalso. apply (Hcs c); auto.
    - apply IHc. auto. }
  rewrite G; [reflexivity|]. intros c Hin He. destruct (Hc c Hin) as [H|H].
  - rewrite He in H. tauto.
  - lia.
Qed.

Lemma removed_never_fires p i ops :
  v_reachable p -> In i (dkeys (v_cbs p)) ->
  let p1 := fst (v_remove p i) in
  times_called i (all_calls (snd (v_run p1 ops))) = 0%nat.
Proof.
  intros H Hin p1. apply reachable_inv in H.
  pose proof (remove_inv p i H) as [A B].
  apply gone_never_called; [exact A|apply remove_gone|].
  destruct B as [B _]. apply H in Hin. unfold p1. lia.
Qed.

(** A dispatch that completes has called every entry and lists exactly the
    one-shot ones for removal. *)
Lemma dispatch_done todo : forall p size curr new rm p' log rm',
  v_dispatch p size todo curr new rm = (p', log, Some rm') ->
  rm' = rm ++ map fst (filter (fun e => snd (snd e)) todo) /\
  log = map (fun e => mkCall (fst e) (cb_tag (fst (snd e))) curr new) todo.
Proof.
  induction todo as [|[i [c once]] todo IH]; cbn [v_dispatch]; intros p size curr new rm p' log rm' H.
  - injection H as <- <- <-. cbn. rewrite app_nil_r. auto.
  - destruct (v_act p (cb_act c)) as [p1 ok]. destruct (negb ok); [discriminate|].
    destruct (negb (Nat.eqb _ _)); [discriminate|].
    destruct (v_dispatch p1 size todo curr new (if once then rm ++ [i] else rm))
      as [[p2 log2] r2] eqn:Ed.
    injection H as <- <- ->. destruct (IH _ _ _ _ _ _ _ _ Ed) as [-> ->].
    cbn. destruct once; cbn; [rewrite <- app_assoc|]; auto.
Qed.

Lemma set_once_gone p v ts p' log i c :
  CInv p -> v_set p v ts = (p', log, true) ->
  In (i, (c, true)) (v_cbs p) ->
  log = [] \/ (~ In i (dkeys (v_cbs p')) /\ i < v_next p').
Proof.
  intros HI. unfold v_set, v_check. cbn [v_cbs].
  set (p0 := mkCprim _ _ _ _ _).
  destruct (v_cbs p) as [|ce cl] eqn:Ec; [intros _ []|]. rewrite <- Ec.
  destruct (v_raw p =? v); [intros H; injection H; auto|].
  destruct (v_dispatch p0 _ (v_cbs p) (v_raw p) v []) as [[p1 l1] [rm|]] eqn:Ed; [|discriminate].
  intros H Hin; injection H as <- <-. right.
  assert (HI0 : CInv p0) by (unfold CInv, p0; cbn [v_cbs v_next]; rewrite <- Ec; exact HI).
  destruct (dispatch_inv _ _ _ _ _ _ _ _ _ HI0 Ed) as (A & B & _).
  destruct (dispatch_done _ _ _ _ _ _ _ _ _ Ed) as [Hrm _]. cbn [app] in Hrm.
  destruct (fold_remove_inv rm p1 A) as (A1 & B1 & C1). split.
  - intros Hk. apply in_map_iff in Hk as (e & <- & He). apply C1 in He as [_ He].
    apply He. rewrite Hrm. apply in_map_iff. exists (fst e, (c, true)). split; [reflexivity|].
    apply filter_In. split; [exact Hin|reflexivity].
  - assert (Hi : In i (dkeys (v_cbs p))).
    { change i with (fst (i, (c, true))). apply in_map; exact Hin. }
    apply HI in Hi. assert (v_next p <= v_next p1) by apply B.
    destruct B1 as [B1 _]. lia.
Qed.

Lemma times_called_app i a b :
  times_called i (a ++ b) = (times_called i a + times_called i b)%nat.
Proof. unfold times_called. rewrite filter_app, app_length. reflexivity. Qed.

Lemma times_called_nodup i cs : NoDup (map c_id cs) -> (times_called i cs <= 1)%nat.
Proof.
  unfold times_called. induction cs as [|c cs IH]; cbn; intros H; [lia|].
  inversion H as [|? ? Hn Hd]; subst. destruct (Z.eqb_spec (c_id c) i) as [He|He]; [|auto].
  cbn. assert (filter (fun c0 => c_id c0 =? i) cs = []) as ->; [|cbn; lia].
  destruct (filter (fun c0 => c_id c0 =? i) cs) as [|d l] eqn:E; [reflexivity|].
  exfalso. assert (Hd' : In d (filter (fun c0 => c_id c0 =? i) cs)) by (rewrite E; left; reflexivity).
  apply filter_In in Hd' as [Hd1 Hd2]. apply Hn. rewrite He.
  apply Z.eqb_eq in Hd2. rewrite <- Hd2. apply in_map; exact Hd1.
Qed.

Lemma once_at_most_once ops : forall p i c,
  CInv p -> In (i, (c, true)) (v_cbs p) ->
  Forall (fun o => o_ok o = true) (snd (v_run p ops)) ->
  (times_called i (all_calls (snd (v_run p ops))) <= 1)%nat.
Proof.
  induction ops as [|o ops IH]; intros p i c HI Hin Hok; [cbn; lia|].
  cbn [v_run] in *. destruct (v_step p o) as [p1 out] eqn:Es.
  destruct (v_run p1 ops) as [p2 outs] eqn:Er. cbn [snd] in *.
  inversion Hok as [|? ? Ho Hos]; subst.
  destruct (step_inv _ _ _ _ HI Es) as (A & B & C & D & _).
  unfold all_calls; cbn [flat_map]. rewrite times_called_app.
  assert (Hlt : i < v_next p).
  { apply HI. change i with (fst (i, (c, true))). apply in_map; exact Hin. }
  assert (Hgone : ~ In i (dkeys (v_cbs p1)) -> i < v_next p1 ->
            times_called i (flat_map o_calls outs) = 0%nat).
  { intros H1 H2. pose proof (gone_never_called p1 i ops A H1 H2) as G.
    rewrite Er in G. exact G. }
  assert (Hkeep : In i (dkeys (v_cbs p1)) -> In (i, (c, true)) (v_cbs p1)).
  { intros H. apply in_map_iff in H as ((j & x) & Hj & Hx). cbn in Hj; subst j.
    destruct B as [_ B]. destruct (B _ Hx) as [H|H]; [|cbn in H; lia].
    assert (x = (c, true)) as ->; [|exact Hx].
    pose proof (In_dget _ _ _ (proj1 HI) H) as G1.
    pose proof (In_dget _ _ _ (proj1 HI) Hin) as G2. congruence. }
  assert (Hrest : (times_called i (flat_map o_calls outs) <= 1)%nat).
  { destruct (in_dec Z.eq_dec i (dkeys (v_cbs p1))) as [H|H].
    - specialize (IH p1 i c A (Hkeep H)). rewrite Er in IH. cbn [snd] in IH. apply IH; exact Hos.
    - rewrite Hgone; [lia|exact H|]. destruct B as [B _]. lia. }
  destruct o as [c0 once|j|v ts]; cbn [v_step] in Es.
  - destruct (v_register p c0 once). injection Es as <- <-. cbn [o_calls]. exact Hrest.
  - injection Es as <- <-. cbn [o_calls]. exact Hrest.
  - destruct (v_set p v ts) as [[q log] ok] eqn:E. injection Es as <- <-. cbn [o_calls o_ok] in *.
    subst ok. destruct (set_once_gone _ _ _ _ _ _ _ HI E Hin) as [->|[G1 G2]]; [exact Hrest|].
    rewrite (Hgone G1 G2). pose proof (times_called_nodup i log C). lia.
Qed.

(** C09: passive tables. *)
Lemma dispatch_passive todo : forall p size curr new rm,
  Forall (fun e => cb_act (fst (snd e)) = APass) todo -> size = List.length (v_cbs p) ->
  v_dispatch p size todo curr new rm =
    (p, map (fun e => mkCall (fst e) (cb_tag (fst (snd e))) curr new) todo,
     Some (rm ++ map fst (filter (fun e => snd (snd e)) todo))).
Proof.
  induction todo as [|[i [c once]] todo IH]; cbn [v_dispatch]; intros p size curr new rm Hp Hs.
  - cbn. rewrite app_nil_r. reflexivity.
  - inversion Hp as [|? ? Hc Hr]; subst. cbn in Hc. rewrite Hc. cbn [v_act negb].
    rewrite Nat.eqb_refl. cbn [negb]. rewrite IH by auto. cbn.
    destruct once; cbn; [rewrite <- app_assoc|]; reflexivity.
Qed.

Lemma fold_remove_raw rm : forall p,
  v_raw (fold_left (fun q i => fst (v_remove q i)) rm p) = v_raw p /\
  v_kind (fold_left (fun q i => fst (v_remove q i)) rm p) = v_kind p /\
  v_ts (fold_left (fun q i => fst (v_remove q i)) rm p) = v_ts p.
Proof.
  induction rm as [|i rm IH]; cbn [fold_left]; intros p; [auto|].
  destruct (IH (fst (v_remove p i))) as (A & B & C). rewrite A, B, C.
  unfold v_remove. destruct (dmem i (v_cbs p)); cbn; auto.
Qed.

Lemma set_passive p v ts :
  passive p ->
  exists p',
    v_set p v ts =
      (p',
       if v_raw p =? v then []
       else map (fun e => mkCall (fst e) (cb_tag (fst (snd e))) (v_raw p) v) (v_cbs p),
       true) /\
    v_raw p' = k_store (v_kind p) v /\ v_ts p' = ts.
Proof.
  intros Hp. unfold v_set, v_check. cbn [v_cbs].
  set (p0 := mkCprim _ _ _ _ _).
  destruct (v_cbs p) as [|ce cl] eqn:Ec.
  { exists p0. destruct (v_raw p =? v); cbn; auto. }
  destruct (v_raw p =? v); [exists p0; cbn; auto|]. rewrite <- Ec.
  rewrite dispatch_passive; [|exact Hp|unfold p0; cbn [v_cbs]; rewrite <- Ec; reflexivity].
  eexists. split; [reflexivity|].
  destruct (fold_remove_raw ([] ++ map fst (filter (fun e => snd (snd e)) (v_cbs p))) p0)
    as (A & _ & C). rewrite A, C. auto.
Qed.

Lemma calls_report_in_range p v ts :
  passive p -> k_value (v_kind p) v -> calls_report_change p v ts.
Proof.
  intros Hp Hv. unfold calls_report_change.
  destruct (set_passive p v ts Hp) as (p' & -> & Hr & _).
  split; [reflexivity|]. rewrite Hr, (store_id _ _ Hv). reflexivity.
Qed.

(** The exact condition. *)
Lemma calls_report_iff p v ts :
  passive p -> v_cbs p <> [] ->
  (calls_report_change p v ts <-> k_store (v_kind p) v = v).
Proof.
  intros Hp Hne. unfold calls_report_change.
  destruct (set_passive p v ts Hp) as (p' & -> & Hr & _). rewrite Hr.
  destruct (v_cbs p) as [|[i [c o]] l] eqn:Ec; [congruence|]. cbn.
  destruct (Z.eqb_spec (v_raw p) v) as [E1|E1];
    destruct (Z.eqb_spec (v_raw p) (k_store (v_kind p) v)) as [E2|E2].
  - split; [congruence|auto].
  - split; [intros [_ H]; discriminate|congruence].
  - split; [intros [_ H]; discriminate|congruence].
  - split.
    + intros [_ H]. injection H. intros _ H'. auto.
    + intros ->. auto.
Qed.

(** ** Callbacks that edit the table *)
Lemma harmless_act p a : ~ disruptive p a -> v_act p a = (p, true).
Proof.
  destruct a; cbn; try tauto. intros H. unfold v_remove.
  destruct (dmem ident (v_cbs p)) eqn:E; [|reflexivity]. exfalso. apply H.
  unfold dmem in E. destruct (dget ident (v_cbs p)) as [x|] eqn:G; [|discriminate].
  apply dget_In in G. apply in_map_iff. exists (ident, x). auto.
Qed.

Lemma dispatch_harmless p pre : forall rest old new rm,
  Forall (fun e : Z * (cbk * bool) => ~ disruptive p (cb_act (fst (snd e)))) pre ->
  v_dispatch p (List.length (v_cbs p)) (pre ++ rest) old new rm =
  let '(p2, log, r) := v_dispatch p (List.length (v_cbs p)) rest old new
                         (rm ++ map fst (filter (fun e => snd (snd e)) pre)) in
  (p2, calls_of pre old new ++ log, r).
Proof.
  induction pre as [|[i [c once]] pre IH]; intros rest old new rm H.
  - cbn [app filter map calls_of]. rewrite app_nil_r.
    destruct (v_dispatch p _ rest old new rm) as [[p2 log] r]. reflexivity.
  - inversion H as [|x l Hc Hp]; subst. cbn [fst snd] in Hc. cbn [app v_dispatch].
    rewrite (harmless_act p _ Hc). cbn [negb]. rewrite Nat.eqb_refl. cbn [negb].
    rewrite IH by exact Hp. cbn [filter snd].
    destruct once; cbn [map fst snd]; rewrite <- ?app_assoc; cbn [app];
      destruct (v_dispatch p _ rest old new _) as [[p2 log] r]; reflexivity.
Qed.

Lemma ddel_filter (j : Z) (d : list (Z * (cbk * bool))) :
  ddel j d = filter (fun e => negb (fst e =? j)) d.
Proof.
  induction d as [|[i x] d IH]; cbn [ddel filter fst]; [reflexivity|].
  destruct (eq_dec j i) as [->|N].
  - rewrite Z.eqb_refl. cbn [negb]. exact IH.
  - destruct (i =? j) eqn:E; [apply Z.eqb_eq in E; congruence|]. cbn [negb]. rewrite IH. reflexivity.
Qed.

Lemma remove_filter p j :
  v_cbs (fst (v_remove p j)) = filter (fun e => negb (fst e =? j)) (v_cbs p).
Proof.
  rewrite <- ddel_filter. unfold v_remove. destruct (dmem j (v_cbs p)) eqn:E; [reflexivity|].
  cbn [fst]. apply dmem_false in E. induction (v_cbs p) as [|[i x] d IH]; [reflexivity|].
  cbn [dget ddel] in *. destruct (eq_dec j i); [discriminate|]. rewrite <- IH by exact E. reflexivity.
Qed.

Lemma remove_rest p j :
  v_kind (fst (v_remove p j)) = v_kind p /\ v_raw (fst (v_remove p j)) = v_raw p /\
  v_ts (fst (v_remove p j)) = v_ts p /\ v_next (fst (v_remove p j)) = v_next p.
Proof. unfold v_remove. destruct (dmem j (v_cbs p)); auto. Qed.

Lemma fold_remove_filter rm : forall p,
  v_cbs (fold_left (fun q i => fst (v_remove q i)) rm p) =
    filter (fun e => negb (existsb (Z.eqb (fst e)) rm)) (v_cbs p) /\
  v_raw (fold_left (fun q i => fst (v_remove q i)) rm p) = v_raw p.
Proof.
  induction rm as [|i rm IH]; intros p; cbn [fold_left].
  - cbn [existsb negb]. split; [|reflexivity].
    induction (v_cbs p) as [|x d ID]; cbn [filter]; congruence.
  - destruct (IH (fst (v_remove p i))) as [-> ->]. rewrite remove_filter.
    split; [|apply remove_rest]. clear. cbn [existsb]. induction (v_cbs p) as [|x d ID]; [reflexivity|].
    cbn [filter]. destruct (fst x =? i); cbn [negb orb filter]; [exact ID|].
    destruct (existsb (Z.eqb (fst x)) rm); cbn [negb filter]; [exact ID|f_equal; exact ID].
Qed.

Lemma once_filter (d : list (Z * (cbk * bool))) :
  NoDup (map fst d) ->
  filter (fun e => negb (existsb (Z.eqb (fst e)) (map fst (filter (fun e => snd (snd e)) d)))) d =
  filter (fun e => negb (snd (snd e))) d.
Proof.
  intros N. apply filter_ext_in. intros e He. f_equal.
  destruct (snd (snd e)) eqn:O.
  - apply existsb_exists. exists (fst e). split; [|apply Z.eqb_refl].
    apply in_map. apply filter_In. auto.
  - destruct (existsb (Z.eqb (fst e)) (map fst (filter (fun e0 => snd (snd e0)) d))) eqn:X; [|reflexivity].
    apply existsb_exists in X as (j & X1 & X2). apply Z.eqb_eq in X2. subst j.
    apply in_map_iff in X1 as (e' & X3 & X4). apply filter_In in X4 as [X4 X5].
    assert (e' = e); [|congruence]. clear - N He X3 X4.
    induction d as [|x d IH]; [destruct He|]. cbn [map] in N. inversion N as [|? ? N1 N2]; subst.
    destruct He as [->|He], X4 as [->|X4]; [reflexivity| | |auto].
    + exfalso. apply N1. rewrite <- X3. apply in_map. exact X4.
    + exfalso. apply N1. rewrite X3. apply in_map. exact He.
Qed.

Lemma set_harmless p v ts :
  CInv p -> Forall (fun e => ~ disruptive p (cb_act (fst (snd e)))) (v_cbs p) ->
  v_raw p <> v ->
  let '(p', calls, ok) := v_set p v ts in
  ok = true /\ calls = calls_of (v_cbs p) (v_raw p) v /\
  v_raw p' = k_store (v_kind p) v /\
  v_cbs p' = filter (fun e => negb (snd (snd e))) (v_cbs p).
Proof.
  intros [N _] H Ne. unfold v_set, v_check. cbn [v_cbs].
  destruct (v_cbs p) as [|e0 d0] eqn:D.
  { cbn. auto. }
  destruct (v_raw p =? v) eqn:E; [apply Z.eqb_eq in E; congruence|].
  set (q := mkCprim (v_kind p) (k_store (v_kind p) v) (v_next p) (e0 :: d0) ts).
  assert (Hq : Forall (fun e => ~ disruptive q (cb_act (fst (snd e)))) (e0 :: d0)).
  { eapply Forall_impl; [|exact H]. intros e He C. apply He.
    unfold disruptive in *. rewrite D. exact C. }
  pose proof (dispatch_harmless q (e0 :: d0) [] (v_raw p) v [] Hq) as X.
  rewrite app_nil_r in X. cbn [v_cbs q] in X. rewrite X. cbn [v_dispatch app].
  match goal with |- context [fold_left ?f ?rm q] =>
    pose proof (fold_remove_filter rm q) as [F1 F2]; destruct (fold_left f rm q) as [k' w' n' c' t'] end.
  cbn [v_cbs v_raw q] in *. rewrite app_nil_r. split; [reflexivity|]. split; [reflexivity|].
  split; [exact F2|]. rewrite F1. apply once_filter. exact N.
Qed.

Lemma set_disrupted p v ts pre i c once post :
  CInv p -> v_raw p <> v -> v_cbs p = pre ++ (i, (c, once)) :: post ->
  Forall (fun e => ~ disruptive p (cb_act (fst (snd e)))) pre ->
  disruptive p (cb_act c) ->
  let '(p', calls, ok) := v_set p v ts in
  ok = false /\ calls = calls_of (pre ++ [(i, (c, once))]) (v_raw p) v /\
  v_raw p' = k_store (v_kind p) v /\
  match cb_act c with
  | APass | ARaise => v_cbs p' = v_cbs p
  | ARemove j => v_cbs p' = filter (fun e => negb (fst e =? j)) (v_cbs p)
  | ARegister t o => exists n, ~ In n (map fst (v_cbs p)) /\
      v_cbs p' = v_cbs p ++ [(n, (mkCbk t APass, o))]
  end.
Proof.
  intros HI Ne D H Hd. unfold v_set, v_check. cbn [v_cbs].
  destruct (v_cbs p) as [|e0 d0] eqn:D0; [destruct pre; discriminate|].
  destruct (v_raw p =? v) eqn:E; [apply Z.eqb_eq in E; congruence|].
  set (q := mkCprim (v_kind p) (k_store (v_kind p) v) (v_next p) (e0 :: d0) ts).
  assert (Hdis : forall a, disruptive q a <-> disruptive p a).
  { intros a. unfold disruptive. rewrite D0. reflexivity. }
  assert (Hq : Forall (fun e => ~ disruptive q (cb_act (fst (snd e)))) pre).
  { eapply Forall_impl; [|exact H]. intros e He C. apply He. apply Hdis. exact C. }
  assert (IQ : CInv q) by (destruct HI as [A B]; rewrite D0 in *; split; cbn; auto).
  pose proof (dispatch_harmless q pre ((i, (c, once)) :: post) (v_raw p) v [] Hq) as X.
  rewrite <- D in X. cbn [v_cbs q] in X. fold q in X. rewrite X.
  cbn [v_dispatch]. apply Hdis in Hd.
  assert (Cc : forall p1, calls_of pre (v_raw p) v ++ [mkCall i (cb_tag c) (v_raw p) v] =
            calls_of (pre ++ [(i, (c, once))]) (v_raw p) v /\ p1 = (p1 : cprim)).
  { intros p1. split; [|reflexivity]. unfold calls_of. rewrite map_app. reflexivity. }
  destruct (cb_act c) as [| |j|t o] eqn:A; [destruct Hd| | |].
  - cbn [v_act negb]. split; [reflexivity|]. split; [apply (Cc q)|]. split; reflexivity.
  - cbn [v_act negb]. cbn [disruptive] in Hd.
    pose proof (remove_filter q j) as R. pose proof (remove_rest q j) as (_ & R2 & _ & _).
    assert (L : Nat.eqb (List.length (v_cbs (fst (v_remove q j)))) (List.length (e0 :: d0)) = false).
    { apply Nat.eqb_neq. rewrite R. cbn [v_cbs q].
      cbn [v_cbs q] in Hd. clear - Hd. intros C.
      assert (forall (l : list (Z * (cbk * bool))), In j (map fst l) ->
                (List.length (filter (fun e => negb (fst e =? j)%Z) l) < List.length l)%nat) as Lt.
      { induction l as [|[a x] l IH]; cbn [map In filter fst]; [tauto|]. intros [->|Hl].
        - rewrite Z.eqb_refl. cbn [negb List.length].
          assert (W : forall m : list (Z * (cbk * bool)), (List.length (filter (fun e => negb (fst e =? j)%Z) m) <= List.length m)%nat).
          { induction m as [|y m IM]; cbn [filter List.length]; [lia|].
            destruct (negb (fst y =? j)); cbn [List.length]; lia. }
          specialize (W l). lia.
        - specialize (IH Hl). destruct (negb (a =? j)); cbn [List.length]; lia. }
      apply Lt in Hd. lia. }
    rewrite L. cbn [negb]. split; [reflexivity|]. split; [apply (Cc q)|]. split; [exact R2|exact R].
  - cbn [v_act negb]. pose proof (register_cbs q (mkCbk t APass) o IQ) as R.
    assert (L : Nat.eqb (List.length (v_cbs (fst (v_register q (mkCbk t APass) o)))) (List.length (e0 :: d0)) = false).
    { apply Nat.eqb_neq. rewrite R. cbn [v_cbs q]. rewrite app_length. cbn [List.length]. lia. }
    rewrite L. cbn [negb]. split; [reflexivity|]. split; [apply (Cc q)|]. split; [reflexivity|].
    exists (v_next q). split; [|exact R]. cbn [q v_next]. intros C.
    destruct IQ as [_ B]. cbn [q v_cbs v_next] in B. apply B in C. lia.
Qed.
