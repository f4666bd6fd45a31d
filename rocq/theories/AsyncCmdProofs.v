(** Proofs about asynchronous commands. *)
From Verif Require Import Base BaseLemmas TaskModel TaskProofs AsyncCmdModel AsyncCmdSpec.
From Coq Require Import ZifyBool ZifyNat Lia.
Open Scope list_scope.

Lemma loop_split cs q u q' r : ac_loop cs q = (u, q', r) -> q = u ++ match r with Some (c, _) => [c] | None => [] end ++ q' /\ (r = None -> q' = []).
Proof.
  revert u q' r. induction q as [|c q IH]; cbn [ac_loop]; intros u q' r H.
  - injection H as <- <- <-. auto.
  - destruct (cm_custom c) eqn:C.
    + destruct (existsb _ cs) eqn:X.
      * injection H as <- <- <-. split; [reflexivity|discriminate].
      * destruct (ac_loop cs q) as [[u1 q1] r1] eqn:L. injection H as <- <- <-. destruct (IH _ _ _ eq_refl) as [E N]. split; [rewrite E at 1; reflexivity|exact N].
    + injection H as <- <- <-. split; [reflexivity|discriminate].
Qed.
(** What a command is given to; None if nobody knows it. *)
Definition known (cs : list string) (c : cmd) : bool := existsb (String.eqb (cm_name c)) cs.
Lemma loop_targets cs q u q' r : ac_loop cs q = (u, q', r) ->
  Forall (fun c => cm_custom c = true /\ ~ In (cm_name c) cs) u /\
  match r with
  | Some (c, TCustom n) => cm_custom c = true /\ n = cm_name c /\ In n cs
  | Some (c, THandle) => cm_custom c = false
  | None => True
  end.
Proof.
  revert u q' r. induction q as [|c q IH]; cbn [ac_loop]; intros u q' r H.
  - injection H as <- <- <-. auto.
  - destruct (cm_custom c) eqn:C.
    + destruct (existsb _ cs) eqn:X.
      * injection H as <- <- <-. split; [constructor|]. split; [exact C|]. split; [reflexivity|].
        apply existsb_exists in X. destruct X as (n & Hn & E). apply String.eqb_eq in E. rewrite E. exact Hn.
      * destruct (ac_loop cs q) as [[u1 q1] r1] eqn:L. injection H as <- <- <-. destruct (IH _ _ _ eq_refl) as [F N]. split; [|exact N].
        constructor; [|exact F]. split; [exact C|]. intros Hn. rewrite (proj2 (existsb_exists _ _)) in X; [discriminate|].
        exists (cm_name c). split; [exact Hn|apply String.eqb_refl].
    + injection H as <- <- <-. split; [constructor|exact C].
Qed.

(** ** Everything issued is taken in order, or still queued *)
Definition ready (s : acs) : bool := negb (Nat.eqb (ac_hooks s) 0).
Lemma step_hooks s e : (ac_hooks s <= 1)%nat -> (ac_hooks (ac_step s e) <= 1)%nat.
Proof.
  intros H. destruct e as [c [|]| |k ok|names]; cbn [ac_step ac_issue]; try exact H.
  - unfold ac_move, ac_go. destruct (nth_error _ k) as [[|c| |]|]; try exact H; try destruct ok; cbn [ac_hooks ac_queue ac_customs];
      try (destruct (ac_loop _ _) as [[u q] [[c' t]|]]); exact H.
  - unfold ac_setup. destruct (register _ _) as [l ok]. cbn [fst ac_hooks]. destruct (Nat.eqb (ac_hooks s) 0); lia.
Qed.
Lemma run_hooks h : forall s, (ac_hooks s <= 1)%nat -> (ac_hooks (ac_run s h) <= 1)%nat.
Proof. induction h as [|e h IH]; intros s H; [exact H|]. cbn [ac_run fold_left]. apply IH. apply step_hooks. exact H. Qed.

Lemma go_taken k s : ac_taken (ac_go k s) ++ ac_queue (ac_go k s) = ac_taken s ++ ac_queue s.
Proof.
  unfold ac_go. destruct (ac_loop _ _) as [[u q] r] eqn:L. destruct (loop_split _ _ _ _ _ L) as [E N]. rewrite E.
  destruct r as [[c t]|]; cbn [ac_taken ac_queue]; rewrite ?app_assoc, <- ?app_assoc; reflexivity.
Qed.
Lemma run_taken h : forall s, (ac_hooks s <= 1)%nat ->
  ac_taken (ac_run s h) ++ ac_queue (ac_run s h) = ac_taken s ++ ac_queue s ++ issued (ready s) h.
Proof.
  induction h as [|e h IH]; intros s H; [cbn [ac_run fold_left issued]; rewrite app_nil_r; reflexivity|].
  change (ac_run s (e :: h)) with (ac_run (ac_step s e) h). rewrite IH by (apply step_hooks, H). rewrite !app_assoc.
  destruct e as [c [|]| |k ok|names]; cbn [ac_step issued ac_issue]; try reflexivity.
  - cbn [ac_taken ac_queue]. unfold ready. cbn [ac_hooks]. destruct (ac_hooks s) as [|[|n]] eqn:A; [| |lia]; cbn [Nat.eqb negb repeat]; rewrite ?app_nil_r, <- ?app_assoc; reflexivity.
  - f_equal.
    + unfold ac_move. destruct (nth_error _ k) as [[|c| |]|]; try reflexivity; [apply go_taken|]. destruct ok; [|reflexivity]. apply (go_taken k (mkAcs _ _ _ _ _ _ _ _)).
    + f_equal. unfold ready. f_equal. f_equal. unfold ac_move, ac_go.
      destruct (nth_error _ k) as [[|c| |]|]; try reflexivity; try destruct ok; cbn [ac_hooks ac_queue ac_customs];
      try (destruct (ac_loop _ _) as [[u q] [[c' t]|]]); reflexivity.
  - unfold ac_setup, ready. destruct (register _ _) as [l ok]. cbn [fst ac_hooks ac_taken ac_queue]. destruct (Nat.eqb (ac_hooks s) 0) eqn:E; [reflexivity|]. rewrite E. reflexivity.
Qed.

(** ** Where the commands go *)
Lemma merged_app {A} (a b l a' b' l' : list A) : merged a b l -> merged a' b' l' -> merged (a ++ a') (b ++ b') (l ++ l').
Proof. intros M M'. induction M; cbn [app]; try constructor; assumption. Qed.
Lemma merged_right {A} (l : list A) : merged [] l l.
Proof. induction l; constructor; assumption. Qed.
Lemma merged_left {A} (l : list A) : merged l [] l.
Proof. induction l; constructor; assumption. Qed.

Lemma register_grows names : forall l x, In x l -> In x (fst (register names l)).
Proof.
  induction names as [|n names IH]; intros l x H; [exact H|]. cbn [register]. destruct (existsb _ l); [exact H|]. apply IH. apply in_app_iff. auto.
Qed.
Definition targets_ok (s : acs) : Prop :=
  merged (map fst (ac_begun s)) (ac_unknown s) (ac_taken s) /\
  Forall (fun x => right_target (ac_customs s) (fst x) (snd x)) (ac_begun s) /\
  Forall (fun c => cm_custom c = true) (ac_unknown s).
Lemma go_targets k s : targets_ok s -> targets_ok (ac_go k s).
Proof.
  intros (M & B & U). unfold ac_go. destruct (ac_loop _ _) as [[u q] r] eqn:L. destruct (loop_targets _ _ _ _ _ L) as [F T].
  assert (Fu : Forall (fun c => cm_custom c = true) u) by (eapply Forall_impl; [|exact F]; cbn; tauto).
  destruct r as [[c t]|]; split; [|split| |split]; cbn [ac_begun ac_unknown ac_taken ac_customs].
  - rewrite map_app. cbn [map fst]. rewrite <- (app_nil_r (ac_unknown s ++ u)), app_assoc. apply merged_app; [|apply merged_left].
    rewrite <- (app_nil_r (map fst _)). apply merged_app; [exact M|apply merged_right].
  - apply Forall_app. split; [exact B|]. constructor; [|constructor]. cbn [fst snd]. unfold right_target. destruct t as [n|].
    + destruct T as (-> & -> & I). auto.
    + rewrite T. reflexivity.
  - apply Forall_app. auto.
  - rewrite <- (app_nil_r (map fst _)). apply merged_app; [exact M|apply merged_right].
  - exact B.
  - apply Forall_app. auto.
Qed.
Lemma step_targets s e : targets_ok s -> targets_ok (ac_step s e).
Proof.
  intros K. destruct e as [c [|]| |k ok|names]; cbn [ac_step ac_issue]; try exact K.
  - unfold ac_move. destruct (nth_error _ k) as [[|c| |]|]; try exact K; [apply go_targets, K|]. destruct ok; [apply go_targets|]; exact K.
  - unfold ac_setup. destruct (register _ _) as [l ok] eqn:R. destruct K as (M & B & U). split; [exact M|]. split; [|exact U].
    cbn [fst ac_begun ac_customs]. eapply Forall_impl; [|exact B]. intros [c t] H. cbn [fst snd] in *. unfold right_target in *.
    destruct (cm_custom c); [|exact H]. destruct H as [-> H]. split; [reflexivity|].
    pose proof (register_grows names _ _ H) as G. rewrite R in G. exact G.
Qed.
Lemma run_targets h : forall s, targets_ok s -> targets_ok (ac_run s h).
Proof. induction h as [|e h IH]; intros s H; [exact H|]. cbn [ac_run fold_left]. apply IH. apply step_targets. exact H. Qed.

(** If all custom names are known from the beginning nothing is dropped. *)
Definition known_ok (names : list string) (s : acs) : Prop :=
  (forall n, In n names -> In n (ac_customs s)) /\ ac_unknown s = [] /\ (forall c, In c (ac_queue s) -> cm_custom c = true -> In (cm_name c) names).
Lemma go_known names k s : known_ok names s -> known_ok names (ac_go k s).
Proof.
  intros (C & U & Q). unfold ac_go. destruct (ac_loop _ _) as [[u q] r] eqn:L. destruct (loop_targets _ _ _ _ _ L) as [F T].
  destruct (loop_split _ _ _ _ _ L) as [E N].
  assert (u = []) as ->.
  { destruct u as [|c u]; [reflexivity|]. inversion F as [|? ? [Cc I] ?]; subst. destruct I. apply C. apply Q; [|exact Cc]. rewrite E. left. reflexivity. }
  assert (Q' : forall c, In c q -> cm_custom c = true -> In (cm_name c) names).
  { intros c Hc. apply Q. rewrite E. apply in_app_iff. right. apply in_app_iff. auto. }
  destruct r as [[c t]|]; (split; [exact C|split; [cbn [ac_unknown]; rewrite U; reflexivity|exact Q']]).
Qed.
Lemma step_known names s e : known_ok names s -> (forall c p, e = EIssue c p -> cm_custom c = true -> In (cm_name c) names) -> known_ok names (ac_step s e).
Proof.
  intros K I. destruct e as [c [|]| |k ok|ns]; cbn [ac_step ac_issue]; try exact K.
  - destruct K as (C & U & Q). split; [exact C|]. split; [exact U|]. cbn [ac_queue]. intros c' H Hc. apply in_app_iff in H. destruct H as [H|H]; [apply Q; assumption|].
    apply repeat_spec in H. subst c'. apply (I c true eq_refl Hc).
  - unfold ac_move. destruct (nth_error _ k) as [[|c| |]|]; try exact K; [apply go_known, K|]. destruct ok; [apply go_known|]; exact K.
  - unfold ac_setup. destruct (register _ _) as [l ok] eqn:R. destruct K as (C & U & Q). split; [|split; [exact U|exact Q]].
    cbn [fst ac_customs]. intros n H. pose proof (register_grows ns _ _ (C n H)) as G. rewrite R in G. exact G.
Qed.
Lemma run_known names h : forall s, known_ok names s -> (forall c p, In (EIssue c p) h -> cm_custom c = true -> In (cm_name c) names) -> known_ok names (ac_run s h).
Proof.
  induction h as [|e h IH]; intros s K I; [exact K|]. cbn [ac_run fold_left]. apply IH; [|intros c p H; apply (I c p); right; exact H].
  apply step_known; [exact K|]. intros c p ->. apply (I c p). left. reflexivity.
Qed.
Lemma register_all names : forall l, NoDup (l ++ names) -> fst (register names l) = l ++ names.
Proof.
  induction names as [|n names IH]; intros l H; [rewrite app_nil_r; reflexivity|]. cbn [register].
  destruct (existsb _ l) eqn:X.
  - apply existsb_exists in X. destruct X as (m & Hm & E). apply String.eqb_eq in E. subst m. exfalso.
    apply NoDup_remove_2 in H. apply H. apply in_app_iff. auto.
  - rewrite IH; rewrite <- app_assoc; [reflexivity|exact H].
Qed.
Lemma register_dup names l n : In n names -> In n l -> snd (register names l) = false.
Proof.
  revert l. induction names as [|m names IH]; intros l Hn H; [destruct Hn|]. cbn [register]. destruct Hn as [Hn|Hn].
  - subst m. rewrite (proj2 (existsb_exists _ _)); [reflexivity|]. exists n. split; [exact H|apply String.eqb_refl].
  - destruct (existsb _ l); [reflexivity|]. apply IH; [assumption|]. apply in_app_iff. auto.
Qed.

(** ** One processor at a time *)
Definition idle (l : list ppc) : Prop := forall p, In p l -> active p = false.
Definition handled (l : list ppc) : list cmd := flat_map (fun p => match p with PHandling c => [c] | _ => [] end) l.
Lemma idle_handled l : idle l -> handled l = [].
Proof.
  induction l as [|p l IH]; intros H; [reflexivity|]. unfold handled. cbn [flat_map]. fold (handled l). rewrite IH by (intros q Hq; apply H; right; exact Hq).
  specialize (H p (or_introl eq_refl)). destruct p; try reflexivity; discriminate.
Qed.
(** At most one of them is active: all but the one at [k] are not. *)
Definition only (k : nat) (l : list ppc) : Prop := forall j p, nth_error l j = Some p -> active p = true -> j = k.
Lemma only_handled k l : only k l -> handled l = match nth_error l k with Some (PHandling c) => [c] | _ => [] end.
Proof.
  revert k. induction l as [|p l IH]; intros k H; [destruct k; reflexivity|]. unfold handled. cbn [flat_map]. fold (handled l). destruct k as [|k].
  - cbn [nth_error]. rewrite idle_handled; [destruct p; reflexivity|]. intros q Hq. destruct (active q) eqn:A; [|reflexivity].
    apply In_nth_error in Hq. destruct Hq as [j Hj]. discriminate (H (S j) q Hj A).
  - rewrite (IH k). 2:{ intros j q Hj A. specialize (H (S j) q Hj A). lia. }
    assert (active p = false) by (destruct (active p) eqn:A; [discriminate (H 0%nat p eq_refl A)|reflexivity]). destruct p; try reflexivity; discriminate.
Qed.
Lemma only_upd k p l : only k l -> only k (upd k p l).
Proof.
  intros H j q Hj A. destruct (Nat.eq_dec j k) as [->|N]; [reflexivity|]. rewrite upd_nth_ne in Hj by congruence. apply (H j q Hj A).
Qed.
Lemma only_idle l k : idle l -> only k l.
Proof. intros H j p Hj A. apply nth_error_In in Hj. rewrite (H p Hj) in A. discriminate. Qed.

Definition seq_ok (s : acs) : Prop := exists k, only k (ac_procs s).
Lemma move_only s k ok : seq_ok s -> seq_ok (ac_move k ok s).
Proof.
  intros [k0 H]. unfold ac_move.
  destruct (nth_error (ac_procs s) k) as [p|] eqn:P; [|exists k0; exact H].
  destruct (active p) eqn:A; [|destruct p; try discriminate; exists k0; exact H].
  rewrite <- (H k p P A) in H. exists k. unfold ac_go.
  destruct p; try discriminate; try destruct ok; cbn [ac_customs ac_queue]; try (destruct (ac_loop _ _) as [[u q] [[c' t]|]]); cbn [ac_procs]; apply only_upd, H.
Qed.
Lemma step_only s e : seq_ok s -> (e = ECall -> forallb (fun p => negb (active p)) (ac_procs s) = true) -> seq_ok (ac_step s e).
Proof.
  intros H C. destruct e as [c [|]| |k ok|names]; cbn [ac_step ac_issue]; try exact H.
  - exists (List.length (ac_procs s)). cbn [ac_procs]. specialize (C eq_refl). rewrite forallb_forall in C. intros j p Hj A.
    destruct (Nat.lt_ge_cases j (List.length (ac_procs s))) as [Lt|Ge].
    + rewrite nth_error_app1 in Hj by exact Lt. apply nth_error_In in Hj. specialize (C p Hj). rewrite A in C. discriminate.
    + assert (j < List.length (ac_procs s ++ [PCalled]))%nat by (apply nth_error_Some; rewrite Hj; discriminate). rewrite app_length in H0. cbn in H0. lia.
  - apply move_only, H.
  - unfold ac_setup. destruct (register _ _). exact H.
Qed.
Lemma run_only h : forall s, seq_ok s -> one_at_a_time s h -> seq_ok (ac_run s h).
Proof. induction h as [|e h IH]; intros s H O; [exact H|]. destruct O as [C O]. cbn [ac_run fold_left]. apply IH; [apply step_only; assumption|exact O]. Qed.

(** Without failures the begun commands are those that ended and the one that is
    being handled. *)
Definition prog_ok (s : acs) : Prop := map fst (ac_begun s) = ac_ended s ++ handled (ac_procs s).
Lemma go_prog k s : only k (ac_procs s) -> (k < List.length (ac_procs s))%nat -> map fst (ac_begun s) = ac_ended s -> prog_ok (ac_go k s).
Proof.
  intros O Lt E. unfold ac_go, prog_ok. destruct (ac_loop _ _) as [[u q] [[c t]|]]; cbn [ac_begun ac_ended ac_procs].
  - rewrite (only_handled k) by (apply only_upd, O). rewrite upd_nth by exact Lt. rewrite map_app, E. reflexivity.
  - rewrite (only_handled k) by (apply only_upd, O). rewrite upd_nth by exact Lt. rewrite app_nil_r. exact E.
Qed.
Lemma step_prog s e : seq_ok s -> (e = ECall -> forallb (fun p => negb (active p)) (ac_procs s) = true) -> (forall k, e <> EMove k false) -> prog_ok s -> prog_ok (ac_step s e).
Proof.
  intros [k0 H] C F K. destruct e as [c [|]| |k ok|names]; cbn [ac_step ac_issue]; try exact K.
  - unfold prog_ok. cbn [ac_begun ac_ended ac_procs]. rewrite K. unfold handled. rewrite flat_map_app. cbn [flat_map]. rewrite !app_nil_r. reflexivity.
  - unfold ac_move. destruct (nth_error (ac_procs s) k) as [p|] eqn:P; [|exact K].
    assert (Lt : (k < List.length (ac_procs s))%nat) by (apply nth_error_Some; rewrite P; discriminate).
    destruct (active p) eqn:A; [|destruct p; try discriminate; exact K]. rewrite <- (H k p P A) in H.
    unfold prog_ok in K. rewrite (only_handled k _ H), P in K.
    destruct p; try discriminate.
    + apply go_prog; [exact H|exact Lt|]. rewrite app_nil_r in K. exact K.
    + destruct ok; [|destruct (F k); reflexivity]. apply go_prog; [exact H|exact Lt|]. exact K.
  - unfold ac_setup. destruct (register _ _). exact K.
Qed.
Lemma run_prog h : forall s, seq_ok s -> one_at_a_time s h -> no_failure h -> prog_ok s -> prog_ok (ac_run s h).
Proof.
  induction h as [|e h IH]; intros s H O F K; [exact K|]. destruct O as [C O]. cbn [ac_run fold_left]. apply IH; [apply step_only; assumption|exact O| |].
  - intros k Hk. apply (F k). right. exact Hk.
  - apply step_prog; try assumption. intros k ->. apply (F k). left. reflexivity.
Qed.

(** ** Draining *)
Lemma go_cases k s : (k < List.length (ac_procs s))%nat ->
  (nth_error (ac_procs (ac_go k s)) k = Some PDone /\ ac_queue (ac_go k s) = []) \/
  (exists c, nth_error (ac_procs (ac_go k s)) k = Some (PHandling c) /\ (List.length (ac_queue (ac_go k s)) < List.length (ac_queue s))%nat).
Proof.
  intros Lt. unfold ac_go. destruct (ac_loop _ _) as [[u q] r] eqn:L. destruct (loop_split _ _ _ _ _ L) as [E N]. destruct r as [[c t]|].
  - right. exists c. cbn [ac_procs ac_queue]. split; [apply upd_nth, Lt|]. rewrite E, !app_length. cbn. lia.
  - left. cbn [ac_procs ac_queue]. split; [apply upd_nth, Lt|]. apply N. reflexivity.
Qed.
Lemma handle_drains n : forall s k c, (List.length (ac_queue s) <= n)%nat -> nth_error (ac_procs s) k = Some (PHandling c) ->
  exists m, (m <= S n)%nat /\ let s' := ac_run s (repeat (EMove k true) m) in nth_error (ac_procs s') k = Some PDone /\ ac_queue s' = [].
Proof.
  induction n as [|n IH]; intros s k c Hn P.
  all: assert (Lt : (k < List.length (ac_procs s))%nat) by (apply nth_error_Some; rewrite P; discriminate).
  all: set (s1 := mkAcs (ac_hooks s) (ac_customs s) (ac_queue s) (ac_begun s) (ac_unknown s) (ac_taken s) (ac_ended s ++ [c]) (ac_procs s)).
  all: assert (M : ac_step s (EMove k true) = ac_go k s1) by (cbn [ac_step]; unfold ac_move; rewrite P; reflexivity).
  all: destruct (go_cases k s1 Lt) as [[D E]|(c' & P' & L')].
  - exists 1%nat. split; [lia|]. cbv zeta. cbn [repeat ac_run fold_left]. rewrite M. auto.
  - change (ac_queue s1) with (ac_queue s) in L'. lia.
  - exists 1%nat. split; [lia|]. cbv zeta. cbn [repeat ac_run fold_left]. rewrite M. auto.
  - change (ac_queue s1) with (ac_queue s) in L'. destruct (IH (ac_go k s1) k c' ltac:(lia) P') as (m & Hm & R). exists (S m). split; [lia|].
    cbn [repeat ac_run fold_left]. rewrite M. exact R.
Qed.
Lemma done_empty s k ok : nth_error (ac_procs s) k <> Some PDone -> nth_error (ac_procs (ac_step s (EMove k ok))) k = Some PDone -> ac_queue (ac_step s (EMove k ok)) = [].
Proof.
  intros N D. cbn [ac_step] in *. unfold ac_move in *. destruct (nth_error (ac_procs s) k) as [p|] eqn:P; [|rewrite P in D; discriminate].
  assert (Lt : (k < List.length (ac_procs s))%nat) by (apply nth_error_Some; rewrite P; discriminate).
  destruct p.
  - destruct (go_cases k s Lt) as [[_ E]|(c & P' & _)]; [exact E|rewrite P' in D; discriminate].
  - destruct ok.
    + match type of D with context [ac_go k ?x] => destruct (go_cases k x Lt) as [[_ E]|(c' & P' & _)]; [exact E|rewrite P' in D; discriminate] end.
    + cbn [ac_procs] in D. rewrite upd_nth in D by exact Lt. discriminate.
  - destruct N. reflexivity.
  - rewrite P in D. discriminate.
Qed.

(** ** Housekeeping *)
Lemma drain_ok q : ~ In true q -> drain q = ([], true).
Proof. induction q as [|[|] q IH]; intros H; [reflexivity|destruct H; left; reflexivity|]. cbn [drain]. apply IH. intros X. apply H. right. exact X. Qed.
Lemma drain_raises q : In true q -> snd (drain q) = false.
Proof. induction q as [|[|] q IH]; intros H; [destruct H|reflexivity|]. cbn [drain]. apply IH. destruct H as [H|H]; [discriminate|exact H]. Qed.
