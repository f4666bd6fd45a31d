(** Lemmas about waiting and sampling. *)
From Coq Require Import ZifyBool ZifyNat Lia.
From Verif Require Import Base BaseLemmas PrimModel TaskModel EvalModel EvalSpec.
Open Scope Z_scope.

Lemma upd_nth {A} i (x : A) l : (i < List.length l)%nat -> nth_error (upd i x l) i = Some x.
Proof. revert i; induction l; destruct i; cbn; intros; try lia; auto. apply IHl; lia. Qed.
Lemma upd_nth_ne {A} i j (x : A) l : i <> j -> nth_error (upd i x l) j = nth_error l j.
Proof. revert i j; induction l; destruct i, j; cbn; intros; auto; try congruence. Qed.
Lemma upd_length {A} i (x : A) l : List.length (upd i x l) = List.length l.
Proof. revert i; induction l; destruct i; cbn; auto. Qed.
Lemma nth_lt {A} (l : list A) i x : nth_error l i = Some x -> (i < List.length l)%nat.
Proof. intros. apply nth_error_Some. congruence. Qed.

Definition listening (b : obs) : option Z :=
  match b with
  | BWait _ id _ _ _ => Some id
  | BReturned _ => None
  | BSampler s => match s_pc s with SGet | SBody | SStray => Some (s_id s) | _ => None end
  end.

Record WI (w : world) : Prop := {
  wi_nd : NoDup (map fst (w_cbs w));
  wi_lt : forall i o, In (i, o) (w_cbs w) -> i < w_next w;
  wi_in : forall i k, In (i, Some k) (w_cbs w) <->
            exists b, nth_error (w_obs w) k = Some b /\ listening b = Some i }.

Lemma ddel_in {V} (i : Z) (d : list (Z * V)) j v : In (j, v) (ddel i d) <-> In (j, v) d /\ j <> i.
Proof.
  induction d as [|[a b] d IH]; cbn; [tauto|].
  destruct (eq_dec i a) as [E|E].
  - rewrite IH. split; [tauto|]. intros [[H|H] N]; [|tauto]. injection H as -> ->. congruence.
  - cbn. rewrite IH. split.
    + intros [H|H]; [|tauto]. split; [tauto|]. injection H as -> ->. congruence.
    + tauto.
Qed.
Lemma ddel_nd {V} (i : Z) (d : list (Z * V)) : NoDup (map fst d) -> NoDup (map fst (ddel i d)).
Proof.
  induction d as [|[a b] d IH]; cbn; intros H; [constructor|]. inversion_clear H.
  destruct (eq_dec i a); [auto|]. cbn. constructor; [|auto]. intros K. apply H0.
  apply in_map_iff in K as ([x y] & <- & K). apply ddel_in in K. apply in_map_iff. exists (x, y). tauto.
Qed.
Lemma dset_new {V} (i : Z) (v : V) d : (forall j x, In (j, x) d -> j < i) -> dset i v d = d ++ [(i, v)].
Proof.
  induction d as [|[a b] d IH]; cbn; intros H; [reflexivity|].
  destruct (eq_dec i a) as [->|]; [exfalso; specialize (H a b (or_introl eq_refl)); lia|].
  rewrite IH by (intros; eapply H; eauto). reflexivity.
Qed.

Lemma register_cbs o w : WI w -> w_cbs (fst (w_register o w)) = w_cbs w ++ [(w_next w, o)].
Proof. intros H. cbn. apply dset_new. apply (wi_lt _ H). Qed.

(** Changing an observer without changing what it listens to. *)
Lemma WI_set w k b b' : WI w -> nth_error (w_obs w) k = Some b -> listening b' = listening b -> WI (set_obs k b' w).
Proof.
  intros [A B C] H L. constructor; cbn [set_obs w_cbs w_next w_obs]; auto. intros i j. rewrite C.
  destruct (Nat.eq_dec k j) as [<-|N].
  - rewrite upd_nth by (eapply nth_lt; eauto). split; intros (x & X & Y).
    + rewrite H in X. injection X as <-. exists b'. split; congruence.
    + injection X as <-. exists b. split; congruence.
  - rewrite upd_nth_ne by exact N. tauto.
Qed.
(** Removing the callback of an observer that stops listening. *)
Lemma WI_leave w k b b' id : WI w -> nth_error (w_obs w) k = Some b -> listening b = Some id -> listening b' = None ->
  WI (set_obs k b' (w_remove id w)).
Proof.
  intros [A B C] H L L'. constructor; cbn [set_obs w_remove w_cbs w_next w_obs].
  - apply ddel_nd, A.
  - intros i o K. apply ddel_in in K. apply (B i o), K.
  - intros i j. rewrite ddel_in, C. destruct (Nat.eq_dec k j) as [<-|N].
    + rewrite upd_nth by (eapply nth_lt; eauto). split; intros (x & X).
      * destruct x as (x & X1 & X2). rewrite H in X1. injection X1 as <-. congruence.
      * destruct X as [X Y]. injection X as <-. congruence.
    + rewrite upd_nth_ne by exact N. split; [tauto|]. intros (x & X & Y). split; [eauto|]. intros ->.
      assert (K1 : In (id, Some j) (w_cbs w)) by (apply C; eauto).
      assert (K2 : In (id, Some k) (w_cbs w)) by (apply C; eauto).
      apply N. clear - A K1 K2. induction (w_cbs w) as [|[a o] d IH]; cbn in *; [tauto|]. inversion_clear A.
      destruct K1 as [K1|K1], K2 as [K2|K2].
      * congruence.
      * injection K1 as E1 E2. subst. exfalso. apply H. apply in_map_iff. exists (id, Some k). auto.
      * injection K2 as E1 E2. subst. exfalso. apply H. apply in_map_iff. exists (id, Some j). auto.
      * auto.
Qed.
(** Registering a callback for an observer that begins to listen. *)
Lemma WI_enter w k b b' : WI w -> nth_error (w_obs w) k = Some b -> listening b = None ->
  listening b' = Some (w_next w) -> WI (set_obs k b' (fst (w_register (Some k) w))).
Proof.
  intros W H L L'. pose proof (register_cbs (Some k) w W) as R. destruct W as [A B C].
  constructor; cbn [set_obs w_next w_obs w_cbs]; rewrite ?R; cbn [fst w_register w_next w_obs].
  - rewrite map_app. cbn.
    clear - A B. assert (N : ~ In (w_next w) (map fst (w_cbs w))).
    { intros K. apply in_map_iff in K as ([a o] & E & K). cbn in E. subst. specialize (B _ _ K). lia. }
    induction (w_cbs w) as [|[a o] d IH]; cbn in *; [constructor; [tauto|constructor]|].
    inversion_clear A. constructor.
    + rewrite in_app_iff. cbn. intros [K|[K|K]]; [tauto| |tauto]. apply N. left. congruence.
    + apply IH; auto. intros. eapply B; eauto.
  - intros i o K. apply in_app_iff in K as [K|[K|[]]]; [specialize (B _ _ K); lia|injection K as <- <-; lia].
  - intros i j. rewrite in_app_iff. cbn. destruct (Nat.eq_dec k j) as [<-|N].
    + rewrite upd_nth by (eapply nth_lt; eauto). rewrite C. split.
      * intros [(x & X & Y)|[E|[]]]; [rewrite H in X; injection X as <-; congruence|]. injection E as <-. eauto.
      * intros (x & X & Y). injection X as <-. right. left. rewrite L' in Y. congruence.
    + rewrite upd_nth_ne by exact N. rewrite C. split; [|tauto]. intros [?|[E|[]]]; [assumption|]. congruence.
Qed.
Lemma WI_add w b : WI w -> listening b = None -> WI (add_obs b w).
Proof.
  intros [A B C] L. constructor; cbn [add_obs w_cbs w_next w_obs]; auto. intros i k. rewrite C. split; intros (x & X & Y).
  - exists x. split; [|auto]. rewrite nth_error_app1; [auto|eapply nth_lt; eauto].
  - exists x. split; [|auto]. destruct (Nat.lt_ge_cases k (List.length (w_obs w))) as [Q|Q].
    + rewrite nth_error_app1 in X; auto.
    + rewrite nth_error_app2 in X by auto. destruct (k - List.length (w_obs w))%nat as [|m]; cbn in X; [|destruct m; discriminate].
      injection X as <-. congruence.
Qed.

(** Calling the callbacks. *)
Definition heard (l : list (Z * option nat)) (k : nat) : bool :=
  existsb (fun e => match snd e with Some j => Nat.eqb j k | None => false end) l.
Lemma call_frame curr new e w :
  w_kind (w_call curr new w e) = w_kind w /\ w_raw (w_call curr new w e) = w_raw w /\
  w_ts (w_call curr new w e) = w_ts w /\ w_next (w_call curr new w e) = w_next w /\
  w_cbs (w_call curr new w e) = w_cbs w /\ List.length (w_obs (w_call curr new w e)) = List.length (w_obs w).
Proof.
  unfold w_call. destruct (snd e); [|repeat split; auto]. destruct (nth_error (w_obs w) n); [|repeat split; auto].
  cbn. rewrite upd_length. repeat split; auto.
Qed.
Lemma calls_frame curr new l : forall w,
  let w' := fold_left (w_call curr new) l w in
  w_kind w' = w_kind w /\ w_raw w' = w_raw w /\ w_ts w' = w_ts w /\ w_next w' = w_next w /\
  w_cbs w' = w_cbs w /\ List.length (w_obs w') = List.length (w_obs w).
Proof.
  induction l as [|e l IH]; intros w; cbn; [repeat split; auto|].
  destruct (IH (w_call curr new w e)) as (A & B & C & D & E & F).
  destruct (call_frame curr new e w) as (A' & B' & C' & D' & E' & F'). repeat split; congruence.
Qed.
Lemma heard_in l k : heard l k = true <-> exists i, In (i, Some k) l.
Proof.
  unfold heard. rewrite existsb_exists. split.
  - intros ([i o] & A & B). cbn in B. destruct o as [j|]; [|discriminate]. apply Nat.eqb_eq in B. subst. eauto.
  - intros (i & A). exists (i, Some k). split; [auto|]. cbn. apply Nat.eqb_refl.
Qed.
Lemma calls_obs curr new l : forall w,
  (forall i j k, In (i, Some k) l -> In (j, Some k) l -> i = j) -> NoDup (map fst l) ->
  forall k, nth_error (w_obs (fold_left (w_call curr new) l w)) k =
    option_map (fun b => if heard l k then b_notify curr new (w_ts w) b else b) (nth_error (w_obs w) k).
Proof.
  induction l as [|[i o] l IH]; intros w U N k; cbn [fold_left].
  - cbn. destruct (nth_error (w_obs w) k); reflexivity.
  - rewrite IH; [|intros; eapply U; right; eauto|inversion N; auto].
    destruct (call_frame curr new (i, o) w) as (_ & _ & T & _ & _ & _). rewrite T.
    cbn [heard existsb snd]. fold (heard l k). unfold w_call. cbn [snd].
    destruct o as [j|]; [|reflexivity]. destruct (Nat.eqb_spec j k) as [->|Q]; cbn [orb].
    + destruct (nth_error (w_obs w) k) as [b|] eqn:E; [|rewrite E; reflexivity].
      cbn [set_obs w_obs]. rewrite upd_nth by (eapply nth_lt; eauto). cbn [option_map].
      destruct (heard l k) eqn:Hd; [|reflexivity]. exfalso. apply heard_in in Hd as (i2 & Hd).
      assert (i = i2) by (eapply U; [left; reflexivity|right; exact Hd]). subst i2.
      cbn in N. inversion_clear N. apply H. apply in_map_iff. exists (i, Some k). auto.
    + destruct (nth_error (w_obs w) j) as [b|] eqn:E; [|reflexivity]. cbn [set_obs w_obs]. rewrite upd_nth_ne by exact Q. reflexivity.
Qed.
Lemma WI_once w i j k : WI w -> In (i, Some k) (w_cbs w) -> In (j, Some k) (w_cbs w) -> i = j.
Proof.
  intros W A B. apply (wi_in _ W) in A as (x & X1 & X2). apply (wi_in _ W) in B as (y & Y1 & Y2). congruence.
Qed.

Definition told (raw v ts : Z) (b : obs) : obs :=
  if raw =? v then b else match listening b with Some _ => b_notify raw v ts b | None => b end.
Lemma set_obs_at w v ts k b : WI w -> nth_error (w_obs w) k = Some b ->
  nth_error (w_obs (w_set v ts w)) k = Some (told (w_raw w) v ts b).
Proof.
  intros W H. unfold w_set, told. destruct (w_raw w =? v); [exact H|].
  rewrite calls_obs; [|intros; eapply WI_once; eauto|apply (wi_nd _ W)].
  cbn [w_obs w_ts]. rewrite H. cbn [option_map]. f_equal.
  destruct (heard (w_cbs w) k) eqn:E.
  - apply heard_in in E as (i & E). apply (wi_in _ W) in E as (x & X & Y). rewrite H in X. injection X as <-. rewrite Y. reflexivity.
  - destruct (listening b) as [i|] eqn:L; [|reflexivity]. exfalso.
    assert (heard (w_cbs w) k = true); [|congruence]. apply heard_in. exists i. apply (wi_in _ W). eauto.
Qed.
Lemma notify_listening c n t b : listening (b_notify c n t b) = listening b.
Proof. destruct b as [| |s]; cbn; auto. destruct (s_keep s); reflexivity. Qed.
Lemma set_frame w v ts : let w' := w_set v ts w in
  w_kind w' = w_kind w /\ w_raw w' = k_store (w_kind w) v /\ w_ts w' = ts /\ w_next w' = w_next w /\
  w_cbs w' = w_cbs w /\ List.length (w_obs w') = List.length (w_obs w).
Proof.
  unfold w_set. destruct (w_raw w =? v); [repeat split; auto|].
  apply (calls_frame (w_raw w) v (w_cbs w) (mkWorld (w_kind w) (k_store (w_kind w) v) ts (w_next w) (w_cbs w) (w_obs w))).
Qed.
Lemma WI_value w v ts : WI w -> WI (w_set v ts w).
Proof.
  intros W. destruct (set_frame w v ts) as (_ & _ & _ & N & B & L). constructor.
  - rewrite B. apply (wi_nd _ W).
  - rewrite B, N. apply (wi_lt _ W).
  - intros i k. rewrite B, (wi_in _ W). split; intros (b & X & Y).
    + exists (told (w_raw w) v ts b). split; [apply set_obs_at; auto|]. unfold told. destruct (w_raw w =? v); [auto|].
      destruct (listening b) eqn:E; [rewrite notify_listening|]; congruence.
    + destruct (nth_error (w_obs w) k) as [b0|] eqn:E.
      * rewrite (set_obs_at w v ts k b0 W E) in X. injection X as <-. exists b0. split; [auto|].
        unfold told in Y. destruct (w_raw w =? v); [auto|]. destruct (listening b0) eqn:M; [rewrite notify_listening in Y|]; congruence.
      * apply nth_error_None in E. apply nth_lt in X. lia.
Qed.

Lemma upd_upd {A} i (x y : A) l : upd i x (upd i y l) = upd i x l.
Proof. revert i; induction l; destruct i; cbn; congruence. Qed.
Lemma upd_last {A} (x y : A) l : upd (List.length l) x (l ++ [y]) = l ++ [x].
Proof. induction l; cbn; congruence. Qed.

Lemma drain_listening s : listening (BSampler (s_drain s)) = None.
Proof. unfold s_drain, s_take. destruct (s_queue s); reflexivity. Qed.
Lemma iterate_listening s s' : s_iterate s = (s', false) -> listening (BSampler s') = Some (s_id s).
Proof.
  unfold s_iterate, s_take. destruct (s_keep s); [|discriminate]. destruct (s_queue s); intros H; injection H as <-; reflexivity.
Qed.
Lemma iterate_over s s' : s_iterate s = (s', true) -> s' = s /\ s_keep s = false.
Proof. unfold s_iterate. destruct (s_keep s); [destruct (s_queue s); discriminate|]. intros H. injection H as <-. auto. Qed.

Lemma WI_loop w k b s : WI w -> nth_error (w_obs w) k = Some b -> listening b = Some (s_id s) -> WI (w_loop k s w).
Proof.
  intros W H L. unfold w_loop. destruct (s_iterate s) as [s' over] eqn:E. destruct over.
  - apply iterate_over in E as [-> _]. eapply WI_leave; eauto. apply drain_listening.
  - eapply WI_set; eauto. rewrite (iterate_listening _ _ E). congruence.
Qed.
Lemma loop_again w k b s : w_loop k s (set_obs k b w) = w_loop k s w.
Proof. unfold w_loop. destruct (s_iterate s) as [s' []]; unfold set_obs, w_remove; cbn; rewrite upd_upd; reflexivity. Qed.

Definition s_started (s : sampler) (raw ts id : Z) : sampler :=
  let s0 := mkSampler (s_count s) (s_current s) (s_pc s) (s_id s) [] true 0 false (s_out s) in
  let s1 := if s_current s then s_poll (s_put (raw, ts) s0) else s0 in
  mkSampler (s_count s1) (s_current s1) (s_pc s1) id (s_queue s1) (s_keep s1) (s_samples s1) (s_timed s1) (s_out s1).
Lemma begin_eq k s w : w_begin k s w = w_loop k (s_started s (w_raw w) (w_ts w) (w_next w)) (fst (w_register (Some k) w)).
Proof. reflexivity. Qed.

Lemma WI_step w o : WI w -> WI (w_step w o).
Proof.
  intros W. destruct o as [v ts| |ev|count current|k|k|k]; cbn [w_step].
  - apply WI_value, W.
  - (* somebody else's callback *)
    pose proof (register_cbs None w W) as R. destruct W as [A B C].
    constructor; rewrite ?R; cbn [fst w_register w_next w_obs].
    + rewrite map_app. cbn. assert (N : ~ In (w_next w) (map fst (w_cbs w))).
      { intros K. apply in_map_iff in K as ([a o] & E & K). cbn in E. subst. specialize (B _ _ K). lia. }
      clear - A N. induction (w_cbs w) as [|[a o] d IH]; cbn in *; [constructor; [tauto|constructor]|].
      inversion_clear A. constructor; [|apply IH; tauto].
      rewrite in_app_iff. cbn. intros [K|[K|K]]; [tauto| |tauto]. apply N. left. congruence.
    + intros i o K. apply in_app_iff in K as [K|[K|[]]]; [specialize (B _ _ K); lia|injection K as <- <-; lia].
    + intros i k. rewrite in_app_iff, <- C. cbn. split; [|tauto]. intros [?|[E|[]]]; [auto|discriminate].
  - unfold w_evaluate. destruct (ev_bool _); [apply WI_add; auto|]. cbn [w_register].
    set (b := BWait ev (w_next w) false false Timeout).
    replace (add_obs b _) with (set_obs (List.length (w_obs w)) b
      (fst (w_register (Some (List.length (w_obs w))) (add_obs (BReturned NotSet) w)))).
    + eapply WI_enter with (b := BReturned NotSet); [apply WI_add; auto| | |reflexivity]; [|reflexivity].
      cbn [add_obs w_obs]. rewrite nth_error_app2, Nat.sub_diag by lia. reflexivity.
    + unfold set_obs, add_obs, w_register. cbn. rewrite upd_last. reflexivity.
  - apply WI_add; auto.
  - destruct (nth_error (w_obs w) k) as [[ev id fl ti r|r|s]|] eqn:E; auto.
    + eapply WI_set; eauto.
    + destruct (s_pc s) eqn:P; auto; eapply WI_set; eauto; cbn; rewrite P; reflexivity.
  - destruct (nth_error (w_obs w) k) as [[ev id fl ti r|r|s]|] eqn:E; auto.
    + destruct (fl || ti); [|auto]. eapply WI_leave; eauto; reflexivity.
    + destruct (s_pc s) eqn:P; auto. destruct (s_timed s).
      * eapply WI_leave; eauto; [cbn; rewrite P; reflexivity|apply drain_listening].
      * destruct (s_queue s) as [|x q] eqn:Q; [auto|]. eapply WI_set; eauto. unfold s_take. rewrite Q. cbn. rewrite P. reflexivity.
  - destruct (nth_error (w_obs w) k) as [[ev id fl ti r|r|s]|] eqn:E; auto.
    destruct (s_pc s) eqn:P; auto.
    + rewrite begin_eq. set (s1 := s_started s (w_raw w) (w_ts w) (w_next w)).
      set (b := BSampler (s_goto SGet s1)). rewrite <- (loop_again _ k b). eapply WI_loop with (b := b).
      * eapply WI_enter; [exact W|exact E|cbn; rewrite P; reflexivity|reflexivity].
      * cbn [set_obs w_obs w_register fst]. apply upd_nth. eapply nth_lt; eauto.
      * reflexivity.
    + eapply WI_loop; eauto. cbn. rewrite P. reflexivity.
    + eapply WI_set; eauto. rewrite drain_listening. cbn. rewrite P. reflexivity.
Qed.
Lemma WI_new k v ts : WI (w_new k v ts).
Proof.
  constructor; cbn; [constructor|tauto|]. intros i n. split; [tauto|]. intros (b & X & _). destruct n; discriminate.
Qed.
Lemma WI_run ops : forall w, WI w -> WI (w_run w ops).
Proof. induction ops as [|o ops IH]; intros w W; [exact W|]. apply (IH (w_step w o)), WI_step, W. Qed.

(** What a step does to one observer. *)
Definition s_moved (s : sampler) : sampler :=
  let '(s1, over) := s_iterate s in if over then s_drain s1 else s1.
Definition b_step (w : world) (n : nat) (o : wop) (b : obs) : obs :=
  match o with
  | OSet v ts => told (w_raw w) v ts b
  | OOther | OEvaluate _ | OSample _ _ => b
  | ODeadline k =>
      if Nat.eqb k n then
        match b with
        | BWait ev id flag _ res => BWait ev id flag true res
        | BReturned r => b
        | BSampler s =>
            match s_pc s with
            | SGet => BSampler (mkSampler (s_count s) (s_current s) SGet (s_id s) (s_queue s)
                                 (s_keep s) (s_samples s) true (s_out s))
            | SBody => BSampler (s_goto SStray s)
            | _ => b
            end
        end
      else b
  | OResume k =>
      if Nat.eqb k n then
        match b with
        | BWait _ id flag timed res => if flag || timed then BReturned res else b
        | BReturned r => b
        | BSampler s =>
            match s_pc s with
            | SGet => if s_timed s then BSampler (s_drain s)
                      else match s_queue s with [] => b | _ => BSampler (s_take SBody s) end
            | _ => b
            end
        end
      else b
  | ONext k =>
      if Nat.eqb k n then
        match b with
        | BSampler s =>
            match s_pc s with
            | SNew => BSampler (s_moved (s_started s (w_raw w) (w_ts w) (w_next w)))
            | SBody => BSampler (s_moved s)
            | SDrain => BSampler (s_drain s)
            | _ => b
            end
        | _ => b
        end
      else b
  end.

Lemma loop_at k s w b : nth_error (w_obs w) k = Some b -> nth_error (w_obs (w_loop k s w)) k = Some (BSampler (s_moved s)).
Proof.
  intros H. unfold w_loop, s_moved. destruct (s_iterate s) as [s1 []]; cbn [set_obs w_obs w_remove]; apply upd_nth; eapply nth_lt; eauto.
Qed.
Lemma loop_other k s w n : k <> n -> nth_error (w_obs (w_loop k s w)) n = nth_error (w_obs w) n.
Proof.
  intros H. unfold w_loop. destruct (s_iterate s) as [s1 []]; cbn [set_obs w_obs w_remove]; apply upd_nth_ne; auto.
Qed.

Lemma step_obs w o n b : WI w -> nth_error (w_obs w) n = Some b ->
  nth_error (w_obs (w_step w o)) n = Some (b_step w n o b).
Proof.
  intros W H. pose proof (nth_lt _ _ _ H) as Lt. destruct o as [v ts| |ev|count current|k|k|k]; cbn [w_step b_step].
  - apply set_obs_at; auto.
  - exact H.
  - unfold w_evaluate. destruct (ev_bool _); cbn [w_register add_obs w_obs]; rewrite nth_error_app1; auto.
  - cbn [add_obs w_obs]. rewrite nth_error_app1; auto.
  - destruct (Nat.eqb_spec k n) as [->|N].
    + rewrite H. destruct b as [ev id fl ti r|r|s]; auto.
      * apply upd_nth, Lt.
      * destruct (s_pc s); auto; apply upd_nth, Lt.
    + destruct (nth_error (w_obs w) k) as [[ev id fl ti r|r|s]|]; auto.
      * cbn [set_obs w_obs]. rewrite upd_nth_ne by exact N. exact H.
      * destruct (s_pc s); auto; cbn [set_obs w_obs]; rewrite upd_nth_ne by exact N; exact H.
  - destruct (Nat.eqb_spec k n) as [->|N].
    + rewrite H. destruct b as [ev id fl ti r|r|s]; auto.
      * destruct (fl || ti); [apply upd_nth, Lt|exact H].
      * destruct (s_pc s); auto. destruct (s_timed s); [apply upd_nth, Lt|]. destruct (s_queue s); [exact H|]. apply upd_nth, Lt.
    + destruct (nth_error (w_obs w) k) as [[ev id fl ti r|r|s]|]; auto.
      * destruct (fl || ti); [|exact H]. cbn [set_obs w_obs w_remove]. rewrite upd_nth_ne by exact N. exact H.
      * destruct (s_pc s); auto. destruct (s_timed s); [|destruct (s_queue s); [exact H|]];
          cbn [set_obs w_obs w_remove]; rewrite upd_nth_ne by exact N; exact H.
  - destruct (Nat.eqb_spec k n) as [->|N].
    + rewrite H. destruct b as [ev id fl ti r|r|s]; auto. destruct (s_pc s); auto.
      * rewrite begin_eq. eapply loop_at. exact H.
      * eapply loop_at. exact H.
      * apply upd_nth, Lt.
    + destruct (nth_error (w_obs w) k) as [[ev id fl ti r|r|s]|]; auto. destruct (s_pc s); auto.
      * rewrite begin_eq, loop_other by exact N. exact H.
      * rewrite loop_other by exact N. exact H.
      * cbn [set_obs w_obs]. rewrite upd_nth_ne by exact N. exact H.
Qed.

(** The primitive itself. *)
Lemma loop_prim k s w : w_kind (w_loop k s w) = w_kind w /\ w_raw (w_loop k s w) = w_raw w /\ w_ts (w_loop k s w) = w_ts w.
Proof. unfold w_loop. destruct (s_iterate s) as [s1 []]; auto. Qed.
Lemma step_prim w o : w_kind (w_step w o) = w_kind w /\
  w_raw (w_step w o) = stored (w_kind w) (w_raw w) [o] /\ w_ts (w_step w o) = stamped (w_ts w) [o].
Proof.
  destruct o as [v ts| |ev|count current|k|k|k]; cbn [w_step stored stamped].
  - pose proof (set_frame w v ts) as F. cbn zeta in F. tauto.
  - auto.
  - unfold w_evaluate. destruct (ev_bool _); auto.
  - auto.
  - destruct (nth_error (w_obs w) k) as [[ev id fl ti r|r|s]|]; auto. destruct (s_pc s); auto.
  - destruct (nth_error (w_obs w) k) as [[ev id fl ti r|r|s]|]; auto; [destruct (fl || ti); auto|].
    destruct (s_pc s); auto. destruct (s_timed s); auto. destruct (s_queue s); auto.
  - destruct (nth_error (w_obs w) k) as [[ev id fl ti r|r|s]|]; auto. destruct (s_pc s); auto.
    + rewrite begin_eq. destruct (loop_prim k (s_started s (w_raw w) (w_ts w) (w_next w)) (fst (w_register (Some k) w))) as (A & B & C).
      rewrite A, B, C. auto.
    + apply loop_prim.
Qed.
Lemma stored_app k a : forall b r, stored k r (a ++ b) = stored k (stored k r a) b.
Proof. induction a as [|o a IH]; intros b r; [reflexivity|]. destruct o; cbn; apply IH. Qed.
Lemma stamped_app a : forall b r, stamped r (a ++ b) = stamped (stamped r a) b.
Proof. induction a as [|o a IH]; intros b r; [reflexivity|]. destruct o; cbn; apply IH. Qed.
Lemma changes_app k a : forall b r, changes k r (a ++ b) = changes k r a ++ changes k (stored k r a) b.
Proof. induction a as [|o a IH]; intros b r; [reflexivity|]. destruct o; cbn; rewrite IH; auto. rewrite app_assoc. reflexivity. Qed.
Lemma run_prim ops : forall w, w_kind (w_run w ops) = w_kind w /\
  w_raw (w_run w ops) = stored (w_kind w) (w_raw w) ops /\ w_ts (w_run w ops) = stamped (w_ts w) ops.
Proof.
  induction ops as [|o ops IH]; intros w; [repeat split; reflexivity|].
  change (w_run w (o :: ops)) with (w_run (w_step w o) ops).
  destruct (IH (w_step w o)) as (A & B & C). destruct (step_prim w o) as (D & E & F).
  rewrite A, B, C, D, E, F. destruct o; auto.
Qed.
Lemma run_app a b w : w_run w (a ++ b) = w_run (w_run w a) b.
Proof. apply fold_left_app. Qed.

(** * Waits *)
Definition is_deadline (n : nat) (o : wop) : bool := match o with ODeadline k => Nat.eqb k n | _ => false end.
Definition meetsb (ev : Z -> Z -> evres) (c : change) : bool := ev_bool (ev (ch_old c) (ch_new c)).
Lemma meetsb_iff ev l : existsb (meetsb ev) l = true <-> exists c, In c l /\ meets ev c.
Proof.
  rewrite existsb_exists. unfold meetsb, meets. split; intros (c & A & B); exists c; (split; [auto|]).
  - destruct (ev (ch_old c) (ch_new c)); cbn in B; congruence.
  - rewrite B. reflexivity.
Qed.
Lemma deadline_iff n l : existsb (is_deadline n) l = true <-> In (ODeadline n) l.
Proof.
  rewrite existsb_exists. unfold is_deadline. split.
  - intros (o & A & B). destruct o; try discriminate. apply Nat.eqb_eq in B. subst. auto.
  - intros A. exists (ODeadline n). split; [auto|]. apply Nat.eqb_refl.
Qed.
Lemma verdict_snoc ev l c : verdict ev (l ++ [c]) = ev (ch_old c) (ch_new c).
Proof. unfold verdict. rewrite rev_app_distr. reflexivity. Qed.

Lemma step_raw w mid : stored (w_kind w) (w_raw w) mid = w_raw (w_run w mid).
Proof. destruct (run_prim mid w) as (_ & B & _). auto. Qed.

Lemma wait_track w n ev id mid : WI w -> nth_error (w_obs w) n = Some (BWait ev id false false Timeout) ->
  let cs m := changes (w_kind w) (w_raw w) m in
  nth_error (w_obs (w_run w mid)) n =
    Some (BWait ev id (existsb (meetsb ev) (cs mid)) (existsb (is_deadline n) mid) (verdict ev (cs mid))) \/
  exists m1 m2, mid = m1 ++ OResume n :: m2 /\
    existsb (meetsb ev) (cs m1) || existsb (is_deadline n) m1 = true /\
    waits (w_run w m1) n = true /\
    nth_error (w_obs (w_run w mid)) n = Some (BReturned (verdict ev (cs m1))).
Proof.
  intros W H cs. induction mid as [|o mid IH] using rev_ind; [left; exact H|].
  pose proof (WI_run mid w W) as Wm. rewrite run_app. cbn [w_run fold_left]. fold (w_run w mid).
  destruct IH as [IH|(m1 & m2 & E & F & G & R)].
  - pose proof (step_obs (w_run w mid) o n _ Wm IH) as S. destruct (run_prim mid w) as (_ & Rw & _).
    unfold cs. rewrite !changes_app. rewrite !existsb_app.
    destruct o as [v ts| |e|count current|k|k|k]; cbn [b_step] in S; cbn [changes app existsb is_deadline];
      rewrite ?orb_false_r, ?app_nil_r.
    + left. rewrite S. unfold told. rewrite Rw. fold (cs mid). destruct (stored (w_kind w) (w_raw w) mid =? v).
      * cbn [app existsb]. rewrite ?orb_false_r, app_nil_r. reflexivity.
      * cbn [listening b_notify app existsb]. rewrite verdict_snoc. unfold meetsb at 3. cbn. rewrite ?orb_false_r. reflexivity.
    + left. exact S.
    + left. exact S.
    + left. exact S.
    + left. rewrite S. destruct (Nat.eqb k n); rewrite ?orb_false_r, ?orb_true_r; reflexivity.
    + destruct (Nat.eqb_spec k n) as [->|N]; [|left; exact S].
      fold (cs mid) in S. destruct (existsb (meetsb ev) (cs mid) || existsb (is_deadline n) mid) eqn:Q; [|left; exact S].
      right. exists mid, []. repeat split; auto. unfold waits. rewrite IH. reflexivity.
    + left. rewrite S. destruct (Nat.eqb k n); reflexivity.
  - right. exists m1, (m2 ++ [o]). split; [rewrite E, <- app_assoc; reflexivity|]. split; [exact F|]. split; [exact G|].
    rewrite (step_obs (w_run w mid) o n _ Wm R). destruct o as [v ts| |e|count current|k|k|k]; cbn [b_step]; auto.
    + unfold told. cbn. destruct (_ =? _); reflexivity.
    + destruct (Nat.eqb k n); reflexivity.
    + destruct (Nat.eqb k n); reflexivity.
    + destruct (Nat.eqb k n); reflexivity.
Qed.
Lemma returned_stays w n r mid : WI w -> nth_error (w_obs w) n = Some (BReturned r) ->
  nth_error (w_obs (w_run w mid)) n = Some (BReturned r).
Proof.
  revert w. induction mid as [|o mid IH]; intros w W H; [exact H|]. apply (IH (w_step w o)); [apply WI_step, W|].
  rewrite (step_obs w o n _ W H). destruct o as [v ts| |e|count current|k|k|k]; cbn [b_step]; auto.
  - unfold told. cbn. destruct (_ =? _); reflexivity.
  - destruct (Nat.eqb k n); reflexivity.
  - destruct (Nat.eqb k n); reflexivity.
  - destruct (Nat.eqb k n); reflexivity.
Qed.
Lemma evaluate_start w ev : let n := List.length (w_obs w) in
  nth_error (w_obs (w_step w (OEvaluate ev))) n =
  Some (if ev_bool (ev (w_raw w) (w_raw w)) then BReturned Success else BWait ev (w_next w) false false Timeout) /\
  w_kind (w_step w (OEvaluate ev)) = w_kind w /\ w_raw (w_step w (OEvaluate ev)) = w_raw w.
Proof.
  cbn [w_step]. unfold w_evaluate. destruct (ev_bool _); cbn [w_register add_obs w_obs w_kind w_raw];
    rewrite nth_error_app2, Nat.sub_diag by lia; auto.
Qed.

(** * Samplers *)
Lemma limit_snoc {A} count (l : list A) x :
  limit count (l ++ [x]) =
  if (0 <? count) && (count <=? zlen (limit count l)) then limit count l else limit count l ++ [x].
Proof.
  unfold limit, zlen. destruct (Z.ltb_spec 0 count); [|reflexivity]. cbn [andb].
  rewrite firstn_app, firstn_length. destruct (Nat.le_gt_cases (Z.to_nat count) (List.length l)) as [Q|Q].
  - replace (Z.to_nat count - List.length l)%nat with 0%nat by lia. cbn. rewrite app_nil_r.
    replace (count <=? _) with true by lia. reflexivity.
  - replace (count <=? _) with false by lia. rewrite (firstn_all2 (n := (Z.to_nat count - List.length l)%nat) [x]) by (cbn; lia). reflexivity.
Qed.

Definition seen (c : change) : Z * Z := (ch_new c, ch_ts c).
Definition full (count : Z) (l : list (Z * Z)) : bool := (0 <? count) && (count <=? zlen l).
Record in_loop (count : Z) (l : list (Z * Z)) (s : sampler) : Prop := {
  il_count : s_count s = count;
  il_all : s_out s ++ s_queue s = limit count l;
  il_n : s_samples s = zlen (limit count l);
  il_keep : s_keep s = negb (full count (limit count l)) }.

Lemma put_in_loop count l s x : in_loop count l s ->
  in_loop count (l ++ [x]) (if s_keep s then s_poll (s_put x s) else s).
Proof.
  intros [A B C D]. pose proof (limit_snoc count l x) as L. fold (full count (limit count l)) in L.
  destruct (full count (limit count l)) eqn:F; rewrite D; cbn [negb].
  - constructor; rewrite ?L; auto. rewrite D, F. reflexivity.
  - constructor; cbn [s_poll s_put s_count s_out s_queue s_samples s_keep]; rewrite ?L; auto.
    + rewrite app_assoc, B. reflexivity.
    + rewrite C. unfold zlen. rewrite app_length. cbn. lia.
    + rewrite A, C, D. unfold full. replace (zlen (limit count l) + 1) with (zlen (limit count l ++ [x])).
      * cbn [negb]. rewrite andb_comm. destruct (_ && _); reflexivity.
      * unfold zlen. rewrite app_length. cbn. lia.
Qed.
Lemma goto_in_loop count l s pc : in_loop count l s -> in_loop count l (s_goto pc s).
Proof. intros [A B C D]. constructor; auto. Qed.
Lemma take_all s pc : s_out (s_take pc s) ++ s_queue (s_take pc s) = s_out s ++ s_queue s.
Proof. unfold s_take. destruct (s_queue s) eqn:E; [rewrite E; reflexivity|]. cbn. rewrite <- app_assoc. reflexivity. Qed.
Lemma take_in_loop count l s pc : in_loop count l s -> in_loop count l (s_take pc s).
Proof.
  intros [A B C D]. pose proof (take_all s pc) as T. rewrite B in T. constructor; auto; unfold s_take; destruct (s_queue s); auto.
Qed.
Lemma drain_all s : s_out (s_drain s) ++ s_queue (s_drain s) = s_out s ++ s_queue s.
Proof. unfold s_drain. destruct (s_queue s) eqn:E; [cbn; rewrite E; reflexivity|rewrite <- E; apply take_all]. Qed.
Lemma drain_pc s : (s_pc (s_drain s) = SEnd /\ s_queue s = [] /\ s_queue (s_drain s) = []) \/ s_pc (s_drain s) = SDrain.
Proof. unfold s_drain, s_take. destruct (s_queue s) eqn:E; [left|right]; cbn; auto. Qed.
Lemma drain_count s : s_count (s_drain s) = s_count s.
Proof. unfold s_drain, s_take. destruct (s_queue s); reflexivity. Qed.

(** The state of sampler [n] after [mid], which began when it was started with
    [head] published: still in its loop, or it left it after [m1]. *)
Definition sampling (n : nat) (count : Z) (head : list (Z * Z)) (cs : list wop -> list change) (mid : list wop) (s : sampler) : Prop :=
  (in_loop count (head ++ map seen (cs mid)) s /\
   ((s_pc s = SGet /\ (s_timed s = true -> In (ODeadline n) mid)) \/ (s_pc s = SBody /\ s_timed s = false) \/
    (s_pc s = SStray /\ In (ODeadline n) mid))) \/
  (exists m1 m2, mid = m1 ++ m2 /\ s_out s ++ s_queue s = limit count (head ++ map seen (cs m1)) /\
   (full count (limit count (head ++ map seen (cs m1))) = true \/ In (ODeadline n) m1) /\
   ((s_pc s = SEnd /\ s_queue s = []) \/ s_pc s = SDrain)).

Lemma moved_sampling n count head cs mid s :
  in_loop count (head ++ map seen (cs mid)) s -> s_timed s = false -> sampling n count head cs mid (s_moved s).
Proof.
  intros L T. unfold s_moved, s_iterate. destruct (s_keep s) eqn:K.
  - left. destruct (s_queue s) as [|x q] eqn:Q.
    + split; [apply goto_in_loop, L|]. left. split; [reflexivity|]. cbn. congruence.
    + split; [apply take_in_loop, L|]. right. left. unfold s_take. rewrite Q. cbn. auto.
  - right. exists mid, []. split; [symmetry; apply app_nil_r|]. rewrite drain_all. split; [apply (il_all _ _ _ L)|]. split.
    + left. rewrite (il_keep _ _ _ L) in K. destruct (full _ _); [reflexivity|discriminate].
    + destruct (drain_pc s) as [(A & _ & B)|A]; auto.
Qed.

Lemma sample_track w n count head s0 mid : WI w -> nth_error (w_obs w) n = Some (BSampler s0) ->
  let cs m := changes (w_kind w) (w_raw w) m in
  sampling n count head cs [] s0 ->
  exists s, nth_error (w_obs (w_run w mid)) n = Some (BSampler s) /\ sampling n count head cs mid s.
Proof.
  intros W H cs S0. induction mid as [|o mid IH] using rev_ind; [exists s0; auto|].
  pose proof (WI_run mid w W) as Wm. rewrite run_app. cbn [w_run fold_left]. fold (w_run w mid).
  destruct IH as (s & IH & S). pose proof (step_obs (w_run w mid) o n _ Wm IH) as T. destruct (run_prim mid w) as (_ & Rw & _).
  assert (Same : cs (mid ++ [o]) = cs mid -> sampling n count head cs (mid ++ [o]) s).
  { intros E. destruct S as [[L P]|(m1 & m2 & A & B & C & D)].
    - left. rewrite E. split; [exact L|]. rewrite in_app_iff. tauto.
    - right. exists m1, (m2 ++ [o]). rewrite A, <- app_assoc. auto. }
  assert (Quiet : (forall v ts, o <> OSet v ts) -> cs (mid ++ [o]) = cs mid).
  { intros Q. unfold cs. rewrite changes_app. destruct o; cbn; rewrite ?app_nil_r; auto. destruct (Q v ts); reflexivity. }
  destruct o as [v ts| |e|cnt current|k|k|k]; cbn [b_step] in T.
  - (* an assignment *)
    unfold told in T. rewrite Rw in T.
    assert (E : cs (mid ++ [OSet v ts]) = cs mid ++ if stored (w_kind w) (w_raw w) mid =? v then [] else [mkChange (stored (w_kind w) (w_raw w) mid) v ts]).
    { unfold cs. rewrite changes_app. cbn. rewrite app_nil_r. reflexivity. }
    destruct (stored (w_kind w) (w_raw w) mid =? v).
    + exists s. split; [exact T|]. apply Same. rewrite E. apply app_nil_r.
    + destruct S as [[L P]|(m1 & m2 & A & B & C & D)].
      * assert (Ls : exists i, listening (BSampler s) = Some i).
        { cbn. destruct P as [[-> _]|[[-> _]|[-> _]]]; eauto. }
        destruct Ls as (i & Ls). rewrite Ls in T. cbn [b_notify] in T.
        set (x := (v, ts)) in *. pose proof (put_in_loop count _ s x L) as L'.
        replace ((head ++ map seen (cs mid)) ++ [x]) with (head ++ map seen (cs (mid ++ [OSet v ts]))) in L'
          by (rewrite E, map_app, app_assoc; reflexivity).
        exists (if s_keep s then s_poll (s_put x s) else s). split; [rewrite T; destruct (s_keep s); reflexivity|].
        left. split; [exact L'|]. rewrite in_app_iff. destruct (s_keep s); cbn; tauto.
      * exists s. split.
        -- rewrite T. cbn. destruct D as [[-> _]| ->]; reflexivity.
        -- right. exists m1, (m2 ++ [OSet v ts]). rewrite A, <- app_assoc. auto.
  - exists s. split; [exact T|]. apply Same, Quiet. congruence.
  - exists s. split; [exact T|]. apply Same, Quiet. congruence.
  - exists s. split; [exact T|]. apply Same, Quiet. congruence.
  - (* deadline *)
    assert (Q : cs (mid ++ [ODeadline k]) = cs mid) by (apply Quiet; congruence).
    destruct (Nat.eqb_spec k n) as [->|N]; [|exists s; split; [exact T|apply Same, Q]].
    destruct (s_pc s) eqn:P; try (exists s; split; [exact T|apply Same, Q]).
    + eexists. split; [exact T|]. destruct S as [[L _]|(m1 & m2 & _ & _ & _ & [[D _]|D])]; [|congruence|congruence].
      left. rewrite Q. split; [destruct L; constructor; auto|]. left. split; [reflexivity|]. intros _. apply in_app_iff. cbn. auto.
    + eexists. split; [exact T|]. destruct S as [[L _]|(m1 & m2 & _ & _ & _ & [[D _]|D])]; [|congruence|congruence].
      left. rewrite Q. split; [apply goto_in_loop, L|]. right. right. split; [reflexivity|]. apply in_app_iff. cbn. auto.
  - (* resumption *)
    assert (Q : cs (mid ++ [OResume k]) = cs mid) by (apply Quiet; congruence).
    destruct (Nat.eqb_spec k n) as [->|N]; [|exists s; split; [exact T|apply Same, Q]].
    destruct (s_pc s) eqn:P; try (exists s; split; [exact T|apply Same, Q]).
    destruct S as [[L PP]|(m1 & m2 & _ & _ & _ & [[D _]|D])]; [|congruence|congruence].
    assert (Tm : s_timed s = true -> In (ODeadline n) mid).
    { destruct PP as [[_ X]|[[X _]|[X _]]]; [exact X|congruence|congruence]. }
    destruct (s_timed s) eqn:TT.
    + eexists. split; [exact T|]. right. exists mid, [OResume n]. split; [reflexivity|]. rewrite drain_all.
      split; [apply (il_all _ _ _ L)|]. split; [auto|]. destruct (drain_pc s) as [(A & _ & B)|A]; auto.
    + destruct (s_queue s) as [|x q] eqn:Qq; [exists s; split; [exact T|apply Same, Q]|].
      eexists. split; [exact T|]. left. rewrite Q. split; [apply take_in_loop, L|]. right. left. unfold s_take. rewrite Qq. cbn. auto.
  - (* next *)
    assert (Q : cs (mid ++ [ONext k]) = cs mid) by (apply Quiet; congruence).
    destruct (Nat.eqb_spec k n) as [->|N]; [|exists s; split; [exact T|apply Same, Q]].
    destruct (s_pc s) eqn:P; try (exists s; split; [exact T|apply Same, Q]).
    + exfalso. destruct S as [[_ [[X _]|[[X _]|[X _]]]]|(m1 & m2 & _ & _ & _ & [[X _]|X])]; congruence.
    + destruct S as [[L PP]|(m1 & m2 & _ & _ & _ & [[D _]|D])]; [|congruence|congruence].
      assert (Tm : s_timed s = false) by (destruct PP as [[X _]|[[_ X]|[X _]]]; [congruence|exact X|congruence]).
      eexists. split; [exact T|]. apply moved_sampling; [rewrite Q; exact L|exact Tm].
    + destruct S as [[_ [[X _]|[[X _]|[X _]]]]|(m1 & m2 & A & B & C & D)]; [congruence|congruence|congruence|].
      eexists. split; [exact T|]. right. exists m1, (m2 ++ [ONext n]). rewrite A, <- app_assoc, drain_all. repeat split; auto.
      destruct (drain_pc s) as [(X & _ & Y)|X]; auto.
Qed.
Lemma new_stays w n count current mid : WI w ->
  nth_error (w_obs w) n = Some (BSampler (mkSampler count current SNew 0 [] true 0 false [])) -> ~ In (ONext n) mid ->
  nth_error (w_obs (w_run w mid)) n = Some (BSampler (mkSampler count current SNew 0 [] true 0 false [])).
Proof.
  revert w. induction mid as [|o mid IH]; intros w W H N; [exact H|]. apply (IH (w_step w o)); [apply WI_step, W| |intros K; apply N; right; exact K].
  rewrite (step_obs w o n _ W H). destruct o as [v ts| |e|cnt cur|k|k|k]; cbn [b_step]; auto.
  - unfold told. cbn. destruct (_ =? _); reflexivity.
  - destruct (Nat.eqb k n); reflexivity.
  - destruct (Nat.eqb k n); reflexivity.
  - destruct (Nat.eqb_spec k n) as [->|]; [|reflexivity]. exfalso. apply N. left. reflexivity.
Qed.
Definition head_of (current : bool) (raw ts : Z) : list (Z * Z) := if current then [(raw, ts)] else [].
Lemma next_start w n count current : WI w ->
  nth_error (w_obs w) n = Some (BSampler (mkSampler count current SNew 0 [] true 0 false [])) ->
  exists s, nth_error (w_obs (w_step w (ONext n))) n = Some (BSampler s) /\
    forall cs, cs [] = [] -> sampling n count (head_of current (w_raw w) (w_ts w)) cs [] s.
Proof.
  intros W H. rewrite (step_obs w (ONext n) n _ W H). cbn [b_step s_pc]. rewrite Nat.eqb_refl.
  eexists. split; [reflexivity|]. intros cs C. apply moved_sampling; [|destruct current; reflexivity].
  rewrite C. cbn [map]. rewrite app_nil_r. unfold head_of, s_started. cbn [s_current s_count s_pc s_id s_out].
  set (s0 := mkSampler count current SNew 0 [] true 0 false []).
  assert (L0 : in_loop count [] s0).
  { constructor; cbn; auto; unfold limit, full, limit; destruct (0 <? count) eqn:E; cbn; rewrite ?firstn_nil; auto. cbn.
    replace (count <=? 0) with false by lia. reflexivity. }
  destruct current.
  - pose proof (put_in_loop count [] s0 (w_raw w, w_ts w) L0) as L. cbn [s_keep s0 app] in L.
    destruct L as [A B C' D]. constructor; auto.
  - destruct L0 as [A B C' D]. constructor; auto.
Qed.

(** * Counting callbacks *)
Definition tally_obs (l : list obs) : nat := List.length (filter observing l).
Lemma observing_listening b : observing b = match listening b with Some _ => true | None => false end.
Proof. destruct b as [| |s]; auto. cbn. destruct (s_pc s); reflexivity. Qed.
Lemma tally_upd k b b' l : nth_error l k = Some b ->
  (tally_obs (upd k b' l) + (if observing b then 1 else 0) = tally_obs l + (if observing b' then 1 else 0))%nat.
Proof.
  revert k. induction l as [|x l IH]; intros [|k] H; try discriminate.
  - injection H as ->. unfold tally_obs. cbn. destruct (observing b), (observing b'); cbn; lia.
  - specialize (IH k H). unfold tally_obs in *. cbn. destruct (observing x); cbn; lia.
Qed.
Lemma tally_add l b : tally_obs (l ++ [b]) = (tally_obs l + if observing b then 1 else 0)%nat.
Proof. unfold tally_obs. rewrite filter_app, app_length. cbn. destruct (observing b); reflexivity. Qed.
Lemma ddel_length {V} (i : Z) (d : list (Z * V)) : NoDup (map fst d) -> In i (map fst d) ->
  (List.length (ddel i d) + 1 = List.length d)%nat.
Proof.
  induction d as [|[a b] d IH]; cbn; intros N H; [tauto|]. inversion_clear N. destruct (eq_dec i a) as [->|E].
  - assert (K : forall d : list (Z * V), ~ In a (map fst d) -> ddel a d = d).
    { clear. induction d as [|[x y] d IH]; cbn; intros H; [reflexivity|]. destruct (eq_dec a x); [subst; tauto|]. rewrite IH; tauto. }
    rewrite K by assumption. lia.
  - cbn. rewrite <- IH; [lia|assumption|]. destruct H; [congruence|assumption].
Qed.
Lemma told_observing raw v ts b : observing (told raw v ts b) = observing b.
Proof.
  rewrite !observing_listening. unfold told. destruct (raw =? v); [reflexivity|]. destruct (listening b) eqn:E; [rewrite notify_listening, E; reflexivity|rewrite E; reflexivity].
Qed.
Lemma tally_set w v ts : WI w -> tally_obs (w_obs (w_set v ts w)) = tally_obs (w_obs w).
Proof.
  intros W. destruct (set_frame w v ts) as (_ & _ & _ & _ & _ & L).
  assert (E : w_obs (w_set v ts w) = map (told (w_raw w) v ts) (w_obs w)).
  { assert (X : forall (a b : list obs), (forall k, nth_error a k = nth_error b k) -> a = b).
    { clear. induction a as [|x a IH]; intros [|y b] H; auto; [specialize (H 0%nat); discriminate|specialize (H 0%nat); discriminate|].
      f_equal; [specialize (H 0%nat); cbn in H; congruence|]. apply IH. intros k. apply (H (S k)). }
    apply X. intros k. rewrite nth_error_map. destruct (nth_error (w_obs w) k) as [b|] eqn:E.
    - apply set_obs_at; auto.
    - apply nth_error_None in E. cbn. apply nth_error_None. lia. }
  rewrite E. clear E L. unfold tally_obs. induction (w_obs w) as [|b l IH]; [reflexivity|]. cbn. rewrite told_observing. destruct (observing b); cbn; rewrite IH; reflexivity.
Qed.
Definition balanced (w : world) (n : nat) : Prop := List.length (w_cbs w) = (tally_obs (w_obs w) + n)%nat.
Lemma leave_balanced w k b b' id n : WI w -> nth_error (w_obs w) k = Some b -> listening b = Some id -> listening b' = None ->
  balanced w n -> balanced (set_obs k b' (w_remove id w)) n.
Proof.
  intros W H L L' B. unfold balanced in *. cbn [set_obs w_remove w_cbs w_obs].
  pose proof (tally_upd k b b' _ H) as T. rewrite !observing_listening, L, L' in T.
  assert (I : In (id, Some k) (w_cbs w)) by (apply (wi_in _ W); eauto).
  pose proof (ddel_length id (w_cbs w) (wi_nd _ W) (in_map fst _ _ I)). lia.
Qed.
Lemma set_balanced w k b b' n : nth_error (w_obs w) k = Some b -> observing b' = observing b -> balanced w n -> balanced (set_obs k b' w) n.
Proof.
  intros H E B. unfold balanced in *. cbn [set_obs w_cbs w_obs]. pose proof (tally_upd k b b' _ H) as T. rewrite E in T. lia.
Qed.
Lemma enter_balanced w k b b' n : WI w -> nth_error (w_obs w) k = Some b -> observing b = false -> observing b' = true ->
  balanced w n -> balanced (set_obs k b' (fst (w_register (Some k) w))) n.
Proof.
  intros W H L L' B. unfold balanced in *. pose proof (register_cbs (Some k) w W) as R. cbn [set_obs w_cbs w_obs]. rewrite R, app_length. cbn [fst w_register w_obs List.length].
  pose proof (tally_upd k b b' _ H) as T. rewrite L, L' in T. lia.
Qed.
Lemma loop_balanced w k b s n : WI w -> nth_error (w_obs w) k = Some b -> listening b = Some (s_id s) -> balanced w n -> balanced (w_loop k s w) n.
Proof.
  intros W H L B. unfold w_loop. destruct (s_iterate s) as [s' over] eqn:E. destruct over.
  - apply iterate_over in E as [-> _]. eapply leave_balanced; eauto. apply drain_listening.
  - eapply set_balanced; eauto. rewrite !observing_listening, (iterate_listening _ _ E), L. reflexivity.
Qed.
Lemma step_balanced w o n : WI w -> balanced w n -> balanced (w_step w o) (n + if is_other o then 1 else 0).
Proof.
  intros W B. destruct o as [v ts| |ev|count current|k|k|k]; cbn [w_step is_other]; rewrite ?Nat.add_0_r.
  - unfold balanced in *. destruct (set_frame w v ts) as (_ & _ & _ & _ & C & _). rewrite C, tally_set; auto.
  - unfold balanced in *. rewrite (register_cbs None w W), app_length. cbn [fst w_register w_obs List.length]. lia.
  - unfold w_evaluate. destruct (ev_bool _).
    + unfold balanced in *. cbn [add_obs w_cbs w_obs]. rewrite tally_add. cbn. lia.
    + pose proof (register_cbs (Some (List.length (w_obs w))) w W) as R. unfold w_register in *. cbn [fst w_cbs] in R.
      unfold balanced in *. cbn [add_obs w_cbs w_obs]. rewrite R, tally_add, app_length. cbn. lia.
  - unfold balanced in *. cbn [add_obs w_cbs w_obs]. rewrite tally_add. cbn. lia.
  - destruct (nth_error (w_obs w) k) as [[ev id fl ti r|r|s]|] eqn:E; auto.
    + eapply set_balanced; eauto.
    + destruct (s_pc s) eqn:P; auto; eapply set_balanced; eauto; cbn; rewrite P; reflexivity.
  - destruct (nth_error (w_obs w) k) as [[ev id fl ti r|r|s]|] eqn:E; auto.
    + destruct (fl || ti); [|auto]. eapply leave_balanced; eauto; reflexivity.
    + destruct (s_pc s) eqn:P; auto. destruct (s_timed s).
      * eapply leave_balanced; eauto; [cbn; rewrite P; reflexivity|apply drain_listening].
      * destruct (s_queue s) as [|x q] eqn:Q; [auto|]. eapply set_balanced; eauto. unfold s_take. rewrite Q. cbn. rewrite P. reflexivity.
  - destruct (nth_error (w_obs w) k) as [[ev id fl ti r|r|s]|] eqn:E; auto.
    destruct (s_pc s) eqn:P; auto.
    + rewrite begin_eq. set (s1 := s_started s (w_raw w) (w_ts w) (w_next w)).
      set (b := BSampler (s_goto SGet s1)). rewrite <- (loop_again _ k b). eapply loop_balanced with (b := b).
      * eapply WI_enter; [exact W|exact E|cbn; rewrite P; reflexivity|reflexivity].
      * cbn [set_obs w_obs w_register fst]. apply upd_nth. eapply nth_lt; eauto.
      * reflexivity.
      * eapply enter_balanced; [exact W|exact E|cbn; rewrite P; reflexivity|reflexivity|exact B].
    + eapply loop_balanced; eauto. cbn. rewrite P. reflexivity.
    + eapply set_balanced; eauto. rewrite !observing_listening, drain_listening. cbn. rewrite P. reflexivity.
Qed.
Lemma run_balanced ops : forall w n, WI w -> balanced w n ->
  balanced (w_run w ops) (n + List.length (filter is_other ops)).
Proof.
  induction ops as [|o ops IH]; intros w n W B; [rewrite Nat.add_0_r; exact B|].
  change (w_run w (o :: ops)) with (w_run (w_step w o) ops).
  replace (n + _)%nat with ((n + if is_other o then 1 else 0) + List.length (filter is_other ops))%nat by (cbn; destruct (is_other o); cbn; lia).
  apply IH; [apply WI_step, W|apply step_balanced; auto].
Qed.

(** * Draining *)
Lemma drain_run n : forall q w s, WI w -> nth_error (w_obs w) n = Some (BSampler s) -> s_pc s = SDrain -> s_queue s = q ->
  exists s', nth_error (w_obs (w_run w (repeat (ONext n) (S (List.length q))))) n = Some (BSampler s') /\
    s_pc s' = SEnd /\ s_out s' = s_out s ++ q.
Proof.
  induction q as [|x q IH]; intros w s W H P Q; cbn [List.length repeat]; pose proof (step_obs w (ONext n) n _ W H) as T;
    cbn [b_step] in T; rewrite Nat.eqb_refl, P in T; unfold s_drain in T; rewrite Q in T.
  - eexists. split; [exact T|]. cbn. split; [reflexivity|]. rewrite app_nil_r. reflexivity.
  - unfold s_take in T. rewrite Q in T. change (w_run w (ONext n :: ?l)) with (w_run (w_step w (ONext n)) l).
    destruct (IH (w_step w (ONext n)) _ (WI_step _ _ W) T eq_refl eq_refl) as (s' & A & B & C).
    exists s'. split; [exact A|]. split; [exact B|]. rewrite C. cbn. rewrite <- app_assoc. reflexivity.
Qed.
