(** C48: tabs leave no callbacks behind.  C63: tabs display the current values and
    report every change.  C64: log handlers. *)
From Verif Require Import Base BaseLemmas PrimModel PrimSpec PrimProofs TabModel TabSpec TabProofs.
From Coq Require Import ZifyBool ZifyNat Lia.
Open Scope list_scope.
Open Scope Z_scope.

Section Tabs.
(** Any tabs, any names in each (no name twice), any primitives, any rendering. *)
Context (ntabs : nat) (names : nat -> list (Z * nat)) (view : nat -> Z -> Z -> Z) (prims : nat -> kind * Z).
Hypothesis distinct : forall t, NoDup (map fst (names t)).

Notation after h := (fst (t_run ntabs names view (w_init prims) h)).
Notation sent h := (snd (t_run ntabs names view (w_init prims) h)).

(** C48, exactly: after any history, the number of callbacks that a tab holds for
    each of its names is the number of its showings that no hiding and no closing was
    paired with, and it holds no other. *)
Theorem C48_exact : forall h c t n p, (t < ntabs)%nat ->
  (In (n, p) (names t) -> held (after h) p c t n = vs_unpaired (vis_of c t h)) /\
  (~ In (n, p) (names t) -> held (after h) p c t n = 0%nat).
Proof.
  intros h c t n p Ht. destruct (gi_tab _ _ _ _ (ginv_run ntabs names view distinct prims h) c t Ht) as [a b _ _ _ _]. split; intros H.
  - apply a, In_dget; [apply distinct|exact H].
  - apply b. intros E. apply H, dget_In, E.
Qed.

Lemma alternating_unpaired c t h : alternating c t h -> vs_unpaired (vis_of c t h) = if vs_shown (vis_of c t h) then 1%nat else 0%nat.
Proof.
  induction h as [|e h IH] using rev_ind; intros A; [reflexivity|].
  assert (A0 : alternating c t h) by (intros h1 h2 E; apply (A h1 (h2 ++ [e])); rewrite E, <- app_assoc; reflexivity).
  specialize (IH A0). rewrite vis_snoc. set (v := vis_of c t h) in *. unfold vis_step. destruct (vs_open v) eqn:O; cbn [negb]; [|exact IH].
  destruct e as [c' t'|c' t'|c' t'|c'|c'|q x ts]; try exact IH.
  - destruct (Nat.eqb_spec c' c) as [->|]; [|exact IH]. destruct (Nat.eqb_spec t' t) as [->|]; [|exact IH]. cbn.
    assert (S : vs_shown v = false) by (apply (A h [] eq_refl), O). rewrite S in IH. rewrite IH. reflexivity.
  - destruct (Nat.eqb_spec c' c) as [->|]; [|exact IH]. destruct (Nat.eqb_spec t' t) as [->|]; [|exact IH]. cbn. destruct (vs_shown v); rewrite IH; reflexivity.
  - destruct (Nat.eqb_spec c' c) as [->|]; [|exact IH]. cbn. destruct (vs_shown v); rewrite IH; reflexivity.
Qed.

(** C48, if the tab is never shown while it is shown: one callback for each name
    while shown, none while hidden or closed. *)
Theorem C48_balanced_partial : forall h c t n p, (t < ntabs)%nat -> In (n, p) (names t) -> alternating c t h ->
  held (after h) p c t n = if vs_shown (vis_of c t h) then 1%nat else 0%nat.
Proof.
  intros h c t n p Ht Hn A. rewrite (proj1 (C48_exact h c t n p Ht) Hn). apply alternating_unpaired, A.
Qed.

(** C48.  Refuted in general: shown twice, a tab that is hidden again, and whose
    connection is closed, still holds a callback for every name. *)
Theorem C48_leak_refuted : forall c t n p, (t < ntabs)%nat -> In (n, p) (names t) ->
  held (after [EShown c t; EShown c t; EHidden c t]) p c t n = 1%nat /\
  held (after [EShown c t; EShown c t; EHidden c t; EClose c]) p c t n = 1%nat.
Proof.
  intros c t n p Ht Hn. rewrite !(proj1 (C48_exact _ c t n p Ht) Hn). unfold vis_of. cbn. unfold vis_step. repeat (cbn; rewrite ?Nat.eqb_refl). split; reflexivity.
Qed.

(** C63: between two frames of a connection, every change of a primitive reaches the
    tab, in order, with its time: once for each unpaired showing. *)
Theorem C63_reported_exact : forall h1 h2 c t n p, (t < ntabs)%nat -> In (n, p) (names t) ->
  vs_open (vis_of c t h1) = true -> forallb (quiet c t) h2 = true ->
  let w := after (h1 ++ [EFrame c]) in
  points c t n (snd (t_step ntabs names view (after (h1 ++ EFrame c :: h2)) (EFrame c))) =
  flat_map (fun x => repeat (view t n (fst x), snd x) (vs_unpaired (vis_of c t h1)))
    (changes (tp_kind (w_prims w p)) (tp_raw (w_prims w p)) p h2).
Proof.
  intros h1 h2 c t n p Ht Hn Ho Q w. apply In_dget in Hn; [|apply distinct].
  assert (G0 : ginv ntabs names h1 (after h1)) by (apply ginv_run, distinct).
  assert (G1 : ginv ntabs names (h1 ++ [EFrame c]) w) by (apply ginv_run, distinct).
  assert (Eh : h1 ++ EFrame c :: h2 = (h1 ++ [EFrame c]) ++ h2) by (rewrite <- app_assoc; reflexivity).
  assert (G2 : ginv ntabs names (h1 ++ EFrame c :: h2) (after (h1 ++ EFrame c :: h2))) by (apply ginv_run, distinct).
  assert (Vq : forall l v, forallb (quiet c t) l = true -> fold_left (vis_step c t) l v = v).
  { induction l as [|e l IH]; intros v H; [reflexivity|]. cbn in H. apply andb_true_iff in H. destruct H as [H1 H2]. cbn [fold_left]. rewrite quiet_vis by exact H1. apply IH, H2. }
  assert (V1 : vis_of c t (h1 ++ [EFrame c]) = vis_of c t h1) by (rewrite vis_snoc; unfold vis_step; rewrite Ho; reflexivity).
  assert (V2 : vis_of c t (h1 ++ EFrame c :: h2) = vis_of c t h1) by (rewrite Eh; unfold vis_of; rewrite fold_left_app; change (fold_left (vis_step c t) (h1 ++ [EFrame c]) (mkVis true false 0)) with (vis_of c t (h1 ++ [EFrame c])); rewrite V1; apply Vq, Q).
  assert (O2 : w_open (after (h1 ++ EFrame c :: h2)) c = true) by (rewrite (gi_open _ _ _ _ G2 c t Ht), V2; exact Ho).
  assert (O0 : w_open (after h1) c = true) by (rewrite (gi_open _ _ _ _ G0 c t Ht); exact Ho).
  destruct (frame_fx ntabs names view distinct c t _ _ Ht G2 O2) as (_ & P & _). rewrite P. rewrite Eh, (run_app ntabs names view (w_init prims) (h1 ++ [EFrame c]) h2). cbn [fst]. fold w.
  rewrite (quiet_points ntabs names view distinct c t n p Ht Hn h2 (h1 ++ [EFrame c]) w G1 Q), V1.
  destruct (frame_fx ntabs names view distinct c t _ _ Ht G0 O0) as (_ & _ & P0 & _).
  assert (W : w = fst (t_step ntabs names view (after h1) (EFrame c))) by (unfold w; rewrite run_snoc; reflexivity).
  rewrite W at 1. rewrite P0. reflexivity.
Qed.

(** C63, in tidy histories: whenever the tab was just shown, or a frame was just
    sent to it and nothing was assigned since, it displays the current value of every
    name. *)
Theorem C63_display_partial : forall h c t n p, (t < ntabs)%nat -> In (n, p) (names t) -> mood_of c t h = Fresh ->
  displays c t n (sent h) (view t n (tp_raw (w_prims (after h) p))).
Proof.
  intros h c t n p Ht Hn M. apply In_dget in Hn; [|apply distinct]. pose proof (minv_run ntabs names view distinct prims c t h Ht) as X. rewrite M in X. cbn [minv] in X.
  destruct X as (_ & _ & X). apply X, Hn.
Qed.

(** C64: a tab's log handler is attached to its logger once while its connection is
    open and after it was initialized, however often, and not at all otherwise. *)
Theorem C64_handlers : forall h c t, (t < ntabs)%nat ->
  List.length (filter (Nat.eqb c) (w_handlers (after h) t)) = if logging c t h then 1%nat else 0%nat.
Proof.
  intros h c t Ht. destruct (gi_log _ _ _ _ (ginv_run ntabs names view distinct prims h) c t Ht) as [A B]. unfold logging. rewrite A. exact B.
Qed.
End Tabs.

(** One tab, one name over one byte, displayed as it is. *)
Definition one_name : nat -> list (Z * nat) := fun _ => [(7, 0%nat)].
Definition plain : nat -> Z -> Z -> Z := fun _ _ raw => raw.
Definition bytes0 : nat -> kind * Z := fun _ => (U8, 1).

Lemma frames_idle w k : w_open w 0 = true -> ts_points (w_tabs w 0 0) = [] -> t_run 1 one_name plain w (repeat (EFrame 0) k) = (w, []).
Proof.
  intros O P. assert (E : t_step 1 one_name plain w (EFrame 0) = (w, [])) by (cbn [t_step]; rewrite O; unfold frames; cbn [seq fold_left fst snd]; unfold frame1; rewrite P; reflexivity).
  induction k as [|k IH]; [reflexivity|]. cbn [repeat t_run]. rewrite E, IH. reflexivity.
Qed.
Lemma run_idle w0 h k : let r := t_run 1 one_name plain w0 h in w_open (fst r) 0 = true -> ts_points (w_tabs (fst r) 0 0) = [] ->
  t_run 1 one_name plain w0 (h ++ repeat (EFrame 0) k) = r.
Proof. intros r O P. rewrite run_app. fold r. rewrite (frames_idle _ k O P). cbn [fst snd]. rewrite app_nil_r. symmetry. apply surjective_pairing. Qed.
Definition stale : list tev := [EShown 0 0; EFrame 0; ESet 0 5 100; EHidden 0 0; EShown 0 0].
Lemma stale_open : w_open (fst (t_run 1 one_name plain (w_init bytes0) stale)) 0 = true.
Proof. vm_compute. reflexivity. Qed.
Lemma stale_points : ts_points (w_tabs (fst (t_run 1 one_name plain (w_init bytes0) stale)) 0 0) = [].
Proof. vm_compute. reflexivity. Qed.
Lemma stale_raw : tp_raw (w_prims (fst (t_run 1 one_name plain (w_init bytes0) stale)) 0) = 5.
Proof. vm_compute. reflexivity. Qed.
Lemma stale_told : told 0 0 7 (snd (t_run 1 one_name plain (w_init bytes0) stale)) = [1].
Proof. vm_compute. reflexivity. Qed.

(** C63.  Refuted: a value assigned after the last frame before the tab was hidden is
    never displayed: not when the tab is shown again, nor by any number of frames. *)
Theorem C63_stale_refuted : forall k,
  tp_raw (w_prims (fst (t_run 1 one_name plain (w_init bytes0) (stale ++ repeat (EFrame 0) k))) 0) = 5 /\
  told 0 0 7 (snd (t_run 1 one_name plain (w_init bytes0) (stale ++ repeat (EFrame 0) k))) = [1].
Proof.
  intros k. rewrite (run_idle _ stale k stale_open stale_points). split; [exact stale_raw|exact stale_told].
Qed.

(** C63.  Refuted: shown twice, the tab is told of each change twice. *)
Theorem C63_twice_refuted :
  points 0 0 7 (snd (t_run 1 one_name plain (w_init bytes0) [EShown 0 0; EShown 0 0; ESet 0 5 100; EFrame 0])) = [(5, 100); (5, 100)].
Proof. vm_compute. reflexivity. Qed.

(** The hypotheses are met: two tabs, two connections, names that share a
    primitive. *)
Definition two_tabs : nat -> list (Z * nat) := fun t => if Nat.eqb t 0 then [(1, 0%nat); (2, 0%nat); (3, 1%nat)] else [(1, 2%nat)].
Definition bit_view : nat -> Z -> Z -> Z := fun _ n raw => if n =? 2 then raw mod 2 else raw.
Definition busy : list tev :=
  [EInit 0 0; EShown 0 0; EInit 0 0; EShown 1 0; ESet 0 3 10; EFrame 0; ESet 0 4 20; ESet 0 4 21; ESet 1 9 22; EShown 1 1; ESet 0 260 23; EInit 1 1].

Example two_tabs_distinct : forall t, NoDup (map fst (two_tabs t)).
Proof. intros t. unfold two_tabs. destruct (Nat.eqb t 0); cbn; repeat constructor; cbn; intuition discriminate. Qed.
Example busy_held :
  let w := fst (t_run 2 two_tabs bit_view (w_init bytes0) busy) in
  held w 0 0 0 1 = 1%nat /\ held w 0 0 0 2 = 1%nat /\ held w 1 0 0 3 = 1%nat /\ held w 0 1 0 1 = 1%nat /\ held w 2 1 1 1 = 1%nat /\ held w 2 0 1 1 = 0%nat.
Proof. vm_compute. repeat split. Qed.
Example busy_closed :
  let w := fst (t_run 2 two_tabs bit_view (w_init bytes0) (busy ++ [EHidden 0 0; EClose 1])) in
  map (fun p => tp_cbs (w_prims w p)) [0; 1; 2]%nat = [[]; []; []].
Proof. vm_compute. reflexivity. Qed.
Example busy_points :
  points 0 0 2 (snd (t_run 2 two_tabs bit_view (w_init bytes0) (busy ++ [EFrame 0]))) = [(1, 10); (0, 20); (0, 23)].
Proof. vm_compute. reflexivity. Qed.
Example busy_mood : mood_of 0 0 (busy ++ [EFrame 0]) = Fresh.
Proof. reflexivity. Qed.
Example busy_logging : logging 0 0 busy = true /\ logging 0 0 (busy ++ [EClose 0]) = false /\ logging 0 1 busy = false.
Proof. repeat split. Qed.

Print Assumptions C48_exact.
Print Assumptions C48_balanced_partial.
Print Assumptions C48_leak_refuted.
Print Assumptions C63_reported_exact.
Print Assumptions C63_display_partial.
Print Assumptions C63_stale_refuted.
Print Assumptions C63_twice_refuted.
Print Assumptions C64_handlers.
