(** Proofs about the interface's tabs. *)
From Verif Require Import Base BaseLemmas PrimModel PrimSpec PrimProofs TabModel TabSpec.
From Coq Require Import ZifyBool ZifyNat Lia.
Open Scope list_scope.
Open Scope Z_scope.

Lemma owner_eqb_eq a b : owner_eqb a b = true <-> a = b.
Proof.
  destruct a as [[a1 a2] a3], b as [[b1 b2] b3]. unfold owner_eqb. cbn [fst snd]. rewrite !andb_true_iff, !Nat.eqb_eq, Z.eqb_eq.
  split; [intros [[-> ->] ->]; reflexivity|intros H; injection H as -> -> ->; auto].
Qed.
Lemma owner_eqb_refl a : owner_eqb a a = true.
Proof. apply owner_eqb_eq. reflexivity. Qed.
Lemma owner_eqb_ne a b : a <> b -> owner_eqb a b = false.
Proof. intros H. destruct (owner_eqb a b) eqn:E; [apply owner_eqb_eq in E; contradiction|reflexivity]. Qed.

Definition wfp (x : tprim) : Prop := NoDup (dkeys (tp_cbs x)) /\ (forall i o, dget i (tp_cbs x) = Some o -> i < tp_next x) /\ k_value (tp_kind x) (tp_raw x).
Definition wfw (w : world) : Prop := forall p, wfp (w_prims w p).
Definition cbs (w : world) (p : nat) := tp_cbs (w_prims w p).
Definition cnt (o : nat * nat * Z) (l : list (Z * (nat * nat * Z))) : nat := List.length (filter (owner_eqb o) (map snd l)).

Lemma ddel_notin {V} (i : Z) (l : list (Z * V)) : ~ In i (dkeys l) -> ddel i l = l.
Proof.
  induction l as [|[k v] l IH]; cbn; intros H; [reflexivity|]. destruct (eq_dec i k) as [->|]; [exfalso; auto|]. f_equal. apply IH. auto.
Qed.
Lemma dkeys_ddel {V} (i j : Z) (l : list (Z * V)) : In j (dkeys (ddel i l)) -> In j (dkeys l).
Proof.
  induction l as [|[k v] l IH]; cbn; [auto|]. destruct (eq_dec i k); cbn; intuition.
Qed.
Lemma NoDup_ddel {V} (i : Z) (l : list (Z * V)) : NoDup (dkeys l) -> NoDup (dkeys (ddel i l)).
Proof.
  induction l as [|[k v] l IH]; cbn; intros H; [constructor|]. inversion H as [|? ? A B]; subst. destruct (eq_dec i k); [auto|].
  cbn. constructor; [|auto]. intros C. apply A. eapply dkeys_ddel, C.
Qed.
Lemma cnt_ddel o i l q : NoDup (dkeys l) -> dget i l = Some q ->
  cnt o l = (cnt o (ddel i l) + if owner_eqb o q then 1 else 0)%nat.
Proof.
  unfold cnt. induction l as [|[k v] l IH]; cbn [dget map snd filter dkeys fst ddel]; intros N H; [discriminate|].
  inversion N as [|? ? A B]; subst. destruct (eq_dec i k) as [->|Hk].
  - injection H as ->. rewrite ddel_notin by exact A. destruct (owner_eqb o q); cbn [List.length]; lia.
  - cbn [map snd filter]. specialize (IH B H). destruct (owner_eqb o v); cbn [List.length]; lia.
Qed.
Lemma cnt_dset o i q l : dget i l = None -> cnt o (dset i q l) = (cnt o l + if owner_eqb o q then 1 else 0)%nat.
Proof.
  intros H. rewrite dset_notin by exact H. unfold cnt. rewrite map_app, filter_app, app_length. cbn. destruct (owner_eqb o q); cbn; lia.
Qed.

(** ** Registering and removing *)
Lemma set_tab_same c t x w : w_tabs (set_tab c t x w) c t = x.
Proof. cbn. rewrite !Nat.eqb_refl. reflexivity. Qed.
Lemma set_tab_other c t x w c' t' : (c', t') <> (c, t) -> w_tabs (set_tab c t x w) c' t' = w_tabs w c' t'.
Proof. intros H. cbn. destruct (Nat.eqb_spec c' c), (Nat.eqb_spec t' t); cbn; try reflexivity. subst. contradiction. Qed.

(** The same but for callbacks and tab states. *)
Record same (w w' : world) : Prop := mkSame {
  sa_raw : forall p, tp_raw (w_prims w' p) = tp_raw (w_prims w p);
  sa_kind : forall p, tp_kind (w_prims w' p) = tp_kind (w_prims w p);
  sa_open : forall c, w_open w' c = w_open w c
}.
Lemma same_refl w : same w w.
Proof. constructor; reflexivity. Qed.
Lemma same_trans w1 w2 w3 : same w1 w2 -> same w2 w3 -> same w1 w3.
Proof. intros [a b c] [d e f]. constructor; intros; congruence. Qed.
Lemma same_set_tab c t x w : same w (set_tab c t x w).
Proof. constructor; reflexivity. Qed.

(** Nothing of tab [t] of connection [c] changed. *)
Record calm (c t : nat) (w w' : world) : Prop := mkCalm {
  ca_held : forall p n, held w' p c t n = held w p c t n;
  ca_cbs : forall p i n, dget i (cbs w p) = Some (c, t, n) -> dget i (cbs w' p) = Some (c, t, n);
  ca_tab : w_tabs w' c t = w_tabs w c t
}.
Lemma calm_refl c t w : calm c t w w.
Proof. constructor; auto. Qed.
Lemma calm_trans c t w1 w2 w3 : calm c t w1 w2 -> calm c t w2 w3 -> calm c t w1 w3.
Proof. intros [a b d] [e f g]. constructor; intros; [rewrite e; apply a|apply f, b; assumption|congruence]. Qed.
Lemma calm_set_tab c t c' t' x w : (c', t') <> (c, t) -> calm c t w (set_tab c' t' x w).
Proof. intros H. constructor; [reflexivity|auto|]. apply set_tab_other. congruence. Qed.

Lemma unregister_fx p i w q : wfw w -> dget i (cbs w p) = Some q ->
  wfw (unregister p i w) /\ same w (unregister p i w) /\
  (forall o p', cnt o (cbs w p') = (cnt o (cbs (unregister p i w) p') + if Nat.eqb p' p && owner_eqb o q then 1 else 0)%nat) /\
  (forall p' i' o, o <> q -> dget i' (cbs w p') = Some o -> dget i' (cbs (unregister p i w) p') = Some o) /\
  (forall p' i' o, dget i' (cbs (unregister p i w) p') = Some o -> dget i' (cbs w p') = Some o) /\
  w_tabs (unregister p i w) = w_tabs w /\ w_handlers (unregister p i w) = w_handlers w.
Proof.
  intros W H. unfold unregister. assert (M : dmem i (tp_cbs (w_prims w p)) = true) by (apply dmem_true; exists q; exact H). rewrite M.
  split; [|split; [|split; [|split; [|split; [|split]]]]].
  - intros p'. unfold set_prim. cbn [w_prims]. destruct (Nat.eqb p' p); [|apply W]. destruct (W p) as (N & B & K). split; [|split]; cbn [tp_cbs tp_next tp_kind tp_raw].
    + apply NoDup_ddel, N.
    + intros j o G. destruct (Z.eq_dec j i) as [->|E]; [rewrite dget_ddel_eq in G; discriminate|]. rewrite dget_ddel_ne in G by exact E. apply (B j o G).
    + exact K.
  - constructor; intros; unfold set_prim; cbn [w_prims w_open]; try reflexivity; destruct (Nat.eqb_spec p0 p) as [->|]; reflexivity.
  - intros o p'. unfold cbs, set_prim. cbn [w_prims]. destruct (Nat.eqb_spec p' p) as [->|]; cbn [andb]; [|lia]. cbn [tp_cbs]. apply cnt_ddel; [apply W|exact H].
  - intros p' i' o Ho G. unfold cbs, set_prim in *. cbn [w_prims]. destruct (Nat.eqb_spec p' p) as [->|]; [|exact G]. cbn [tp_cbs].
    destruct (Z.eq_dec i' i) as [->|E]; [congruence|]. rewrite dget_ddel_ne by exact E. exact G.
  - intros p' i' o G. unfold cbs, set_prim in *. cbn [w_prims] in *. destruct (Nat.eqb_spec p' p) as [->|]; [|exact G]. cbn [tp_cbs] in *.
    destruct (Z.eq_dec i' i) as [->|E]; [rewrite dget_ddel_eq in G; discriminate|]. rewrite dget_ddel_ne in G by exact E. exact G.
  - reflexivity.
  - reflexivity.
Qed.

Lemma register_fx p o w : wfw w ->
  let w' := fst (register p o w) in
  wfw w' /\ same w w' /\
  (forall o' p', cnt o' (cbs w' p') = (cnt o' (cbs w p') + if Nat.eqb p' p && owner_eqb o' o then 1 else 0)%nat) /\
  (forall p' i' o', dget i' (cbs w p') = Some o' -> dget i' (cbs w' p') = Some o') /\
  dget (snd (register p o w)) (cbs w' p) = Some o /\
  w_tabs w' = w_tabs w /\ w_handlers w' = w_handlers w.
Proof.
  intros W w'. unfold register in w'. cbn [fst] in w'. assert (F : dget (tp_next (w_prims w p)) (tp_cbs (w_prims w p)) = None).
  { destruct (dget (tp_next (w_prims w p)) (tp_cbs (w_prims w p))) as [q|] eqn:E; [|reflexivity]. destruct (W p) as (_ & B & _). specialize (B _ _ E). lia. }
  split; [|split; [|split; [|split; [|split; [|split]]]]].
  - intros p'. unfold w', set_prim. cbn [w_prims]. destruct (Nat.eqb p' p); [|apply W]. destruct (W p) as (N & B & K). split; [|split]; cbn [tp_cbs tp_next tp_kind tp_raw].
    + apply NoDup_dset, N.
    + intros j q G. rewrite dget_dset in G. destruct (eq_dec j (tp_next (w_prims w p))); [lia|]. specialize (B j q G). lia.
    + exact K.
  - unfold w'. constructor; intros; unfold set_prim; cbn [w_prims w_open]; try reflexivity; destruct (Nat.eqb_spec p0 p) as [->|]; reflexivity.
  - intros o' p'. unfold w', cbs, set_prim. cbn [w_prims]. destruct (Nat.eqb_spec p' p) as [->|]; cbn [andb]; [|lia]. cbn [tp_cbs]. apply cnt_dset, F.
  - intros p' i' o' G. unfold w', cbs, set_prim in *. cbn [w_prims]. destruct (Nat.eqb_spec p' p) as [->|]; [|exact G]. cbn [tp_cbs].
    rewrite dget_dset. destruct (eq_dec i' (tp_next (w_prims w p))) as [->|]; [congruence|exact G].
  - unfold w', cbs, set_prim. cbn [w_prims register snd]. rewrite Nat.eqb_refl. cbn [tp_cbs]. apply dget_dset_eq.
  - reflexivity.
  - reflexivity.
Qed.

(** ** Clearing a tab *)
Definition owns (c t : nat) (w : world) (ps : list (Z * nat)) (L : list (Z * Z)) : Prop :=
  forall n i, In (n, i) L -> exists p, dget n ps = Some p /\ dget i (cbs w p) = Some (c, t, n).

Definition unreg_all (ps : list (Z * nat)) (L : list (Z * Z)) (w : world) : world :=
  fold_left (fun w nv => match dget (fst nv) ps with Some p => unregister p (snd nv) w | None => w end) L w.

Lemma unreg_all_fx c t ps L : forall w, wfw w -> NoDup (dkeys L) -> owns c t w ps L ->
  let w' := unreg_all ps L w in
  wfw w' /\ same w w' /\
  (forall p n, cnt (c, t, n) (cbs w p) = (cnt (c, t, n) (cbs w' p) + if dmem n L && match dget n ps with Some q => Nat.eqb p q | None => false end then 1 else 0)%nat) /\
  (forall c' t', (c', t') <> (c, t) -> calm c' t' w w') /\
  (forall n p i, ~ In n (dkeys L) -> dget i (cbs w p) = Some (c, t, n) -> dget i (cbs w' p) = Some (c, t, n)) /\
  w_tabs w' = w_tabs w /\ w_handlers w' = w_handlers w.
Proof.
  induction L as [|[n0 i0] L IH]; intros w W N O.
  - cbn. split; [exact W|]. split; [apply same_refl|]. split; [intros; lia|]. split; [intros; apply calm_refl|]. split; [auto|]. split; reflexivity.
  - cbn [dkeys map fst] in N. inversion N as [|? ? N1 N2]; subst. destruct (O n0 i0 (or_introl eq_refl)) as (p0 & P0 & D0).
    cbn [unreg_all fold_left fst snd]. rewrite P0. change (fold_left _ L ?x) with (unreg_all ps L x).
    destruct (unregister_fx p0 i0 w (c, t, n0) W D0) as (W1 & S1 & C1 & K1 & _ & T1 & H1). set (w1 := unregister p0 i0 w) in *.
    assert (O1 : owns c t w1 ps L).
    { intros n i Hi. destruct (O n i (or_intror Hi)) as (p & P & D). exists p. split; [exact P|]. apply K1; [|exact D]. intros E. injection E as ->. apply N1.
      change n0 with (fst (n0, i)). apply in_map, Hi. }
    destruct (IH w1 W1 N2 O1) as (W2 & S2 & C2 & K2 & L2 & T2 & H2). set (w2 := unreg_all ps L w1) in *.
    split; [exact W2|]. split; [eapply same_trans; eassumption|]. split.
    { intros p n. rewrite C1, C2. unfold dmem. cbn [dget]. unfold owner_eqb. cbn [fst snd]. rewrite !Nat.eqb_refl. cbn [andb].
      destruct (eq_dec n n0) as [->|E].
      - rewrite Z.eqb_refl, P0. assert (X : dget n0 L = None) by (apply dget_None_notin, N1). rewrite X. cbn [andb]. rewrite andb_true_r. lia.
      - destruct (Z.eqb_spec n n0); [contradiction|]. rewrite andb_false_r. lia. }
    split.
    { intros c' t' Ne. eapply calm_trans; [|apply K2, Ne]. constructor.
      - intros p n. change (cnt (c', t', n) (cbs w1 p) = cnt (c', t', n) (cbs w p)). rewrite C1. rewrite owner_eqb_ne by congruence. rewrite andb_false_r. lia.
      - intros p i n G. apply K1; [congruence|exact G].
      - rewrite T1. reflexivity. }
    split.
    { intros n p i Hn G. cbn [dkeys map fst] in Hn. apply L2; [intros X; apply Hn; right; exact X|]. apply K1; [|exact G]. intros E. injection E as ->. apply Hn. left. reflexivity. }
    split; [congruence|]. congruence.
Qed.

Lemma clear_fx c t w : wfw w -> NoDup (dkeys (ts_cbs (w_tabs w c t))) -> owns c t w (ts_prims (w_tabs w c t)) (ts_cbs (w_tabs w c t)) ->
  let w' := clear_telemetry c t w in let s := w_tabs w c t in
  wfw w' /\ same w w' /\
  (forall p n, cnt (c, t, n) (cbs w p) = (cnt (c, t, n) (cbs w' p) + if dmem n (ts_cbs s) && match dget n (ts_prims s) with Some q => Nat.eqb p q | None => false end then 1 else 0)%nat) /\
  (forall c' t', (c', t') <> (c, t) -> calm c' t' w w') /\
  w_tabs w' c t = mkTabst (ts_shown s) [] [] [] (ts_latest s) (ts_logger s) /\ w_handlers w' = w_handlers w.
Proof.
  intros W N O w' s. destruct (unreg_all_fx c t (ts_prims s) (ts_cbs s) w W N O) as (W1 & S1 & C1 & K1 & _ & T1 & H1).
  assert (E : w' = set_tab c t (mkTabst (ts_shown s) [] [] [] (ts_latest s) (ts_logger s)) (unreg_all (ts_prims s) (ts_cbs s) w)) by reflexivity.
  clearbody w'. subst w'. split; [exact W1|]. split; [eapply same_trans; [exact S1|apply same_set_tab]|]. split; [exact C1|].
  split; [intros c' t' Ne; eapply calm_trans; [apply K1, Ne|apply calm_set_tab; congruence]|]. split; [apply set_tab_same|]. exact H1.
Qed.

(** ** Showing a tab *)
Lemma setup_fx c t n p w : wfw w ->
  let w' := setup c t (n, p) w in let s := w_tabs w c t in
  wfw w' /\ same w w' /\
  (forall p' n', cnt (c, t, n') (cbs w' p') = (cnt (c, t, n') (cbs w p') + if Nat.eqb p' p && (n' =? n)%Z then 1 else 0)%nat) /\
  (forall c' t', (c', t') <> (c, t) -> calm c' t' w w') /\
  (forall p' i' o', dget i' (cbs w p') = Some o' -> dget i' (cbs w' p') = Some o') /\
  (exists i, dget i (cbs w' p) = Some (c, t, n) /\
    w_tabs w' c t = mkTabst (ts_shown s) (ts_points s) (dset n p (ts_prims s)) (dset n i (ts_cbs s)) (ts_latest s) (ts_logger s)) /\
  w_handlers w' = w_handlers w.
Proof.
  intros W w' s. unfold w', setup. fold s. set (w1 := set_tab c t _ w).
  assert (W1 : wfw w1) by exact W. destruct (register_fx p (c, t, n) w1 W1) as (W2 & S2 & C2 & K2 & D2 & T2 & H2).
  destruct (register p (c, t, n) w1) as [w2 i]. cbn [fst snd] in *.
  assert (Tb : w_tabs w2 c t = mkTabst (ts_shown s) (ts_points s) (dset n p (ts_prims s)) (ts_cbs s) (ts_latest s) (ts_logger s)) by (rewrite T2; apply set_tab_same).
  set (w3 := set_tab c t _ w2). split; [exact W2|]. split; [eapply same_trans; [|eapply same_trans; [exact S2|apply same_set_tab]]; apply same_set_tab|].
  split. { intros p' n'. change (cbs w3 p') with (cbs w2 p'). rewrite C2. change (cbs w1 p') with (cbs w p'). unfold owner_eqb. cbn [fst snd]. rewrite !Nat.eqb_refl. reflexivity. }
  split.
  { intros c' t' Ne. constructor.
    - intros p' n'. change (cnt (c', t', n') (cbs w2 p') = cnt (c', t', n') (cbs w p')). rewrite C2, owner_eqb_ne by congruence. rewrite andb_false_r. change (cbs w1 p') with (cbs w p'). lia.
    - intros p' i' n' G. apply K2, G.
    - unfold w3. rewrite set_tab_other by congruence. rewrite T2. unfold w1. apply set_tab_other. congruence. }
  split; [intros p' i' o' G; apply K2, G|]. split; [|exact H2]. exists i. split; [exact D2|]. unfold w3. rewrite set_tab_same, Tb. reflexivity.
Qed.

Definition setup_all (c t : nat) (L : list (Z * nat)) (w : world) : world := fold_left (fun w np => setup c t np w) L w.

Lemma setup_all_fx c t L : forall w, wfw w -> NoDup (map fst L) ->
  (NoDup (dkeys (ts_cbs (w_tabs w c t)))) ->
  let w' := setup_all c t L w in let s := w_tabs w c t in
  wfw w' /\ same w w' /\
  (forall p n, cnt (c, t, n) (cbs w' p) = (cnt (c, t, n) (cbs w p) + if dmem n L && match dget n L with Some q => Nat.eqb p q | None => false end then 1 else 0)%nat) /\
  (forall c' t', (c', t') <> (c, t) -> calm c' t' w w') /\
  (forall p' i' o', dget i' (cbs w p') = Some o' -> dget i' (cbs w' p') = Some o') /\
  NoDup (dkeys (ts_cbs (w_tabs w' c t))) /\
  (forall n p, dget n L = Some p -> dget n (ts_prims (w_tabs w' c t)) = Some p /\ exists i, dget n (ts_cbs (w_tabs w' c t)) = Some i /\ dget i (cbs w' p) = Some (c, t, n)) /\
  (forall n, dget n L = None -> dget n (ts_prims (w_tabs w' c t)) = dget n (ts_prims s) /\ dget n (ts_cbs (w_tabs w' c t)) = dget n (ts_cbs s)) /\
  (ts_shown (w_tabs w' c t), ts_points (w_tabs w' c t), ts_latest (w_tabs w' c t), ts_logger (w_tabs w' c t)) = (ts_shown s, ts_points s, ts_latest s, ts_logger s) /\
  w_handlers w' = w_handlers w.
Proof.
  induction L as [|[n0 p0] L IH]; intros w W N Nc.
  - cbn. split; [exact W|]. split; [apply same_refl|]. split; [intros; lia|]. split; [intros; apply calm_refl|]. split; [auto|]. split; [exact Nc|].
    split; [discriminate|]. split; [auto|]. split; reflexivity.
  - cbn [map fst] in N. inversion N as [|? ? N1 N2]; subst. destruct (setup_fx c t n0 p0 w W) as (W1 & S1 & C1 & K1 & G1 & (i0 & D1 & T1) & H1).
    cbn [setup_all fold_left]. change (fold_left _ L ?x) with (setup_all c t L x). set (w1 := setup c t (n0, p0) w) in *.
    assert (Nc1 : NoDup (dkeys (ts_cbs (w_tabs w1 c t)))) by (rewrite T1; cbn [ts_cbs]; apply NoDup_dset, Nc).
    destruct (IH w1 W1 N2 Nc1) as (W2 & S2 & C2 & K2 & G2 & Nc2 & A2 & B2 & F2 & H2). set (w2 := setup_all c t L w1) in *.
    assert (Nl : dget n0 L = None) by (apply dget_None_notin, N1).
    split; [exact W2|]. split; [eapply same_trans; eassumption|]. split.
    { intros p n. rewrite C2, C1. unfold dmem. cbn [dget]. destruct (eq_dec n n0) as [->|E].
      - rewrite Nl, Z.eqb_refl. cbn [andb]. rewrite andb_true_r. lia.
      - destruct (Z.eqb_spec n n0); [contradiction|]. rewrite andb_false_r. lia. }
    split; [intros c' t' Ne; eapply calm_trans; [apply K1, Ne|apply K2, Ne]|]. split; [intros p' i' o' G; apply G2, G1, G|]. split; [exact Nc2|].
    split.
    { intros n p Hn. cbn [dget] in Hn. destruct (eq_dec n n0) as [->|E].
      - injection Hn as ->. destruct (B2 n0 Nl) as [X Y]. rewrite X, Y, T1. cbn [ts_prims ts_cbs]. split; [apply dget_dset_eq|]. exists i0. split; [apply dget_dset_eq|apply G2, D1].
      - apply A2, Hn. }
    split.
    { intros n Hn. cbn [dget] in Hn. destruct (eq_dec n n0) as [->|E]; [discriminate|]. destruct (B2 n Hn) as [X Y]. rewrite X, Y, T1. cbn [ts_prims ts_cbs].
      split; apply dget_dset_ne; exact E. }
    split; [rewrite F2, T1; reflexivity|]. congruence.
Qed.

(** ** Events that leave the callbacks alone *)
Definition pts (w : world) (c t : nat) (n : Z) : list (Z * Z) := match dget n (ts_points (w_tabs w c t)) with Some l => l | None => [] end.

Record light (w w' : world) : Prop := mkLight {
  li_cbs : forall p, cbs w' p = cbs w p;
  li_open : forall c, w_open w' c = w_open w c;
  li_prims : forall c t, ts_prims (w_tabs w' c t) = ts_prims (w_tabs w c t);
  li_tcbs : forall c t, ts_cbs (w_tabs w' c t) = ts_cbs (w_tabs w c t);
  li_latest : forall c t, ts_latest (w_tabs w' c t) = ts_latest (w_tabs w c t);
  li_wf : wfw w -> wfw w'
}.
Lemma light_refl w : light w w.
Proof. constructor; auto. Qed.
Lemma light_trans w1 w2 w3 : light w1 w2 -> light w2 w3 -> light w1 w3.
Proof. intros [a b c d e f] [g h i j k l]. constructor; intros; try congruence; auto. Qed.
Lemma light_tab c t x w : ts_prims x = ts_prims (w_tabs w c t) -> ts_cbs x = ts_cbs (w_tabs w c t) -> ts_latest x = ts_latest (w_tabs w c t) -> light w (set_tab c t x w).
Proof.
  intros A B C. constructor; intros; try reflexivity; try (cbn; destruct (Nat.eqb_spec c0 c), (Nat.eqb_spec t0 t); subst; cbn; auto). assumption.
Qed.

Section Run.
Context (ntabs : nat) (names : nat -> list (Z * nat)) (view : nat -> Z -> Z -> Z).
Hypothesis distinct : forall t, NoDup (map fst (names t)).

Notation step := (t_step ntabs names view).
Notation run := (t_run ntabs names view).

Lemma pts_append n n' x d : match dget n' (dappend n x d) with Some l => l | None => [] end =
  (match dget n' d with Some l => l | None => [] end) ++ (if (n' =? n)%Z then [x] else []).
Proof.
  unfold dappend. rewrite dget_dset. destruct (eq_dec n' n) as [->|E].
  - rewrite Z.eqb_refl. destruct (dget n d); reflexivity.
  - destruct (Z.eqb_spec n' n); [contradiction|]. rewrite app_nil_r. reflexivity.
Qed.

Lemma report_fx raw ts L : forall w, let w' := fold_left (report view raw ts) L w in
  light w w' /\ w_prims w' = w_prims w /\ w_handlers w' = w_handlers w /\
  (forall c t, ts_logger (w_tabs w' c t) = ts_logger (w_tabs w c t)) /\
  (forall c t, ts_shown (w_tabs w' c t) = ts_shown (w_tabs w c t)) /\
  forall c t n, pts w' c t n = pts w c t n ++ repeat (view t n raw, ts) (List.length (filter (owner_eqb (c, t, n)) L)).
Proof.
  induction L as [|[[c0 t0] n0] L IH]; intros w.
  - cbn. split; [apply light_refl|]. repeat split. intros. rewrite app_nil_r. reflexivity.
  - cbn [fold_left]. set (w1 := report view raw ts w (c0, t0, n0)). destruct (IH w1) as (A & B & C & D & D' & E). cbn zeta. set (w2 := fold_left _ L w1) in *.
    assert (X : light w w1) by (apply light_tab; reflexivity).
    split; [eapply light_trans; eassumption|]. split; [rewrite B; reflexivity|]. split; [rewrite C; reflexivity|]. split.
    { intros c t. rewrite D. unfold w1, report. cbn. destruct (Nat.eqb_spec c c0), (Nat.eqb_spec t t0); subst; reflexivity. } split.
    { intros c t. rewrite D'. unfold w1, report. cbn. destruct (Nat.eqb_spec c c0), (Nat.eqb_spec t t0); subst; reflexivity. }
    intros c t n. rewrite E. assert (Y : pts w1 c t n = pts w c t n ++ (if owner_eqb (c, t, n) (c0, t0, n0) then [(view t n raw, ts)] else [])).
    { unfold w1, report, pts, owner_eqb. cbn [fst snd]. destruct (Nat.eqb_spec c c0) as [->|Hc]; [|rewrite set_tab_other by congruence; cbn; rewrite app_nil_r; reflexivity].
      destruct (Nat.eqb_spec t t0) as [->|Ht]; [|rewrite set_tab_other by congruence; cbn; rewrite app_nil_r; reflexivity].
      rewrite set_tab_same. cbn [ts_points andb]. rewrite pts_append. destruct (Z.eqb_spec n n0) as [->|]; reflexivity. }
    rewrite Y. cbn [filter]. destruct (owner_eqb (c, t, n) (c0, t0, n0)); rewrite <- app_assoc; reflexivity.
Qed.

Lemma assign_fx p v ts w : wfw w -> let w' := assign view p v ts w in
  light w w' /\ w_handlers w' = w_handlers w /\
  (forall c t, ts_logger (w_tabs w' c t) = ts_logger (w_tabs w c t)) /\
  (forall c t, ts_shown (w_tabs w' c t) = ts_shown (w_tabs w c t)) /\
  (forall q, tp_kind (w_prims w' q) = tp_kind (w_prims w q)) /\
  (forall q, tp_raw (w_prims w' q) = if Nat.eqb q p then k_store (tp_kind (w_prims w p)) v else tp_raw (w_prims w q)) /\
  forall c t n, pts w' c t n = pts w c t n ++
    (if (tp_raw (w_prims w p) =? v)%Z then [] else repeat (view t n (k_store (tp_kind (w_prims w p)) v), ts) (cnt (c, t, n) (cbs w p))).
Proof.
  intros W. unfold assign. cbn zeta. set (x := w_prims w p). set (raw := k_store (tp_kind x) v). set (w1 := set_prim p _ w).
  assert (L1 : light w w1).
  { constructor; try reflexivity.
    - intros q. unfold cbs, w1, set_prim. cbn [w_prims]. destruct (Nat.eqb_spec q p) as [->|]; reflexivity.
    - intros _ q. unfold w1, set_prim. cbn [w_prims]. destruct (Nat.eqb_spec q p) as [->|]; [|apply W]. destruct (W p) as (A & B & C). split; [exact A|]. split; [exact B|]. cbn [tp_kind tp_raw]. apply store_value. }
  assert (K1 : forall q, tp_kind (w_prims w1 q) = tp_kind (w_prims w q)) by (intros q; unfold w1, set_prim; cbn [w_prims]; destruct (Nat.eqb_spec q p) as [->|]; reflexivity).
  assert (R1 : forall q, tp_raw (w_prims w1 q) = if Nat.eqb q p then raw else tp_raw (w_prims w q)) by (intros q; unfold w1, set_prim; cbn [w_prims]; destruct (Nat.eqb_spec q p) as [->|]; reflexivity).
  destruct (tp_raw x =? v)%Z.
  - split; [exact L1|]. split; [reflexivity|]. split; [reflexivity|]. split; [reflexivity|]. split; [exact K1|]. split; [exact R1|]. intros. rewrite app_nil_r. reflexivity.
  - destruct (report_fx raw ts (map snd (tp_cbs x)) w1) as (A & B & C & D & D' & E). set (w2 := fold_left _ _ w1) in *.
    split; [eapply light_trans; eassumption|]. split; [rewrite C; reflexivity|]. split; [intros; rewrite D; reflexivity|]. split; [intros; rewrite D'; reflexivity|]. split; [intros q; rewrite B; apply K1|]. split; [intros q; rewrite B; apply R1|].
    intros c t n. rewrite E. reflexivity.
Qed.

Lemma told_app c t n a b : told c t n (a ++ b) = told c t n a ++ told c t n b.
Proof. apply flat_map_app. Qed.
Lemma points_app c t n a b : points c t n (a ++ b) = points c t n a ++ points c t n b.
Proof. apply flat_map_app. Qed.

Definition frames_of (c : nat) (L : list nat) (wo : world * list (nat * nat * tmsg)) :=
  fold_left (fun wo t => let '(w', o) := frame1 c t (fst wo) in (w', snd wo ++ o)) L wo.

Lemma frame1_fx c t w : let w' := fst (frame1 c t w) in let o := snd (frame1 c t w) in
  light w w' /\ w_prims w' = w_prims w /\ w_handlers w' = w_handlers w /\
  (forall c' t', ts_logger (w_tabs w' c' t') = ts_logger (w_tabs w c' t')) /\
  (forall c' t', ts_shown (w_tabs w' c' t') = ts_shown (w_tabs w c' t')) /\
  ts_points (w_tabs w' c t) = [] /\
  (forall c' t', (c', t') <> (c, t) -> w_tabs w' c' t' = w_tabs w c' t') /\
  (forall n, points c t n o = pts w c t n /\ told c t n o = map fst (pts w c t n)) /\
  (forall c' t' n, (c', t') <> (c, t) -> points c' t' n o = [] /\ told c' t' n o = []).
Proof.
  unfold frame1. destruct (ts_points (w_tabs w c t)) as [|[k l] d] eqn:P; cbn [fst snd].
  - split; [apply light_refl|]. split; [reflexivity|]. split; [reflexivity|]. split; [reflexivity|]. split; [reflexivity|]. split; [exact P|]. split; [reflexivity|]. split.
    + intros n. unfold pts. rewrite P. split; reflexivity.
    + intros. split; reflexivity.
  - split; [apply light_tab; reflexivity|]. split; [reflexivity|]. split; [reflexivity|].
    split. { intros c' t'. cbn. destruct (Nat.eqb_spec c' c), (Nat.eqb_spec t' t); subst; reflexivity. }
    split. { intros c' t'. cbn. destruct (Nat.eqb_spec c' c), (Nat.eqb_spec t' t); subst; reflexivity. }
    split; [rewrite set_tab_same; reflexivity|]. split; [intros; apply set_tab_other; assumption|]. split.
    + intros n. unfold points, told, pts. cbn [flat_map fst snd]. rewrite !Nat.eqb_refl, P, !app_nil_r. cbn [andb tells]. split; [reflexivity|]. destruct (dget n _); reflexivity.
    + intros c' t' n Ne. unfold points, told. cbn [flat_map fst snd]. assert (X : Nat.eqb c c' && Nat.eqb t t' = false) by (destruct (Nat.eqb_spec c c'), (Nat.eqb_spec t t'); subst; try reflexivity; congruence). rewrite X. split; reflexivity.
Qed.

Lemma frames_fx c L : forall w o, NoDup L -> let w' := fst (frames_of c L (w, o)) in let o' := snd (frames_of c L (w, o)) in
  light w w' /\ w_prims w' = w_prims w /\ w_handlers w' = w_handlers w /\
  (forall c' t', ts_logger (w_tabs w' c' t') = ts_logger (w_tabs w c' t')) /\
  (forall c' t', ts_shown (w_tabs w' c' t') = ts_shown (w_tabs w c' t')) /\
  (forall t, In t L -> ts_points (w_tabs w' c t) = []) /\
  (forall t, ~ In t L -> w_tabs w' c t = w_tabs w c t) /\
  (forall c' t, c' <> c -> w_tabs w' c' t = w_tabs w c' t) /\
  (forall t n, In t L -> points c t n o' = points c t n o ++ pts w c t n /\ told c t n o' = told c t n o ++ map fst (pts w c t n)) /\
  (forall t n, ~ In t L -> points c t n o' = points c t n o /\ told c t n o' = told c t n o) /\
  (forall c' t n, c' <> c -> points c' t n o' = points c' t n o /\ told c' t n o' = told c' t n o).
Proof.
  induction L as [|t0 L IH]; intros w o N.
  - cbn. split; [apply light_refl|]. split; [reflexivity|]. split; [reflexivity|]. split; [reflexivity|]. split; [reflexivity|]. split; [contradiction|]. split; [reflexivity|]. split; [reflexivity|]. split; [contradiction|]. split; split; reflexivity.
  - inversion N as [|? ? N1 N2]; subst. cbn [frames_of fold_left fst snd]. destruct (frame1 c t0 w) as [w1 o1] eqn:F.
    pose proof (frame1_fx c t0 w) as X. rewrite F in X. cbn [fst snd] in X. destruct X as (A & B & C & D & D' & E & G & H & I).
    change (fold_left _ L ?x) with (frames_of c L x). destruct (IH w1 (o ++ o1) N2) as (A2 & B2 & C2 & D2 & D2' & E2 & F2 & G2 & H2 & I2 & J2).
    set (r := frames_of c L (w1, o ++ o1)) in *. cbn zeta.
    split; [eapply light_trans; eassumption|]. split; [congruence|]. split; [congruence|]. split; [intros; rewrite D2; apply D|]. split; [intros; rewrite D2'; apply D'|].
    split. { intros t [<-|Ht]; [|apply E2, Ht]. rewrite F2 by exact N1. exact E. }
    split. { intros t Ht. rewrite F2 by (intros Q; apply Ht; right; exact Q). apply G. intros Q. injection Q as ->. apply Ht. left. reflexivity. }
    split. { intros c' t Hc. rewrite G2 by exact Hc. apply G. congruence. }
    split. { intros t n [<-|Ht].
      - destruct (I2 t0 n N1) as [-> ->]. rewrite points_app, told_app. destruct (H n) as [-> ->]. split; reflexivity.
      - destruct (H2 t n Ht) as [-> ->]. assert (Ne : (c, t) <> (c, t0)) by congruence. rewrite points_app, told_app. destruct (I c t n Ne) as [-> ->]. rewrite !app_nil_r.
        unfold pts. rewrite G by exact Ne. split; reflexivity. }
    split. { intros t n Ht. destruct (I2 t n) as [-> ->]; [intros Q; apply Ht; right; exact Q|]. rewrite points_app, told_app. destruct (I c t n) as [-> ->]; [intros Q; injection Q as ->; apply Ht; left; reflexivity|]. rewrite !app_nil_r. split; reflexivity. }
    intros c' t n Hc. destruct (J2 c' t n Hc) as [-> ->]. rewrite points_app, told_app. destruct (I c' t n) as [-> ->]; [congruence|]. rewrite !app_nil_r. split; reflexivity.
Qed.

(** ** The invariant: who holds which callback *)
Record tinv (c t : nat) (v : vis) (w : world) : Prop := mkTinv {
  ti_count : forall n p, dget n (names t) = Some p -> cnt (c, t, n) (cbs w p) = vs_unpaired v;
  ti_none : forall n p, dget n (names t) <> Some p -> cnt (c, t, n) (cbs w p) = 0%nat;
  ti_nodup : NoDup (dkeys (ts_cbs (w_tabs w c t)));
  ti_owns : owns c t w (ts_prims (w_tabs w c t)) (ts_cbs (w_tabs w c t));
  ti_have : if vs_shown v
            then forall n p, dget n (names t) = Some p -> dget n (ts_prims (w_tabs w c t)) = Some p /\ exists i, dget n (ts_cbs (w_tabs w c t)) = Some i
            else ts_cbs (w_tabs w c t) = [];
  ti_keys : forall n i, dget n (ts_cbs (w_tabs w c t)) = Some i -> exists p, dget n (names t) = Some p /\ dget n (ts_prims (w_tabs w c t)) = Some p
}.

Lemma tinv_calm c t v w w' : calm c t w w' -> tinv c t v w -> tinv c t v w'.
Proof.
  intros [A B C] [a b d e f g]. constructor; try rewrite C; try assumption.
  - intros n p H. change (held w' p c t n = vs_unpaired v). rewrite A. apply a, H.
  - intros n p H. change (held w' p c t n = 0%nat). rewrite A. apply b, H.
  - intros n i Hi. destruct (e n i Hi) as (p & P & D). exists p. split; [exact P|]. apply B, D.
Qed.
Lemma tinv_light c t v w w' : light w w' -> tinv c t v w -> tinv c t v w'.
Proof.
  intros L [a b d e f g]. constructor; try rewrite (li_prims _ _ L); try rewrite (li_tcbs _ _ L); try assumption.
  - intros n p H. rewrite (li_cbs _ _ L). apply a, H.
  - intros n p H. rewrite (li_cbs _ _ L). apply b, H.
  - intros n i Hi. destruct (e n i Hi) as (p & P & D). exists p. split; [exact P|]. rewrite (li_cbs _ _ L). exact D.
Qed.

(** ended: what clearing does. *)
Definition ended (v : vis) : nat := if vs_shown v then Nat.pred (vs_unpaired v) else vs_unpaired v.

Lemma tinv_clear c t v w o : wfw w -> tinv c t v w -> let w' := clear_telemetry c t w in let s := w_tabs w c t in
  wfw w' /\ same w w' /\ tinv c t (mkVis o false (ended v)) w' /\
  (forall c' t', (c', t') <> (c, t) -> calm c' t' w w') /\
  w_tabs w' c t = mkTabst (ts_shown s) [] [] [] (ts_latest s) (ts_logger s) /\ w_handlers w' = w_handlers w.
Proof.
  intros W [a b d e f g] w' s. destruct (clear_fx c t w W d e) as (W1 & S1 & C1 & K1 & T1 & H1). fold w' s in W1, S1, C1, K1, T1, H1.
  split; [exact W1|]. split; [exact S1|]. split; [|split; [exact K1|split; [exact T1|exact H1]]].
  constructor; rewrite ?T1; cbn [ts_prims ts_cbs vs_shown vs_unpaired].
  - intros n p H. specialize (C1 p n). rewrite (a n p H) in C1. unfold ended. destruct (vs_shown v).
    + destruct (f n p H) as [P [i I]]. assert (M : dmem n (ts_cbs s) = true) by (apply dmem_true; exists i; exact I). rewrite M in C1. unfold s in C1. rewrite P, Nat.eqb_refl in C1. cbn [andb] in C1. lia.
    + unfold s in C1. rewrite f in C1. cbn in C1. lia.
  - intros n p H. specialize (C1 p n). rewrite (b n p H) in C1. lia.
  - constructor.
  - intros n i [].
  - reflexivity.
  - discriminate.
Qed.

Lemma dget_map_fst {B} n (L : list (Z * B)) : dget n L = None <-> ~ In n (map fst L).
Proof. apply dget_None_notin. Qed.

Lemma tinv_show c t v w o : wfw w -> tinv c t v w -> let w' := setup_all c t (names t) w in let s := w_tabs w c t in
  wfw w' /\ same w w' /\ tinv c t (mkVis o true (S (vs_unpaired v))) w' /\
  (forall c' t', (c', t') <> (c, t) -> calm c' t' w w') /\
  (ts_shown (w_tabs w' c t), ts_points (w_tabs w' c t), ts_latest (w_tabs w' c t), ts_logger (w_tabs w' c t)) = (ts_shown s, ts_points s, ts_latest s, ts_logger s) /\
  w_handlers w' = w_handlers w.
Proof.
  intros W [a b d e f g] w' s. destruct (setup_all_fx c t (names t) w W (distinct t) d) as (W1 & S1 & C1 & K1 & G1 & N1 & A1 & B1 & F1 & H1).
  fold w' s in W1, S1, C1, K1, G1, N1, A1, B1, F1, H1.
  split; [exact W1|]. split; [exact S1|]. split; [|split; [exact K1|split; [exact F1|exact H1]]].
  constructor; cbn [vs_shown vs_unpaired].
  - intros n p H. rewrite C1, (a n p H). unfold dmem. rewrite H, Nat.eqb_refl. cbn [andb]. lia.
  - intros n p H. rewrite C1, (b n p H). unfold dmem. destruct (dget n (names t)) as [q|]; [|reflexivity]. destruct (Nat.eqb_spec p q) as [->|]; [congruence|reflexivity].
  - exact N1.
  - intros n i Hi. apply In_dget in Hi; [|exact N1]. destruct (dget n (names t)) as [p|] eqn:Hn.
    + destruct (A1 n p Hn) as (P & i' & I & D). exists p. split; [exact P|]. rewrite I in Hi. injection Hi as ->. exact D.
    + exfalso. destruct (B1 n Hn) as [_ X]. rewrite X in Hi. destruct (g n i Hi) as (p & P & _). congruence.
  - intros n p H. destruct (A1 n p H) as (P & i & I & D). split; [exact P|]. exists i. exact I.
  - intros n i Hi. destruct (dget n (names t)) as [p|] eqn:Hn.
    + destruct (A1 n p Hn) as (P & _). exists p. auto.
    + exfalso. destruct (B1 n Hn) as [_ X]. rewrite X in Hi. destruct (g n i Hi) as (p & P & _). congruence.
Qed.

Lemma tinv_tab c t v w x : ts_prims x = ts_prims (w_tabs w c t) -> ts_cbs x = ts_cbs (w_tabs w c t) -> tinv c t v w -> tinv c t v (set_tab c t x w).
Proof.
  intros A B [a b d e f g]. constructor; rewrite ?set_tab_same, ?A, ?B; assumption.
Qed.
Lemma tinv_vis c t o o' s k w : tinv c t (mkVis o s k) w -> tinv c t (mkVis o' s k) w.
Proof. intros [a b d e f g]. constructor; assumption. Qed.

Lemma shown_fx c t v w b : wfw w -> tinv c t v w -> let w' := fst (handle_shown names view b c t w) in let s := w_tabs w c t in
  wfw w' /\ same w w' /\ tinv c t (if b then mkVis true true (S (vs_unpaired v)) else mkVis true false (ended v)) w' /\
  (forall c' t', (c', t') <> (c, t) -> calm c' t' w w') /\
  ts_shown (w_tabs w' c t) = b /\
  ts_points (w_tabs w' c t) = (if b then ts_points s else []) /\
  ts_latest (w_tabs w' c t) = dupdate (ts_latest s) (values names view t w) /\
  ts_logger (w_tabs w' c t) = ts_logger s /\
  w_handlers w' = w_handlers w /\
  snd (handle_shown names view b c t w) = if b then match to_send (values names view t w) (ts_latest s) with [] => [] | d => [(c, t, MValues d)] end else [].
Proof.
  intros W I w' s. unfold w', handle_shown. fold s. set (w1 := set_tab c t _ w).
  assert (I1 : tinv c t v w1) by (apply tinv_tab; [reflexivity..|exact I]). assert (W1 : wfw w1) by exact W.
  assert (T1 : w_tabs w1 c t = mkTabst b (ts_points s) (ts_prims s) (ts_cbs s) (ts_latest s) (ts_logger s)) by apply set_tab_same.
  change (values names view t w1) with (values names view t w). set (latest := values names view t w).
  destruct b.
  - destruct (tinv_show c t v w1 true W1 I1) as (W2 & S2 & I2 & K2 & F2 & H2). change (fold_left _ (names t) w1) with (setup_all c t (names t) w1). set (w2 := setup_all c t (names t) w1) in *.
    rewrite T1 in F2. cbn [ts_shown ts_points ts_latest ts_logger] in F2. injection F2 as F2a F2b F2c F2d. cbn [fst snd].
    split; [exact W2|]. split; [eapply same_trans; [|eapply same_trans; [exact S2|]]; apply same_set_tab|].
    split; [apply tinv_tab; [reflexivity..|exact I2]|]. split. { intros c' t' Ne. eapply calm_trans; [apply calm_set_tab; intros Q; apply Ne; symmetry; exact Q|]. eapply calm_trans; [apply K2, Ne|]. apply calm_set_tab. congruence. }
    rewrite !set_tab_same. cbn [ts_shown ts_points ts_latest ts_logger]. rewrite F2a, F2b, F2c, F2d. split; [reflexivity|]. split; [reflexivity|]. split; [reflexivity|]. split; [reflexivity|]. split; [exact H2|reflexivity].
  - destruct (tinv_clear c t v w1 true W1 I1) as (W2 & S2 & I2 & K2 & T2 & H2). set (w2 := clear_telemetry c t w1) in *.
    rewrite T1 in T2. cbn [ts_shown ts_points ts_latest ts_logger] in T2. cbn [fst snd].
    split; [exact W2|]. split; [eapply same_trans; [|eapply same_trans; [exact S2|]]; apply same_set_tab|].
    split; [apply tinv_tab; [reflexivity..|exact I2]|]. split. { intros c' t' Ne. eapply calm_trans; [apply calm_set_tab; intros Q; apply Ne; symmetry; exact Q|]. eapply calm_trans; [apply K2, Ne|]. apply calm_set_tab. congruence. }
    rewrite !set_tab_same. rewrite T2. cbn [ts_shown ts_points ts_latest ts_logger]. split; [reflexivity|]. split; [reflexivity|]. split; [reflexivity|]. split; [reflexivity|]. split; [exact H2|reflexivity].
Qed.

(** ** Closing *)
Definition occ (c : nat) (l : list nat) : nat := List.length (filter (Nat.eqb c) l).
Lemma occ_app c a b : occ c (a ++ b) = (occ c a + occ c b)%nat.
Proof. unfold occ. rewrite filter_app, app_length. reflexivity. Qed.
Lemma occ_drop c c' l : occ c' (filter (fun x => negb (Nat.eqb x c)) l) = if Nat.eqb c' c then 0%nat else occ c' l.
Proof.
  unfold occ. induction l as [|x l IH]; [cbn; destruct (Nat.eqb c' c); reflexivity|]. cbn [filter]. destruct (Nat.eqb_spec x c) as [->|Hx]; cbn [negb filter].
  - rewrite IH. destruct (Nat.eqb_spec c' c); reflexivity.
  - destruct (Nat.eqb_spec c' x) as [->|Hc].
    + cbn [List.length]. rewrite IH. destruct (Nat.eqb_spec x c); [contradiction|reflexivity].
    + exact IH.
Qed.

Lemma tinv_handlers c t v w o hd : tinv c t v w -> tinv c t v (mkWorld (w_prims w) (w_tabs w) o hd).
Proof. intros [a b d e f g]. constructor; assumption. Qed.
Lemma calm_handlers c t w o hd : calm c t w (mkWorld (w_prims w) (w_tabs w) o hd).
Proof. constructor; auto. Qed.

Lemma clear_loggers_fx c t v w : wfw w -> tinv c t v w -> let w' := clear_loggers c t w in let s := w_tabs w c t in
  wfw w' /\ same w w' /\ tinv c t (mkVis false false (ended v)) w' /\
  (forall c' t', (c', t') <> (c, t) -> calm c' t' w w') /\
  w_tabs w' c t = mkTabst (ts_shown s) [] [] [] (ts_latest s) false /\
  (forall t', w_handlers w' t' = if Nat.eqb t' t && ts_logger s then filter (fun x => negb (Nat.eqb x c)) (w_handlers w t) else w_handlers w t').
Proof.
  intros W I w' s. unfold w', clear_loggers. fold s. set (w1 := mkWorld _ _ _ _). set (w2 := set_tab c t _ w1).
  assert (I2 : tinv c t v w2) by (apply tinv_tab; [reflexivity..|]; apply tinv_handlers, I). assert (W2 : wfw w2) by exact W.
  destruct (tinv_clear c t v w2 false W2 I2) as (W3 & S3 & I3 & K3 & T3 & H3). set (w3 := clear_telemetry c t w2) in *.
  split; [exact W3|]. split; [eapply same_trans; [|exact S3]; constructor; reflexivity|]. split; [exact I3|].
  split. { intros c' t' Ne. eapply calm_trans; [apply calm_handlers|]. eapply calm_trans; [apply calm_set_tab; intros Q; apply Ne; symmetry; exact Q|]. apply K3, Ne. }
  split; [rewrite T3; unfold w2; rewrite set_tab_same; reflexivity|]. intros t'. rewrite H3. reflexivity.
Qed.

Definition clears (c : nat) (L : list nat) (w : world) : world := fold_left (fun w t => clear_loggers c t w) L w.

Lemma clears_fx c (V : nat -> vis) L : forall w, wfw w -> NoDup L -> (forall t, In t L -> tinv c t (V t) w) -> let w' := clears c L w in
  wfw w' /\ same w w' /\
  (forall t, In t L -> tinv c t (mkVis false false (ended (V t))) w' /\ ts_logger (w_tabs w' c t) = false) /\
  (forall t, ~ In t L -> calm c t w w') /\
  (forall c' t, c' <> c -> calm c' t w w') /\
  (forall t, w_handlers w' t = if existsb (Nat.eqb t) L && ts_logger (w_tabs w c t) then filter (fun x => negb (Nat.eqb x c)) (w_handlers w t) else w_handlers w t).
Proof.
  induction L as [|t0 L IH]; intros w W N I.
  - cbn. split; [exact W|]. split; [apply same_refl|]. split; [contradiction|]. split; [intros; apply calm_refl|]. split; [intros; apply calm_refl|]. reflexivity.
  - inversion N as [|? ? N1 N2]; subst. cbn [clears fold_left]. change (fold_left _ L ?x) with (clears c L x).
    destruct (clear_loggers_fx c t0 (V t0) w W (I t0 (or_introl eq_refl))) as (W1 & S1 & I1 & K1 & T1 & H1). set (w1 := clear_loggers c t0 w) in *.
    assert (J1 : forall t, In t L -> tinv c t (V t) w1).
    { intros t Ht. apply (tinv_calm c t (V t) w); [|apply I; right; exact Ht]. apply K1. intros Q. injection Q as ->. contradiction. }
    destruct (IH w1 W1 N2 J1) as (W2 & S2 & I2 & K2 & G2 & H2). set (w2 := clears c L w1) in *. cbn zeta.
    split; [exact W2|]. split; [eapply same_trans; eassumption|]. split.
    { intros t [<-|Ht]; [|apply I2, Ht]. destruct (K2 t0 N1) as [a b d]. split; [apply (tinv_calm c t0 _ w1); [constructor; assumption|exact I1]|]. rewrite d, T1. reflexivity. }
    split. { intros t Ht. eapply calm_trans; [apply K1; intros Q; injection Q as ->; apply Ht; left; reflexivity|]. apply K2. intros Q. apply Ht. right. exact Q. }
    split. { intros c' t Hc. eapply calm_trans; [apply K1; congruence|apply G2, Hc]. }
    intros t. rewrite H2. cbn [existsb]. destruct (Nat.eqb_spec t t0) as [->|Ht].
    + assert (X : existsb (Nat.eqb t0) L = false). { destruct (existsb (Nat.eqb t0) L) eqn:E; [|reflexivity]. apply existsb_exists in E. destruct E as (y & Hy & E). apply Nat.eqb_eq in E. subst. contradiction. }
      rewrite X. cbn [andb orb]. rewrite H1, Nat.eqb_refl. reflexivity.
    + cbn [orb]. rewrite H1. destruct (Nat.eqb_spec t t0); [contradiction|]. cbn [andb]. assert (E : w_tabs w1 c t = w_tabs w c t) by (apply (ca_tab _ _ _ _ (K1 c t ltac:(congruence)))). rewrite E. reflexivity.
Qed.

Lemma existsb_seq t : (t < ntabs)%nat -> existsb (Nat.eqb t) (seq 0 ntabs) = true.
Proof. intros H. apply existsb_exists. exists t. split; [apply in_seq; lia|apply Nat.eqb_refl]. Qed.

(** ** Everything together *)
Record ginv (h : list tev) (w : world) : Prop := mkGinv {
  gi_wf : wfw w;
  gi_open : forall c t, (t < ntabs)%nat -> w_open w c = vs_open (vis_of c t h);
  gi_tab : forall c t, (t < ntabs)%nat -> tinv c t (vis_of c t h) w;
  gi_log : forall c t, (t < ntabs)%nat -> fold_left (log_step c t) h (true, false) = (w_open w c, ts_logger (w_tabs w c t)) /\
             occ c (w_handlers w t) = (if ts_logger (w_tabs w c t) then 1 else 0)%nat
}.

Lemma vis_snoc c t h e : vis_of c t (h ++ [e]) = vis_step c t (vis_of c t h) e.
Proof. unfold vis_of. rewrite fold_left_app. reflexivity. Qed.
Lemma run_snoc w h e : run w (h ++ [e]) = (fst (step (fst (run w h)) e), snd (run w h) ++ snd (step (fst (run w h)) e)).
Proof.
  revert w. induction h as [|x h IH]; intros w.
  - cbn [app t_run fst snd]. destruct (step w e) as [w1 o1]. cbn. rewrite app_nil_r. reflexivity.
  - cbn [app t_run]. destruct (step w x) as [w1 o1]. rewrite IH. destruct (run w1 h) as [w2 o2]. cbn [fst snd]. rewrite app_assoc. reflexivity.
Qed.

Lemma ginv_init prims : ginv [] (w_init prims).
Proof.
  constructor.
  - intros p. split; [constructor|]. split; [discriminate|]. cbn. apply store_value.
  - reflexivity.
  - intros c t _. constructor; try reflexivity; [constructor|intros n i []|discriminate].
  - intros c t _. split; reflexivity.
Qed.

Lemma ginv_light h e w w' : ginv h w -> light w w' -> w_handlers w' = w_handlers w -> (forall c t, ts_logger (w_tabs w' c t) = ts_logger (w_tabs w c t)) ->
  (forall c t, (t < ntabs)%nat -> vis_step c t (vis_of c t h) e = vis_of c t h) ->
  (forall c t, (t < ntabs)%nat -> log_step c t (fold_left (log_step c t) h (true, false)) e = fold_left (log_step c t) h (true, false)) ->
  ginv (h ++ [e]) w'.
Proof.
  intros [a b d e'] L H Hl Hv Hg. constructor.
  - apply (li_wf _ _ L), a.
  - intros c t Ht. rewrite vis_snoc, Hv by exact Ht. rewrite (li_open _ _ L). apply b, Ht.
  - intros c t Ht. rewrite vis_snoc, Hv by exact Ht. apply (tinv_light c t _ w); [exact L|apply d, Ht].
  - intros c t Ht. rewrite fold_left_app. cbn [fold_left]. rewrite Hg by exact Ht. rewrite (li_open _ _ L), Hl, H. apply e', Ht.
Qed.

Lemma ginv_shown h w (b : bool) c t : ginv h w -> w_open w c = true -> (t < ntabs)%nat ->
  ginv (h ++ [if b then EShown c t else EHidden c t]) (fst (handle_shown names view b c t w)).
Proof.
  intros [g1 g2 g3 g4] Ho Ht. destruct (shown_fx c t (vis_of c t h) w b g1 (g3 c t Ht)) as (W1 & S1 & I1 & K1 & T1 & P1 & L1 & Lg1 & H1 & O1). set (w1 := fst (handle_shown names view b c t w)) in *.
  assert (Vo : vs_open (vis_of c t h) = true) by (rewrite <- (g2 c t Ht); exact Ho).
  assert (Vs : forall c' t', vis_step c' t' (vis_of c' t' h) (if b then EShown c t else EHidden c t) =
     if Nat.eqb c c' && Nat.eqb t t' then (if b then mkVis true true (S (vs_unpaired (vis_of c t h))) else mkVis true false (ended (vis_of c t h))) else vis_of c' t' h).
  { intros c' t'. unfold vis_step. destruct (Nat.eqb_spec c c') as [<-|Nc], (Nat.eqb_spec t t') as [<-|Nt]; cbn [andb].
    - rewrite Vo. cbn [negb]. destruct b; rewrite !Nat.eqb_refl; reflexivity.
    - destruct (negb (vs_open (vis_of c t' h))); [reflexivity|]. destruct b; rewrite Nat.eqb_refl; destruct (Nat.eqb_spec t t'); try contradiction; reflexivity.
    - destruct (negb (vs_open (vis_of c' t h))); [reflexivity|]. destruct b; destruct (Nat.eqb_spec c c'); try contradiction; reflexivity.
    - destruct (negb (vs_open (vis_of c' t' h))); [reflexivity|]. destruct b; destruct (Nat.eqb_spec c c'); try contradiction; reflexivity. }
  constructor.
  - exact W1.
  - intros c' t' Ht'. rewrite vis_snoc, Vs, (sa_open _ _ S1). destruct (Nat.eqb_spec c c') as [<-|], (Nat.eqb_spec t t') as [<-|]; cbn [andb]; try (apply g2; assumption). rewrite Ho. destruct b; reflexivity.
  - intros c' t' Ht'. rewrite vis_snoc, Vs. destruct (Nat.eqb_spec c c') as [<-|], (Nat.eqb_spec t t') as [<-|]; cbn [andb]; try (apply (tinv_calm c' t' _ w); [apply K1; congruence|apply g3; assumption]).
    + exact I1.
    + apply (tinv_calm c t' _ w); [apply K1; congruence|apply g3; assumption].
    + apply (tinv_calm c' t _ w); [apply K1; congruence|apply g3; assumption].
  - intros c' t' Ht'. rewrite fold_left_app. cbn [fold_left]. destruct (g4 c' t' Ht') as [A B]. rewrite A, H1, (sa_open _ _ S1).
    assert (X : ts_logger (w_tabs w1 c' t') = ts_logger (w_tabs w c' t')).
    { destruct (Nat.eq_dec c c') as [<-|Nc]; [destruct (Nat.eq_dec t t') as [<-|Nt]; [exact Lg1|]|]; f_equal; first [apply (ca_tab c t' w w1), K1; congruence | apply (ca_tab c' t' w w1), K1; congruence]. }
    rewrite X. split; [|exact B]. unfold log_step. cbn [fst]. destruct (negb (w_open w c')); [reflexivity|]. destruct b; reflexivity.
Qed.

Lemma ginv_step h w e : ginv h w -> ginv (h ++ [e]) (fst (step w e)).
Proof.
  intros G. destruct e as [c t|c t|c t|c|c|p v ts]; cbn [t_step].
  - destruct (w_open w c && Nat.ltb t ntabs) eqn:C; cbn [fst].
    + apply andb_true_iff in C. destruct C as [Ho Ht]. apply Nat.ltb_lt in Ht. unfold handle_init. destruct (ts_logger (w_tabs w c t)) eqn:Lg.
      * apply (ginv_light h _ w w G (light_refl w)); [reflexivity|reflexivity| |].
        -- intros c' t' _. unfold vis_step. destruct (negb _); reflexivity.
        -- intros c' t' Ht'. destruct (gi_log _ _ G c' t' Ht') as [-> _]. unfold log_step. cbn [fst]. destruct (negb (w_open w c')) eqn:X; [reflexivity|].
           destruct (Nat.eqb_spec c c') as [<-|]; [|reflexivity]. destruct (Nat.eqb_spec t t') as [<-|]; [|reflexivity]. cbn [andb]. rewrite Lg, Ho. reflexivity.
      * set (w1 := set_tab c t _ w). destruct G as [g1 g2 g3 g4].
        assert (L1 : light w w1) by (apply light_tab; reflexivity).
        assert (Vs : forall c' t', vis_step c' t' (vis_of c' t' h) (EInit c t) = vis_of c' t' h) by (intros; unfold vis_step; destruct (negb _); reflexivity).
        constructor.
        -- exact g1.
        -- intros c' t' Ht'. rewrite vis_snoc, Vs. apply g2, Ht'.
        -- intros c' t' Ht'. rewrite vis_snoc, Vs. apply tinv_handlers. apply (tinv_light c' t' _ w); [exact L1|apply g3, Ht'].
        -- intros c' t' Ht'. rewrite fold_left_app. cbn [fold_left]. destruct (g4 c' t' Ht') as [A B]. rewrite A. unfold log_step. cbn [fst w_open w_tabs w_handlers].
           change (w_handlers w1) with (w_handlers w). change (w_open w1) with (w_open w). destruct (Nat.eqb_spec c c') as [<-|Nc].
           ++ rewrite Ho. cbn [negb]. destruct (Nat.eqb_spec t t') as [<-|Nt].
              ** cbn [andb]. unfold w1. rewrite set_tab_same. cbn [ts_logger]. rewrite Nat.eqb_refl. cbn [andb]. rewrite occ_app, B, Lg. split; [reflexivity|]. unfold occ. cbn. rewrite Nat.eqb_refl. reflexivity.
              ** cbn [andb]. unfold w1. rewrite set_tab_other by congruence. destruct (Nat.eqb_spec t' t); [congruence|]. split; [reflexivity|exact B].
           ++ cbn [andb]. unfold w1. rewrite set_tab_other by congruence. split; [destruct (negb (w_open w c')); reflexivity|]. destruct (Nat.eqb_spec t' t) as [->|]; [|exact B].
              rewrite occ_app, B. unfold occ. cbn. destruct (Nat.eqb_spec c' c); [congruence|]. cbn. lia.
    + apply (ginv_light h _ w w G (light_refl w)); [reflexivity|reflexivity| |].
      * intros c' t' _. unfold vis_step. destruct (negb _); reflexivity.
      * intros c' t' Ht'. destruct (gi_log _ _ G c' t' Ht') as [-> _]. unfold log_step. cbn [fst]. destruct (negb (w_open w c')) eqn:X; [reflexivity|].
        destruct (Nat.eqb_spec c c') as [<-|]; [|reflexivity]. destruct (Nat.eqb_spec t t') as [<-|]; [|reflexivity]. exfalso. apply Nat.ltb_lt in Ht'. rewrite Ht' in C. destruct (w_open w c); discriminate.
  - destruct (w_open w c && Nat.ltb t ntabs) eqn:C.
    + apply andb_true_iff in C. destruct C as [Ho Ht]. apply Nat.ltb_lt in Ht. apply (ginv_shown h w true c t G Ho Ht).
    + cbn [fst]. apply (ginv_light h _ w w G (light_refl w)); [reflexivity|reflexivity| |].
      * intros c' t' Ht'. unfold vis_step. rewrite <- (gi_open _ _ G c' t' Ht'). destruct (w_open w c') eqn:X; [|reflexivity]. cbn [negb].
        destruct (Nat.eqb_spec c c') as [<-|]; [|reflexivity]. destruct (Nat.eqb_spec t t') as [<-|]; [|reflexivity]. exfalso. apply Nat.ltb_lt in Ht'. rewrite Ht', X in C. discriminate.
      * intros c' t' Ht'. unfold log_step. destruct (negb _); reflexivity.
  - destruct (w_open w c && Nat.ltb t ntabs) eqn:C.
    + apply andb_true_iff in C. destruct C as [Ho Ht]. apply Nat.ltb_lt in Ht. apply (ginv_shown h w false c t G Ho Ht).
    + cbn [fst]. apply (ginv_light h _ w w G (light_refl w)); [reflexivity|reflexivity| |].
      * intros c' t' Ht'. unfold vis_step. rewrite <- (gi_open _ _ G c' t' Ht'). destruct (w_open w c') eqn:X; [|reflexivity]. cbn [negb].
        destruct (Nat.eqb_spec c c') as [<-|]; [|reflexivity]. destruct (Nat.eqb_spec t t') as [<-|]; [|reflexivity]. exfalso. apply Nat.ltb_lt in Ht'. rewrite Ht', X in C. discriminate.
      * intros c' t' Ht'. unfold log_step. destruct (negb _); reflexivity.
  - assert (Vs : forall c' t', (t' < ntabs)%nat -> vis_step c' t' (vis_of c' t' h) (EFrame c) = vis_of c' t' h) by (intros; unfold vis_step; destruct (negb _); reflexivity).
    assert (Ls : forall c' t', (t' < ntabs)%nat -> log_step c' t' (fold_left (log_step c' t') h (true, false)) (EFrame c) = fold_left (log_step c' t') h (true, false)) by (intros; unfold log_step; destruct (negb _); reflexivity).
    destruct (w_open w c); [|apply (ginv_light h _ w w G (light_refl w)); auto].
    unfold frames. change (fold_left _ (seq 0 ntabs) (w, [])) with (frames_of c (seq 0 ntabs) (w, [])).
    destruct (frames_fx c (seq 0 ntabs) w [] (seq_NoDup _ _)) as (A & B & C & D & _). apply (ginv_light h _ w _ G A C D Vs Ls).
  - destruct (w_open w c) eqn:Ho.
    + cbn [fst]. unfold close. change (fold_left _ (seq 0 ntabs) w) with (clears c (seq 0 ntabs) w). destruct G as [g1 g2 g3 g4].
      assert (I0 : forall t, In t (seq 0 ntabs) -> tinv c t (vis_of c t h) w) by (intros t Ht; apply g3; apply in_seq in Ht; lia).
      destruct (clears_fx c (fun t => vis_of c t h) (seq 0 ntabs) w g1 (seq_NoDup _ _) I0) as (W1 & S1 & I1 & K1 & G1 & H1). set (w1 := clears c (seq 0 ntabs) w) in *.
      assert (Vs : forall c' t', (t' < ntabs)%nat -> vis_step c' t' (vis_of c' t' h) (EClose c) = if Nat.eqb c c' then mkVis false false (ended (vis_of c' t' h)) else vis_of c' t' h).
      { intros c' t' Ht'. unfold vis_step. rewrite <- (g2 c' t' Ht'). destruct (Nat.eqb_spec c c') as [<-|]; [rewrite Ho; reflexivity|]. destruct (negb (w_open w c')); reflexivity. }
      constructor.
      * exact W1.
      * intros c' t' Ht'. rewrite vis_snoc, Vs by exact Ht'. cbn [w_open]. rewrite (sa_open _ _ S1). rewrite (Nat.eqb_sym c' c). destruct (Nat.eqb_spec c c') as [<-|]; [reflexivity|]. apply g2, Ht'.
      * intros c' t' Ht'. rewrite vis_snoc, Vs by exact Ht'. apply tinv_handlers. destruct (Nat.eqb_spec c c') as [<-|].
        -- apply I1, in_seq. lia.
        -- apply (tinv_calm c' t' _ w); [apply G1; congruence|apply g3, Ht'].
      * intros c' t' Ht'. rewrite fold_left_app. cbn [fold_left]. destruct (g4 c' t' Ht') as [A B]. rewrite A. unfold log_step. cbn [fst w_open w_tabs w_handlers]. rewrite (sa_open _ _ S1), (Nat.eqb_sym c' c).
        rewrite H1, existsb_seq by exact Ht'. cbn [andb]. destruct (Nat.eqb_spec c c') as [<-|].
        -- rewrite Ho. cbn [negb]. destruct (I1 t') as [_ Lf]; [apply in_seq; lia|]. rewrite Lf. split; [reflexivity|]. destruct (ts_logger (w_tabs w c t')); [rewrite occ_drop, Nat.eqb_refl; reflexivity|exact B].
        -- assert (T : w_tabs w1 c' t' = w_tabs w c' t') by (apply (ca_tab _ _ _ _ (G1 c' t' ltac:(congruence)))). rewrite T. split; [destruct (negb (w_open w c')); reflexivity|].
           destruct (ts_logger (w_tabs w c t')); [rewrite occ_drop; destruct (Nat.eqb_spec c' c); [congruence|exact B]|exact B].
    + cbn [fst]. apply (ginv_light h _ w w G (light_refl w)); [reflexivity|reflexivity| |].
      * intros c' t' Ht'. unfold vis_step. rewrite <- (gi_open _ _ G c' t' Ht'). destruct (Nat.eqb_spec c c') as [<-|]; [rewrite Ho; reflexivity|]. destruct (negb _); reflexivity.
      * intros c' t' Ht'. destruct (gi_log _ _ G c' t' Ht') as [-> _]. unfold log_step. cbn [fst]. destruct (Nat.eqb_spec c c') as [<-|]; [rewrite Ho; reflexivity|]. destruct (negb _); reflexivity.
  - destruct (assign_fx p v ts w (gi_wf _ _ G)) as (A & B & C & _). cbn [fst]. apply (ginv_light h _ w _ G A B C).
    + intros. unfold vis_step. destruct (negb _); reflexivity.
    + intros. unfold log_step. destruct (negb _); reflexivity.
Qed.

Lemma ginv_run prims h : ginv h (fst (run (w_init prims) h)).
Proof.
  induction h as [|e h IH] using rev_ind; [apply ginv_init|]. rewrite run_snoc. cbn [fst]. apply ginv_step, IH.
Qed.

(** ** What the tab displays *)
Definition minv (c t : nat) (m : mood) (h : list tev) (w : world) (out : list (nat * nat * tmsg)) : Prop :=
  match m with
  | Hid => vis_of c t h = mkVis true false 0 /\ (forall n, pts w c t n = []) /\
           forall n p v, dget n (names t) = Some p -> dget n (ts_latest (w_tabs w c t)) = Some v -> displays c t n out v
  | Fresh => vis_of c t h = mkVis true true 1 /\ (forall n, pts w c t n = []) /\
             forall n p, dget n (names t) = Some p -> displays c t n out (view t n (tp_raw (w_prims w p)))
  | Stale => vis_of c t h = mkVis true true 1 /\
             forall n p, dget n (names t) = Some p -> exists before, told c t n out ++ map fst (pts w c t n) = before ++ [view t n (tp_raw (w_prims w p))]
  | Gone => vs_open (vis_of c t h) = false
  | Untidy => True
  end.

Lemma told_other c t n c' t' b w : (c', t') <> (c, t) -> told c t n (snd (handle_shown names view b c' t' w)) = [].
Proof.
  intros Ne. unfold handle_shown. assert (X : Nat.eqb c' c && Nat.eqb t' t = false) by (destruct (Nat.eqb_spec c' c), (Nat.eqb_spec t' t); subst; try reflexivity; congruence).
  destruct b; cbn [snd]; [|reflexivity]. destruct (to_send _ _); [reflexivity|]. unfold told. cbn [flat_map fst snd]. rewrite X. reflexivity.
Qed.
Lemma points_shown c t n c' t' b w : points c t n (snd (handle_shown names view b c' t' w)) = [].
Proof.
  unfold handle_shown. destruct b; cbn [snd]; [|reflexivity]. destruct (to_send _ _); [reflexivity|]. unfold points. cbn [flat_map fst snd]. destruct (_ && _); reflexivity.
Qed.

Lemma minv_same c t m h e w w' out o :
  (vis_step c t (vis_of c t h) e = vis_of c t h) -> (forall n, told c t n o = []) ->
  (forall n, pts w' c t n = pts w c t n) -> ts_latest (w_tabs w' c t) = ts_latest (w_tabs w c t) ->
  (forall p, tp_raw (w_prims w' p) = tp_raw (w_prims w p)) ->
  minv c t m h w out -> minv c t m (h ++ [e]) w' (out ++ o).
Proof.
  intros V T P L R M. assert (D : forall n v, displays c t n out v -> displays c t n (out ++ o) v) by (intros n v [bf B]; exists bf; rewrite told_app, T, app_nil_r; exact B).
  destruct m; cbn [minv] in *; rewrite ?vis_snoc, ?V.
  - destruct M as (A & B & C). split; [exact A|]. split; [intros n; rewrite P; apply B|]. intros n p v Hn H. rewrite L in H. apply D, (C n p v Hn H).
  - destruct M as (A & B & C). split; [exact A|]. split; [intros n; rewrite P; apply B|]. intros n p H. rewrite R. apply D, (C n p H).
  - destruct M as (A & C). split; [exact A|]. intros n p H. rewrite R, P, told_app, T, app_nil_r. apply C, H.
  - exact M.
  - exact I.
Qed.

Lemma dget_values t w n p : dget n (names t) = Some p -> dget n (values names view t w) = Some (view t n (tp_raw (w_prims w p))).
Proof.
  unfold values. induction (names t) as [|[k q] l IH]; cbn [dget map fst snd]; intros H; [discriminate|]. destruct (eq_dec n k) as [->|]; [injection H as ->; reflexivity|apply IH, H].
Qed.
Lemma dget_values_none t w n : dget n (names t) = None -> dget n (values names view t w) = None.
Proof.
  unfold values. induction (names t) as [|[k q] l IH]; cbn [dget map fst snd]; intros H; [reflexivity|]. destruct (eq_dec n k) as [->|]; [discriminate|apply IH, H].
Qed.
Lemma values_keys t w : dkeys (values names view t w) = map fst (names t).
Proof. unfold values, dkeys. rewrite map_map. reflexivity. Qed.
Lemma dget_filter {V} (f : Z * V -> bool) n (l : list (Z * V)) : NoDup (dkeys l) ->
  dget n (filter f l) = match dget n l with Some v => if f (n, v) then Some v else None | None => None end.
Proof.
  induction l as [|[k v] l IH]; intros N; [reflexivity|]. cbn [dkeys map fst] in N. inversion N as [|? ? A B]; subst. cbn [filter dget].
  destruct (eq_dec n k) as [->|E].
  - destruct (f (k, v)) eqn:F; [cbn [dget]; destruct (eq_dec k k); [reflexivity|contradiction]|]. rewrite IH by exact B. assert (X : dget k l = None) by (apply dget_None_notin, A). rewrite X. reflexivity.
  - destruct (f (k, v)); [cbn [dget]; destruct (eq_dec n k); [contradiction|]|]; apply IH, B.
Qed.
Lemma dget_dupdate u : forall d n, NoDup (dkeys u) -> dget n (dupdate d u) = match dget n u with Some v => Some v | None => dget n d end.
Proof.
  unfold dupdate. induction u as [|[k v] u IH]; intros d n N; [reflexivity|]. cbn [dkeys map fst] in N. inversion N as [|? ? A B]; subst. cbn [fold_left fst snd dget].
  rewrite IH by exact B. destruct (eq_dec n k) as [->|E].
  - assert (X : dget k u = None) by (apply dget_None_notin, A). rewrite X. apply dget_dset_eq.
  - destruct (dget n u); [reflexivity|]. apply dget_dset_ne, E.
Qed.

Lemma values_nodup t w : NoDup (dkeys (values names view t w)).
Proof. rewrite values_keys. apply distinct. Qed.

(** What showing tells. *)
Lemma told_shown c t n w p : dget n (names t) = Some p ->
  told c t n (snd (handle_shown names view true c t w)) =
  if match dget n (ts_latest (w_tabs w c t)) with Some v => (v =? view t n (tp_raw (w_prims w p)))%Z | None => false end then [] else [view t n (tp_raw (w_prims w p))].
Proof.
  intros H. unfold handle_shown. cbn [snd]. change (values names view t (set_tab c t ?x w)) with (values names view t w).
  set (d := to_send _ _). assert (D : dget n d = if match dget n (ts_latest (w_tabs w c t)) with Some v => (v =? view t n (tp_raw (w_prims w p)))%Z | None => false end then None else Some (view t n (tp_raw (w_prims w p)))).
  { unfold d, to_send. rewrite dget_filter by apply values_nodup. rewrite (dget_values t w n p H). cbn [fst snd]. destruct (dget n (ts_latest (w_tabs w c t))) as [x|]; [|reflexivity]. destruct (x =? _)%Z; reflexivity. }
  destruct d as [|x d]; [destruct (match dget n (ts_latest (w_tabs w c t)) with Some v => _ | None => _ end); [reflexivity|discriminate]|].
  unfold told. cbn [flat_map fst snd]. rewrite !Nat.eqb_refl, app_nil_r. cbn [andb tells]. rewrite D. destruct (match dget n (ts_latest (w_tabs w c t)) with Some v => _ | None => _ end); reflexivity.
Qed.

Lemma pts_nil w c t : ts_points (w_tabs w c t) = [] -> forall n, pts w c t n = [].
Proof. intros H n. unfold pts. rewrite H. reflexivity. Qed.


(** Events that do not concern the tab. *)
Definition foreign (c t : nat) (e : tev) : bool :=
  match e with
  | EInit _ _ => true
  | EShown c' t' | EHidden c' t' => negb (Nat.eqb c' c && Nat.eqb t' t)
  | EFrame c' | EClose c' => negb (Nat.eqb c' c)
  | ESet _ _ _ => false
  end.

Lemma foreign_fx c t h w e : (t < ntabs)%nat -> ginv h w -> foreign c t e = true ->
  let w' := fst (step w e) in let o := snd (step w e) in
  vis_step c t (vis_of c t h) e = vis_of c t h /\ (forall n, told c t n o = []) /\ (forall n, points c t n o = []) /\
  (forall n, pts w' c t n = pts w c t n) /\ ts_latest (w_tabs w' c t) = ts_latest (w_tabs w c t) /\
  (forall p, tp_raw (w_prims w' p) = tp_raw (w_prims w p)) /\ (forall p, tp_kind (w_prims w' p) = tp_kind (w_prims w p)) /\
  mood_step c t Hid e = Hid /\ mood_step c t Fresh e = Fresh /\ mood_step c t Stale e = Stale.
Proof.
  intros Ht G F w' o.
  assert (Z : forall w, pts w c t = pts w c t) by reflexivity.
  destruct e as [c' t'|c' t'|c' t'|c'|c'|p v ts]; cbn [foreign] in F; try discriminate; unfold w', o; cbn [t_step mood_step vis_step].
  - split; [unfold vis_step; destruct (negb _); reflexivity|]. destruct (w_open w c' && Nat.ltb t' ntabs); cbn [fst snd]; [|repeat split].
    unfold handle_init. destruct (ts_logger (w_tabs w c' t')); [repeat split|]. split; [reflexivity|]. split; [reflexivity|].
    split; [|split; [|repeat split]]; [intros n; unfold pts|]; cbn; destruct (Nat.eqb_spec c c'), (Nat.eqb_spec t t'); subst; reflexivity.
  - apply negb_true_iff in F. rewrite F. assert (Ne : (c, t) <> (c', t')) by (intros Q; injection Q as <- <-; rewrite !Nat.eqb_refl in F; discriminate).
    split; [unfold vis_step; rewrite F; destruct (negb _); reflexivity|]. destruct (w_open w c' && Nat.ltb t' ntabs) eqn:C; cbn [fst snd]; [|repeat split].
    apply andb_true_iff in C. destruct C as [_ C]. apply Nat.ltb_lt in C.
    destruct (shown_fx c' t' _ w true (gi_wf _ _ G) (gi_tab _ _ G c' t' C)) as (_ & S1 & _ & K1 & _).
    assert (T : w_tabs (fst (handle_shown names view true c' t' w)) c t = w_tabs w c t) by (apply (ca_tab _ _ _ _ (K1 c t Ne))).
    split; [intros; apply told_other; congruence|]. split; [intros; apply points_shown|]. unfold pts. rewrite T. split; [reflexivity|]. split; [reflexivity|]. split; [apply S1|]. split; [apply S1|repeat split].
  - apply negb_true_iff in F. rewrite F. assert (Ne : (c, t) <> (c', t')) by (intros Q; injection Q as <- <-; rewrite !Nat.eqb_refl in F; discriminate).
    split; [unfold vis_step; rewrite F; destruct (negb _); reflexivity|]. destruct (w_open w c' && Nat.ltb t' ntabs) eqn:C; cbn [fst snd]; [|repeat split].
    apply andb_true_iff in C. destruct C as [_ C]. apply Nat.ltb_lt in C.
    destruct (shown_fx c' t' _ w false (gi_wf _ _ G) (gi_tab _ _ G c' t' C)) as (_ & S1 & _ & K1 & _).
    assert (T : w_tabs (fst (handle_shown names view false c' t' w)) c t = w_tabs w c t) by (apply (ca_tab _ _ _ _ (K1 c t Ne))).
    split; [intros; apply told_other; congruence|]. split; [intros; apply points_shown|]. unfold pts. rewrite T. split; [reflexivity|]. split; [reflexivity|]. split; [apply S1|]. split; [apply S1|repeat split].
  - apply negb_true_iff in F. rewrite F. apply Nat.eqb_neq in F. split; [unfold vis_step; destruct (negb _); reflexivity|]. destruct (w_open w c'); cbn [fst snd]; [|repeat split].
    unfold frames. change (fold_left _ (seq 0 ntabs) (w, [])) with (frames_of c' (seq 0 ntabs) (w, [])).
    destruct (frames_fx c' (seq 0 ntabs) w [] (seq_NoDup _ _)) as (A & B & _ & _ & _ & _ & _ & D & _ & _ & E). unfold pts. rewrite (D c t) by congruence. rewrite B.
    split; [intros n; apply E; congruence|]. split; [intros n; apply E; congruence|]. repeat split.
  - apply negb_true_iff in F. rewrite F. split; [unfold vis_step; rewrite F; destruct (negb _); reflexivity|]. apply Nat.eqb_neq in F. destruct (w_open w c'); cbn [fst snd]; [|repeat split].
    unfold close. change (fold_left _ (seq 0 ntabs) w) with (clears c' (seq 0 ntabs) w).
    assert (I0 : forall t, In t (seq 0 ntabs) -> tinv c' t (vis_of c' t h) w) by (intros t' Ht'; apply (gi_tab _ _ G); apply in_seq in Ht'; lia).
    destruct (clears_fx c' (fun t => vis_of c' t h) (seq 0 ntabs) w (gi_wf _ _ G) (seq_NoDup _ _) I0) as (_ & S1 & _ & _ & G1 & _). set (w1 := clears c' (seq 0 ntabs) w) in *.
    assert (T : w_tabs w1 c t = w_tabs w c t) by (apply (ca_tab _ _ _ _ (G1 c t ltac:(congruence)))).
    split; [reflexivity|]. split; [reflexivity|]. unfold pts. cbn [w_tabs w_prims]. rewrite T. split; [reflexivity|]. split; [reflexivity|]. split; [apply S1|]. split; [apply S1|repeat split].
Qed.

Lemma frame_fx c t h w : (t < ntabs)%nat -> ginv h w -> w_open w c = true -> let w' := fst (step w (EFrame c)) in let o := snd (step w (EFrame c)) in
  (forall n, told c t n o = map fst (pts w c t n)) /\ (forall n, points c t n o = pts w c t n) /\ (forall n, pts w' c t n = []) /\
  ts_latest (w_tabs w' c t) = ts_latest (w_tabs w c t) /\ w_prims w' = w_prims w.
Proof.
  intros Ht G Ho. cbn [t_step]. rewrite Ho. unfold frames. change (fold_left _ (seq 0 ntabs) (w, [])) with (frames_of c (seq 0 ntabs) (w, [])).
  assert (Hi : In t (seq 0 ntabs)) by (apply in_seq; lia).
  destruct (frames_fx c (seq 0 ntabs) w [] (seq_NoDup _ _)) as (A & B & _ & _ & _ & C & _ & _ & D & _). split; [intros n; apply (D t n Hi)|]. split; [intros n; apply (D t n Hi)|].
  split; [apply pts_nil, C, Hi|]. split; [apply (li_latest _ _ A)|exact B].
Qed.

Lemma set_fx c t h w p v ts : (t < ntabs)%nat -> ginv h w -> let w' := fst (step w (ESet p v ts)) in
  ts_latest (w_tabs w' c t) = ts_latest (w_tabs w c t) /\
  (forall q, tp_kind (w_prims w' q) = tp_kind (w_prims w q)) /\
  (forall q, tp_raw (w_prims w' q) = if Nat.eqb q p then k_store (tp_kind (w_prims w p)) v else tp_raw (w_prims w q)) /\
  (forall n q, dget n (names t) = Some q ->
    pts w' c t n = pts w c t n ++ if Nat.eqb q p && negb (tp_raw (w_prims w p) =? v)%Z then repeat (view t n (k_store (tp_kind (w_prims w p)) v), ts) (vs_unpaired (vis_of c t h)) else []) /\
  (forall n, dget n (names t) = None -> pts w' c t n = pts w c t n).
Proof.
  intros Ht G. cbn [t_step fst]. destruct (assign_fx p v ts w (gi_wf _ _ G)) as (A & _ & _ & _ & K & R & P). split; [apply (li_latest _ _ A)|]. split; [exact K|]. split; [exact R|].
  destruct (gi_tab _ _ G c t Ht) as [a b _ _ _ _]. split.
  - intros n q H. rewrite P. f_equal. destruct (tp_raw (w_prims w p) =? v)%Z; [rewrite andb_false_r; reflexivity|]. rewrite andb_true_r. destruct (Nat.eqb_spec q p) as [->|Nq].
    + rewrite (a n p H). reflexivity.
    + rewrite (b n p) by congruence. reflexivity.
  - intros n H. rewrite P. rewrite (b n p) by congruence. destruct (_ =? v)%Z; apply app_nil_r.
Qed.

Lemma raw_kept w p v : wfw w -> (tp_raw (w_prims w p) =? v)%Z = true -> k_store (tp_kind (w_prims w p)) v = tp_raw (w_prims w p).
Proof. intros W H. apply Z.eqb_eq in H. rewrite <- H. apply store_id. apply W. Qed.

Lemma minv_step c t h w out e : (t < ntabs)%nat -> ginv h w -> minv c t (mood_of c t h) h w out ->
  minv c t (mood_of c t (h ++ [e])) (h ++ [e]) (fst (step w e)) (out ++ snd (step w e)).
Proof.
  intros Ht G M. unfold mood_of in *. rewrite fold_left_app. cbn [fold_left]. set (m := fold_left (mood_step c t) h Hid) in *. clearbody m.
  assert (Dm : m = Gone \/ m = Untidy \/ (m = Hid \/ m = Fresh \/ m = Stale)) by (destruct m; auto 6).
  destruct Dm as [-> | [-> | Dm]].
  - cbn [mood_step minv] in *. rewrite vis_snoc. unfold vis_step. rewrite M. exact M.
  - exact I.
  - assert (Vo : vs_open (vis_of c t h) = true) by (destruct Dm as [-> | [-> | ->]]; cbn [minv] in M; destruct M as [M _]; rewrite M; reflexivity).
    assert (Wo : w_open w c = true) by (rewrite (gi_open _ _ G c t Ht); exact Vo).
    assert (Hlt : Nat.ltb t ntabs = true) by (apply Nat.ltb_lt, Ht).
    destruct (foreign c t e) eqn:F.
    + destruct (foreign_fx c t h w e Ht G F) as (V & T & _ & P & L & R & _ & M1 & M2 & M3).
      replace (mood_step c t m e) with m by (destruct Dm as [-> | [-> | ->]]; congruence). apply (minv_same c t m h e w); assumption.
    + destruct e as [c' t'|c' t'|c' t'|c'|c'|p v ts]; cbn [foreign] in F; try discriminate.
      * apply negb_false_iff, andb_true_iff in F. destruct F as [Fc Ft]. apply Nat.eqb_eq in Fc, Ft. subst c' t'.
        destruct (shown_fx c t _ w true (gi_wf _ _ G) (gi_tab _ _ G c t Ht)) as (_ & S1 & _ & _ & _ & P1 & L1 & _ & _ & _).
        cbn [t_step]. rewrite Wo, Hlt. cbn [andb]. destruct Dm as [-> | [-> | ->]]; cbn [mood_step]; rewrite !Nat.eqb_refl; cbn [andb]; try exact I.
        cbn [minv] in *. destruct M as (A & B & C). split; [rewrite vis_snoc, A; unfold vis_step; cbn [vs_open negb]; rewrite !Nat.eqb_refl; reflexivity|].
        split; [intros n; unfold pts; rewrite P1; apply B|]. intros n p H. rewrite (sa_raw _ _ S1). unfold displays. rewrite told_app, (told_shown c t n w p H).
        destruct (dget n (ts_latest (w_tabs w c t))) as [x|] eqn:E; [destruct (Z.eqb_spec x (view t n (tp_raw (w_prims w p)))) as [<-|]|].
        -- rewrite app_nil_r. apply (C n p x H E).
        -- eexists. reflexivity.
        -- eexists. reflexivity.
      * apply negb_false_iff, andb_true_iff in F. destruct F as [Fc Ft]. apply Nat.eqb_eq in Fc, Ft. subst c' t'.
        destruct (shown_fx c t _ w false (gi_wf _ _ G) (gi_tab _ _ G c t Ht)) as (_ & S1 & _ & _ & _ & P1 & L1 & _ & _ & O1).
        cbn [t_step]. rewrite Wo, Hlt. cbn [andb]. destruct Dm as [-> | [-> | ->]]; cbn [mood_step]; rewrite !Nat.eqb_refl; cbn [andb]; try exact I.
        cbn [minv] in *. destruct M as (A & B & C). split; [rewrite vis_snoc, A; unfold vis_step; cbn [vs_open negb]; rewrite !Nat.eqb_refl; reflexivity|].
        split; [apply pts_nil, P1|]. intros n p v Hn. rewrite L1, dget_dupdate by apply values_nodup. rewrite O1, app_nil_r.
        rewrite (dget_values t w n p Hn). intros Q. injection Q as <-. apply C, Hn.
      * apply negb_false_iff in F. apply Nat.eqb_eq in F. subst c'. destruct (frame_fx c t h w Ht G Wo) as (T & _ & P & L & R). set (w' := fst (step w (EFrame c))) in *. set (o := snd (step w (EFrame c))) in *.
        assert (V : vis_step c t (vis_of c t h) (EFrame c) = vis_of c t h) by (unfold vis_step; rewrite Vo; reflexivity).
        destruct Dm as [-> | [-> | ->]]; cbn [mood_step]; rewrite Nat.eqb_refl; cbn [minv] in *; rewrite vis_snoc, V.
        -- destruct M as (A & B & C). split; [exact A|]. split; [exact P|]. rewrite L. intros n p v Hn H. destruct (C n p v Hn H) as [bf X]. exists bf. rewrite told_app, T, B, X. apply app_nil_r.
        -- destruct M as (A & B & C). split; [exact A|]. split; [exact P|]. rewrite R. intros n p H. destruct (C n p H) as [bf X]. exists bf. rewrite told_app, T, B, X. apply app_nil_r.
        -- destruct M as (A & C). split; [exact A|]. split; [exact P|]. rewrite R. intros n p H. destruct (C n p H) as [bf X]. exists bf. rewrite told_app, T. exact X.
      * apply negb_false_iff in F. apply Nat.eqb_eq in F. subst c'. replace (mood_step c t m (EClose c)) with Gone by (destruct Dm as [-> | [-> | ->]]; cbn [mood_step]; rewrite Nat.eqb_refl; reflexivity).
        cbn [minv]. rewrite vis_snoc. unfold vis_step. rewrite Vo, Nat.eqb_refl. reflexivity.
      * destruct (set_fx c t h w p v ts Ht G) as (L & K & R & P & P0). cbn [t_step snd]. rewrite app_nil_r. set (w' := fst (step w (ESet p v ts))) in *. change (fst (assign view p v ts w, [])) with w'.
        assert (V : vis_step c t (vis_of c t h) (ESet p v ts) = vis_of c t h) by (unfold vis_step; rewrite Vo; reflexivity).
        assert (St : vis_of c t h = mkVis true true 1 -> (forall n q, dget n (names t) = Some q -> exists bf, told c t n out ++ map fst (pts w c t n) = bf ++ [view t n (tp_raw (w_prims w q))]) ->
          minv c t Stale (h ++ [ESet p v ts]) w' out).
        { intros A C. cbn [minv]. rewrite vis_snoc, V. split; [exact A|]. intros n q H. rewrite (P n q H), A, R, map_app, app_assoc. cbn [vs_unpaired repeat]. destruct (C n q H) as [bf X]. rewrite X.
          destruct (Nat.eqb_spec q p) as [->|Nq]; cbn [andb]; [|exists bf; apply app_nil_r]. destruct (tp_raw (w_prims w p) =? v)%Z eqn:Ev; cbn [negb].
          - rewrite (raw_kept w p v (gi_wf _ _ G) Ev). exists bf. apply app_nil_r.
          - eexists. reflexivity. }
        destruct Dm as [-> | [-> | ->]]; cbn [mood_step].
        -- cbn [minv] in *. destruct M as (A & B & C). rewrite vis_snoc, V, L. split; [exact A|]. split; [|exact C]. intros n. destruct (dget n (names t)) as [q|] eqn:Hn.
           ++ rewrite (P n q Hn), A, B. cbn [vs_unpaired repeat]. destruct (_ && _); reflexivity.
           ++ rewrite (P0 n Hn). apply B.
        -- cbn [minv] in M. destruct M as (A & B & C). apply St; [exact A|]. intros n q H. rewrite B, app_nil_r. apply (C n q H).
        -- cbn [minv] in M. destruct M as (A & C). apply St; assumption.
Qed.

Lemma minv_run prims c t h : (t < ntabs)%nat -> minv c t (mood_of c t h) h (fst (run (w_init prims) h)) (snd (run (w_init prims) h)).
Proof.
  intros Ht. induction h as [|e h IH] using rev_ind.
  - cbn. split; [reflexivity|]. split; [reflexivity|]. discriminate.
  - rewrite run_snoc. cbn [fst snd]. apply minv_step; [exact Ht|apply ginv_run|exact IH].
Qed.

Lemma run_app w a b : run w (a ++ b) = (fst (run (fst (run w a)) b), snd (run w a) ++ snd (run (fst (run w a)) b)).
Proof.
  revert w. induction a as [|x a IH]; intros w.
  - cbn [app t_run fst snd]. destruct (run w b); reflexivity.
  - cbn [app t_run]. destruct (step w x) as [w1 o1]. rewrite IH. destruct (run w1 a) as [w2 o2]. cbn [fst snd]. rewrite app_assoc. reflexivity.
Qed.

(** ** Points between frames *)
Definition all_changes (c t : nat) (n : Z) (p : nat) (k : nat) (w : world) (h : list tev) : list (Z * Z) :=
  flat_map (fun x => repeat (view t n (fst x), snd x) k) (changes (tp_kind (w_prims w p)) (tp_raw (w_prims w p)) p h).

Lemma quiet_vis c t v e : quiet c t e = true -> vis_step c t v e = v.
Proof.
  unfold vis_step. destruct (negb (vs_open v)); [reflexivity|]. destruct e; cbn [quiet]; intros H; try reflexivity; apply negb_true_iff in H; rewrite H; reflexivity.
Qed.

Lemma quiet_points c t n p : (t < ntabs)%nat -> dget n (names t) = Some p -> forall h2 h1 w, ginv h1 w -> forallb (quiet c t) h2 = true ->
  pts (fst (run w h2)) c t n = pts w c t n ++ all_changes c t n p (vs_unpaired (vis_of c t h1)) w h2.
Proof.
  intros Ht Hn. induction h2 as [|e h2 IH]; intros h1 w G Q; [cbn; symmetry; apply app_nil_r|]. cbn [forallb] in Q. apply andb_true_iff in Q. destruct Q as [Qe Q].
  cbn [t_run]. pose proof (ginv_step h1 w e G) as G1. specialize (IH (h1 ++ [e]) (fst (step w e)) G1 Q). rewrite vis_snoc, (quiet_vis c t _ e Qe) in IH.
  destruct (step w e) as [w1 o1] eqn:S. cbn [fst] in *. destruct (run w1 h2) as [w2 o2]. cbn [fst] in *. rewrite IH. unfold all_changes.
  destruct e as [c' t'|c' t'|c' t'|c'|c'|q v ts].
  - pose proof (foreign_fx c t h1 w (EInit c' t') Ht G eq_refl) as X; rewrite S in X; cbn [fst snd] in X; destruct X as (_ & _ & _ & P & _ & R & K & _); rewrite P, R, K; reflexivity.
  - pose proof (foreign_fx c t h1 w (EShown c' t') Ht G Qe) as X; rewrite S in X; cbn [fst snd] in X; destruct X as (_ & _ & _ & P & _ & R & K & _); rewrite P, R, K; reflexivity.
  - pose proof (foreign_fx c t h1 w (EHidden c' t') Ht G Qe) as X; rewrite S in X; cbn [fst snd] in X; destruct X as (_ & _ & _ & P & _ & R & K & _); rewrite P, R, K; reflexivity.
  - pose proof (foreign_fx c t h1 w (EFrame c') Ht G Qe) as X; rewrite S in X; cbn [fst snd] in X; destruct X as (_ & _ & _ & P & _ & R & K & _); rewrite P, R, K; reflexivity.
  - pose proof (foreign_fx c t h1 w (EClose c') Ht G Qe) as X; rewrite S in X; cbn [fst snd] in X; destruct X as (_ & _ & _ & P & _ & R & K & _); rewrite P, R, K; reflexivity.
  - pose proof (set_fx c t h1 w q v ts Ht G) as X. rewrite S in X. cbn [fst] in X. destruct X as (_ & K & R & P & _). rewrite (P n p Hn), K, R, <- app_assoc. f_equal.
  cbn [changes]. rewrite (Nat.eqb_sym q p). destruct (Nat.eqb_spec p q) as [<-|Nq]; cbn [andb]; [|reflexivity].
  rewrite flat_map_app. destruct (tp_raw (w_prims w p) =? v)%Z; cbn [negb flat_map fst snd]; [reflexivity|]. rewrite app_nil_r. reflexivity.
Qed.
End Run.
