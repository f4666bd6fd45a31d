(** C62: the connections of the web interface are counted, and one of them updates
    the metrics. *)
From Verif Require Import Base BaseLemmas PrimModel UiCountModel UiCountSpec TaskProofs.
From Coq Require Import ZifyBool ZifyNat Lia.
Open Scope list_scope.
Open Scope Z_scope.

Definition mem (c : nat) (l : list nat) : bool := existsb (Nat.eqb c) l.
Lemma mem_In c l : mem c l = true <-> In c l.
Proof.
  unfold mem. rewrite existsb_exists. split; [intros (x & H & E); apply Nat.eqb_eq in E; subst; exact H|intros H; exists c; split; [exact H|apply Nat.eqb_refl]].
Qed.
Lemma mem_app c a b : mem c (a ++ b) = mem c a || mem c b.
Proof. apply existsb_app. Qed.
Lemma mem_drop c d l : mem d (filter (fun x => negb (Nat.eqb x c)) l) = mem d l && negb (Nat.eqb d c).
Proof.
  apply eq_true_iff_eq. rewrite andb_true_iff, !mem_In, filter_In. reflexivity.
Qed.
Lemma drop_notin c l : mem c l = false -> filter (fun x => negb (Nat.eqb x c)) l = l.
Proof.
  induction l as [|x l IH]; intros H; [reflexivity|]. cbn in H. apply orb_false_iff in H. destruct H as [H1 H2]. cbn. rewrite Nat.eqb_sym, H1. cbn. f_equal. apply IH, H2.
Qed.
Lemma drop_length c l : NoDup l -> mem c l = true -> List.length l = S (List.length (filter (fun x => negb (Nat.eqb x c)) l)).
Proof.
  induction l as [|x l IH]; intros N H; [discriminate|]. inversion N as [|? ? A B]; subst. cbn in H. cbn [filter]. destruct (Nat.eqb_spec x c) as [->|E]; cbn [negb].
  - rewrite drop_notin; [reflexivity|]. destruct (mem c l) eqn:M; [apply mem_In in M; contradiction|reflexivity].
  - destruct (Nat.eqb_spec c x); [congruence|]. cbn [orb] in H. cbn [List.length]. f_equal. apply IH; assumption.
Qed.

Record cinv (p : party) (s : ustate) : Prop := mkCinv {
  ci_ready : u_ready s = pa_ready p;
  ci_open : forall c, u_open s c = negb (mem c (pa_gone p));
  ci_reg : forall c, u_reg s c = mem c (u_cbs s);
  ci_live : forall c, mem c (pa_live p) = u_reg s c && u_open s c;
  ci_nodup : NoDup (pa_live p);
  ci_raw : u_raw s = zlen (pa_live p) mod 256;
  ci_fresh : forall c, u_reg s c = false -> u_poll s c = false
}.

Lemma add_int_other a s c : mem c (u_cbs s) = false -> u_poll (add_int a s) c = u_poll s c.
Proof. intros H. cbn. unfold mem in H. rewrite H, andb_false_r. reflexivity. Qed.
Lemma add_int_poll a s c : mem c (u_cbs s) = true -> a <> 0 -> u_poll (add_int a s) c = u_poll s c || (u_raw s + a =? 1).
Proof. intros H Ha. cbn. unfold mem in H. rewrite H. destruct (Z.eqb_spec (u_raw s) (u_raw s + a)); [lia|reflexivity]. Qed.

(** What joining does. *)
Lemma get_ui_new p s c : cinv p s -> pa_ready p = true -> u_reg s c = false -> u_open s c = true ->
  let s' := get_ui c s in cinv (mkParty true (pa_live p ++ [c]) (pa_gone p)) s' /\
  (forall d, u_poll s' d = if mem d (u_cbs s) || Nat.eqb d c then u_poll s d || (u_raw s + 1 =? 1) else u_poll s d) /\ u_reg s' c = true.
Proof.
  intros [a b d e f g k] R N O. unfold get_ui. rewrite N, a, R. cbn zeta. set (s0 := mkU true (u_raw s) (u_cbs s ++ [c]) (u_reg s) (u_open s) (u_poll s)). set (s1 := add_int 1 s0).
  assert (Nl : mem c (pa_live p) = false) by (rewrite e, N; reflexivity).
  split; [|split].
  - constructor; cbn [u_ready pa_ready u_open pa_gone u_reg u_cbs pa_live u_raw u_poll].
    + cbn. reflexivity.
    + exact b.
    + intros x. change (u_cbs s1) with (u_cbs s ++ [c]). rewrite mem_app. cbn. rewrite orb_false_r. change (u_reg s1 x) with (u_reg s x). rewrite d. destruct (Nat.eqb x c); [rewrite orb_true_r|rewrite orb_false_r]; reflexivity.
    + intros x. rewrite mem_app, e. cbn. rewrite orb_false_r. destruct (Nat.eqb_spec x c) as [->|]; [rewrite N, O; reflexivity|]. rewrite orb_false_r. reflexivity.
    + apply NoDup_app; [exact f|repeat constructor; cbn; tauto|]. intros x H1 [<-|[]]. apply mem_In in H1. congruence.
    + change (u_raw s1) with (k_store U8 (u_raw s + 1)). rewrite store_u8, g, zlen_app. change (zlen [c]) with 1. rewrite Zplus_mod_idemp_l. reflexivity.
    + intros x. change (u_reg s1 x) with (u_reg s x). destruct (Nat.eqb_spec x c) as [->|E]; [discriminate|]. intros H. unfold s1. rewrite add_int_other; [apply k, H|].
      cbn [u_cbs s0]. rewrite mem_app, <- d, H. cbn. destruct (Nat.eqb_spec x c); [contradiction|reflexivity].
  - intros x. cbn [u_poll]. destruct (mem x (u_cbs s) || Nat.eqb x c) eqn:M.
    + unfold s1. rewrite add_int_poll; [reflexivity| |lia]. cbn [u_cbs s0]. rewrite mem_app. cbn. rewrite orb_false_r. exact M.
    + unfold s1. rewrite add_int_other; [reflexivity|]. cbn [u_cbs s0]. rewrite mem_app. cbn. rewrite orb_false_r. exact M.
  - cbn [u_reg]. rewrite Nat.eqb_refl. reflexivity.
Qed.

(** What closing does to one that takes part. *)
Definition leave (c : nat) (s1 : ustate) : ustate :=
  let s2 := add_int (-1) (mkU (u_ready s1) (u_raw s1) (u_cbs s1) (u_reg s1) (u_open s1) (fun x => if Nat.eqb x c then false else u_poll s1 x)) in
  mkU (u_ready s2) (u_raw s2) (u_cbs s2) (u_reg s2) (fun x => if Nat.eqb x c then false else u_open s2 x) (u_poll s2).

Lemma leave_fx p s c : cinv p s -> mem c (pa_live p) = true ->
  let s' := leave c s in cinv (mkParty (pa_ready p) (filter (fun x => negb (Nat.eqb x c)) (pa_live p)) (c :: pa_gone p)) s' /\
  (forall d, d <> c -> u_poll s' d = if mem d (u_cbs s) then u_poll s d || (u_raw s - 1 =? 1) else u_poll s d).
Proof.
  intros [a b d e f g k] M. unfold leave. set (s0 := mkU (u_ready s) (u_raw s) (u_cbs s) (u_reg s) (u_open s) (fun x => if Nat.eqb x c then false else u_poll s x)). set (s2 := add_int (-1) s0). cbn zeta. split.
  - constructor; cbn [u_ready pa_ready u_open pa_gone u_reg u_cbs pa_live u_raw u_poll].
    + exact a.
    + intros x. change (u_open s2 x) with (u_open s x). cbn. rewrite b. destruct (Nat.eqb x c); reflexivity.
    + exact d.
    + intros x. rewrite mem_drop, e. change (u_open s2 x) with (u_open s x). change (u_reg s2 x) with (u_reg s x). destruct (Nat.eqb x c); cbn; [rewrite !andb_false_r; reflexivity|rewrite andb_true_r; reflexivity].
    + apply NoDup_filter, f.
    + change (u_raw s2) with (k_store U8 (u_raw s + -1)). rewrite store_u8, g. pose proof (drop_length c (pa_live p) f M) as L. unfold zlen. rewrite L, Zplus_mod_idemp_l. f_equal. lia.
    + intros x H. change (u_reg s2 x) with (u_reg s x) in H. unfold s2. rewrite add_int_other by (cbn [u_cbs s0]; rewrite <- d; exact H). cbn [u_poll s0]. destruct (Nat.eqb x c); [reflexivity|apply k, H].
  - intros x Hx. cbn [u_poll]. destruct (mem x (u_cbs s)) eqn:E.
    + unfold s2. rewrite add_int_poll; [|exact E|lia]. cbn [u_poll u_raw s0]. destruct (Nat.eqb_spec x c); [contradiction|]. replace (u_raw s + -1) with (u_raw s - 1) by lia. reflexivity.
    + unfold s2. rewrite add_int_other by exact E. cbn [u_poll s0]. destruct (Nat.eqb_spec x c); [contradiction|reflexivity].
Qed.

Lemma close_eq c s : u_close c s = let s1 := get_ui c s in if u_reg s1 c then leave c s1 else
  mkU (u_ready s1) (u_raw s1) (u_cbs s1) (u_reg s1) (fun x => if Nat.eqb x c then false else u_open s1 x) (u_poll s1).
Proof. unfold u_close, leave. cbn zeta. destruct (u_reg (get_ui c s) c); reflexivity. Qed.

Lemma party_eta p : mkParty (pa_ready p) (pa_live p) (pa_gone p) = p.
Proof. destruct p; reflexivity. Qed.

(** The polling part: provided at most 255 take part. *)
Record pinv (p : party) (s : ustate) : Prop := mkPinv {
  pi_one : forall x y, mem x (pa_live p) = true -> mem y (pa_live p) = true -> u_poll s x = true -> u_poll s y = true -> x = y;
  pi_sole : List.length (pa_live p) = 1%nat -> forall x, mem x (pa_live p) = true -> u_poll s x = true
}.

Lemma small_raw p s : cinv p s -> (List.length (pa_live p) <= 255)%nat -> u_raw s = zlen (pa_live p).
Proof. intros C H. rewrite (ci_raw _ _ C). apply Z.mod_small. unfold zlen. lia. Qed.
Lemma len1 (l : list nat) x y : List.length l = 1%nat -> mem x l = true -> mem y l = true -> x = y.
Proof. intros L Hx Hy. apply mem_In in Hx, Hy. destruct l as [|a [|b l]]; try discriminate. destruct Hx as [<-|[]], Hy as [<-|[]]. reflexivity. Qed.
Lemma len0 (l : list nat) x : List.length l = 0%nat -> mem x l = false.
Proof. intros L. destruct l; [reflexivity|discriminate]. Qed.

Lemma u_inv_step p s e : cinv p s -> let p' := party_step p e in let s' := u_step s e in
  cinv p' s' /\ ((List.length (pa_live p) <= 255)%nat -> (List.length (pa_live p') <= 255)%nat -> pinv p s -> pinv p' s').
Proof.
  intros C. destruct e as [|c|c]; cbn [party_step u_step].
  - destruct C as [a b d e f g k]. split; [constructor; assumption || reflexivity|]. intros _ _ [A B]. constructor; assumption.
  - change (existsb (Nat.eqb c) (pa_live p ++ pa_gone p)) with (mem c (pa_live p ++ pa_gone p)). rewrite mem_app, (ci_live _ _ C).
    assert (Og : mem c (pa_gone p) = negb (u_open s c)) by (rewrite (ci_open _ _ C), negb_involutive; reflexivity). rewrite Og.
    destruct (u_open s c) eqn:O; cbn [negb orb]; rewrite ?orb_true_r, ?orb_false_r, ?andb_true_r; cbn [negb]; [|rewrite andb_false_r; split; [exact C|auto]].
    destruct (u_reg s c) eqn:Rg; cbn [negb].
    + rewrite andb_false_r. unfold get_ui. rewrite Rg. split; [exact C|auto].
    + destruct (pa_ready p) eqn:Rd; cbn [andb]; [|unfold get_ui; rewrite Rg, (ci_ready _ _ C), Rd; split; [exact C|auto]].
      destruct (get_ui_new p s c C Rd Rg O) as (C1 & P1 & _). split; [exact C1|]. intros B0 B1 [A B]. cbn [pa_live] in B1. rewrite app_length in B1. cbn in B1.
      pose proof (small_raw p s C B0) as Rw. assert (Fc : u_poll s c = false) by (apply (ci_fresh _ _ C), Rg).
      assert (Cb : forall x, mem x (pa_live p) = true -> mem x (u_cbs s) = true) by (intros x H; rewrite (ci_live _ _ C) in H; apply andb_true_iff in H; rewrite <- (ci_reg _ _ C); apply H).
      constructor; cbn [pa_live].
      * intros x y. rewrite !mem_app, !P1. cbn. rewrite !orb_false_r. intros Hx Hy. unfold zlen in Rw.
        destruct (List.length (pa_live p)) as [|n] eqn:L.
        -- rewrite (len0 _ x L) in Hx. rewrite (len0 _ y L) in Hy. cbn in Hx, Hy. apply Nat.eqb_eq in Hx, Hy. congruence.
        -- assert (E1 : (u_raw s + 1 =? 1) = false) by (clear - Rw; lia). rewrite E1, !orb_false_r.
           replace (if mem x (u_cbs s) || Nat.eqb x c then u_poll s x else u_poll s x) with (u_poll s x) by (case (mem x (u_cbs s) || Nat.eqb x c); reflexivity).
           replace (if mem y (u_cbs s) || Nat.eqb y c then u_poll s y else u_poll s y) with (u_poll s y) by (case (mem y (u_cbs s) || Nat.eqb y c); reflexivity).
           intros Px Py. destruct (Nat.eqb_spec x c) as [->|]; [congruence|]. destruct (Nat.eqb_spec y c) as [->|]; [congruence|]. rewrite orb_false_r in *. apply A; assumption.
      * rewrite app_length. cbn. intros L x. assert (L0 : List.length (pa_live p) = 0%nat) by lia. rewrite mem_app, (len0 _ x L0). cbn. rewrite orb_false_r. intros E. rewrite P1, E, orb_true_r.
        unfold zlen in Rw. rewrite L0 in Rw. rewrite Rw. apply orb_true_r.
  - assert (Og : mem c (pa_gone p) = negb (u_open s c)) by (rewrite (ci_open _ _ C), negb_involutive; reflexivity).
    destruct (u_open s c) eqn:O.
    + rewrite close_eq. cbn zeta. destruct (u_reg s c) eqn:Rg.
      * assert (G : get_ui c s = s) by (unfold get_ui; rewrite Rg; reflexivity). rewrite G, Rg.
        assert (M : mem c (pa_live p) = true) by (rewrite (ci_live _ _ C), Rg, O; reflexivity).
        destruct (leave_fx p s c C M) as (C1 & P1). split; [exact C1|]. intros B0 B1 [A B]. pose proof (small_raw p s C B0) as Rw. pose proof (drop_length c _ (ci_nodup _ _ C) M) as L.
        assert (Cb : forall x, mem x (pa_live p) = true -> mem x (u_cbs s) = true) by (intros x H; rewrite (ci_live _ _ C) in H; apply andb_true_iff in H; rewrite <- (ci_reg _ _ C); apply H).
        set (l' := filter (fun x => negb (Nat.eqb x c)) (pa_live p)) in *. unfold zlen in Rw.
        constructor; cbn [pa_live]; fold l'.
        -- intros x y Hx Hy. pose proof Hx as Hx'. pose proof Hy as Hy'. unfold l' in Hx, Hy. rewrite mem_drop in Hx, Hy. apply andb_true_iff in Hx, Hy. destruct Hx as [Hx Nx], Hy as [Hy Ny].
           apply negb_true_iff, Nat.eqb_neq in Nx, Ny. rewrite (P1 x Nx), (P1 y Ny), (Cb x Hx), (Cb y Hy).
           destruct (Nat.eq_dec (List.length l') 1) as [L1|L1]; [intros _ _; apply (len1 l'); assumption|]. assert (E1 : (u_raw s - 1 =? 1) = false) by (clear - Rw L L1; lia). rewrite E1, !orb_false_r. apply A; assumption.
        -- intros L1 x Hx. unfold l' in Hx. rewrite mem_drop in Hx. apply andb_true_iff in Hx. destruct Hx as [Hx Nx]. apply negb_true_iff, Nat.eqb_neq in Nx. rewrite (P1 x Nx), (Cb x Hx).
           assert (E1 : (u_raw s - 1 =? 1) = true) by lia. rewrite E1. apply orb_true_r.
      * assert (M : mem c (pa_live p) = false) by (rewrite (ci_live _ _ C), Rg; reflexivity). rewrite (drop_notin c _ M).
        destruct (pa_ready p) eqn:Rd.
        -- destruct (get_ui_new p s c C Rd Rg O) as (C1 & P1 & R1). set (s1 := get_ui c s) in *. rewrite R1. set (p1 := mkParty true (pa_live p ++ [c]) (pa_gone p)) in *.
           assert (M1 : mem c (pa_live p1) = true) by (cbn [pa_live p1]; rewrite mem_app; cbn; rewrite Nat.eqb_refl; apply orb_true_r).
           destruct (leave_fx p1 s1 c C1 M1) as (C2 & P2). cbn [pa_live pa_ready pa_gone p1] in C2. rewrite filter_app in C2. cbn [filter] in C2. rewrite Nat.eqb_refl in C2. cbn [negb] in C2. rewrite app_nil_r, (drop_notin c _ M) in C2.
           split; [exact C2|]. intros B0 _ [A B]. pose proof (small_raw p s C B0) as Rw. unfold zlen in Rw.
           assert (Rw1 : u_raw s1 = (Z.of_nat (List.length (pa_live p)) + 1) mod 256) by (rewrite (ci_raw _ _ C1); cbn [pa_live p1]; rewrite zlen_app; reflexivity).
           assert (Pk : forall x, mem x (pa_live p) = true -> (u_poll s x = true -> u_poll (leave c s1) x = true) /\ (List.length (pa_live p) <> 1%nat -> u_poll (leave c s1) x = u_poll s x)).
           { intros x Hx. assert (Nx : x <> c) by (intros ->; congruence). rewrite (P2 x Nx), (P1 x). assert (Cx : mem x (u_cbs s) = true) by (rewrite <- (ci_reg _ _ C); rewrite (ci_live _ _ C) in Hx; apply andb_true_iff in Hx; apply Hx).
             rewrite Cx. cbn [orb]. assert (Lp : (List.length (pa_live p) <> 0)%nat) by (intros L0; rewrite (len0 _ x L0) in Hx; discriminate).
             assert (E0 : (u_raw s + 1 =? 1) = false) by (clear - Rw Lp; lia). rewrite E0, orb_false_r. split.
             - intros ->. destruct (mem x (u_cbs s1)); reflexivity.
             - intros L1. destruct (mem x (u_cbs s1)); [|reflexivity]. assert (E1 : (u_raw s1 - 1 =? 1) = false).
               { rewrite Rw1. destruct (Nat.eq_dec (List.length (pa_live p)) 255) as [Q|Q]; [rewrite Q; reflexivity|]. rewrite Z.mod_small by (clear - Q B0; lia). clear - L1. lia. }
               rewrite E1. apply orb_false_r. }
           constructor; cbn [pa_live].
           ++ intros x y Hx Hy. destruct (Nat.eq_dec (List.length (pa_live p)) 1) as [L1|L1]; [intros _ _; apply (len1 (pa_live p)); assumption|].
              rewrite (proj2 (Pk x Hx) L1), (proj2 (Pk y Hy) L1). apply A; assumption.
           ++ intros L1 x Hx. apply (proj1 (Pk x Hx)). apply B; assumption.
        -- assert (G : get_ui c s = s) by (unfold get_ui; rewrite Rg, (ci_ready _ _ C), Rd; reflexivity). rewrite G, Rg. split; [|intros _ _ [A B]; constructor; assumption].
           destruct C as [a b d e f g k]. constructor; cbn [u_ready pa_ready u_open pa_gone u_reg u_cbs pa_live u_raw u_poll]; try assumption.
           ++ congruence.
           ++ intros x. cbn. rewrite b. destruct (Nat.eqb x c); reflexivity.
           ++ intros x. destruct (Nat.eqb_spec x c) as [->|]; [rewrite M, andb_false_r; reflexivity|apply e].
    + assert (M : mem c (pa_live p) = false) by (rewrite (ci_live _ _ C), O, andb_false_r; reflexivity). rewrite (drop_notin c _ M). split; [|intros _ _ [A B]; constructor; assumption].
      destruct C as [a b d e f g k]. constructor; cbn [pa_ready pa_live pa_gone]; try assumption. intros x. cbn. destruct (Nat.eqb_spec x c) as [->|]; [exact O|apply b].
Qed.

Lemma live_snoc h e : fold_left party_step (h ++ [e]) (mkParty false [] []) = party_step (fold_left party_step h (mkParty false [] [])) e.
Proof. rewrite fold_left_app. reflexivity. Qed.
Lemma u_run_snoc h e : u_run (h ++ [e]) = u_step (u_run h) e.
Proof. unfold u_run. rewrite fold_left_app. reflexivity. Qed.

Lemma cinv_run h : cinv (fold_left party_step h (mkParty false [] [])) (u_run h).
Proof.
  induction h as [|e h IH] using rev_ind; [constructor; try reflexivity; constructor|]. rewrite live_snoc, u_run_snoc. apply u_inv_step, IH.
Qed.
Lemma pinv_run h : never_more_than 255 h -> pinv (fold_left party_step h (mkParty false [] [])) (u_run h).
Proof.
  induction h as [|e h IH] using rev_ind; intros N; [constructor; discriminate|].
  assert (N0 : never_more_than 255 h) by (intros h1 h2 E; apply (N h1 (h2 ++ [e])); rewrite E, <- app_assoc; reflexivity).
  rewrite live_snoc, u_run_snoc. apply u_inv_step; [apply cinv_run|apply (N0 h []); rewrite app_nil_r; reflexivity| |apply IH, N0].
  rewrite <- live_snoc. apply (N (h ++ [e]) []). rewrite app_nil_r. reflexivity.
Qed.

(** C62: the channel holds the number of connections that take part, in a byte. *)
Theorem C62_count : forall h, u_raw (u_run h) = zlen (live h) mod 256.
Proof. intros h. apply (ci_raw _ _ (cinv_run h)). Qed.

(** C62, for at most 255 connections at a time: at most one updates the metrics, and
    a connection that is alone does. *)
Theorem C62_at_most_one_partial : forall h, never_more_than 255 h ->
  (List.length (pollers h) <= 1)%nat /\ (List.length (live h) = 1%nat -> pollers h = live h).
Proof.
  intros h N. destruct (pinv_run h N) as [A B]. pose proof (ci_nodup _ _ (cinv_run h)) as Nd. fold (live h) in A, B, Nd. unfold pollers. split.
  - assert (H : NoDup (filter (u_poll (u_run h)) (live h))) by (apply NoDup_filter, Nd). assert (Q : forall x y, In x (filter (u_poll (u_run h)) (live h)) -> In y (filter (u_poll (u_run h)) (live h)) -> x = y).
    { intros x y Hx Hy. apply filter_In in Hx, Hy. apply A; [apply mem_In, Hx|apply mem_In, Hy|apply Hx|apply Hy]. }
    destruct (filter _ _) as [|x [|y l]]; cbn; try lia. exfalso. inversion H as [|? ? H1 _]; subst. apply H1. left. apply Q; cbn; auto.
  - intros L. destruct (live h) as [|x [|y l]]; try discriminate. cbn. rewrite (B L x); [reflexivity|]. cbn. rewrite Nat.eqb_refl. reflexivity.
Qed.

Lemma add_int_keeps a s c : u_poll s c = true -> u_poll (add_int a s) c = true.
Proof. intros H. cbn. rewrite H. destruct (_ && _); reflexivity. Qed.
Lemma get_ui_keeps d s c : u_poll s c = true -> u_poll (get_ui d s) c = true.
Proof. intros H. unfold get_ui. destruct (u_reg s d); [exact H|]. destruct (u_ready s); [|exact H]. apply add_int_keeps. exact H. Qed.

(** C62: the connection that updates the metrics goes on doing so, whatever the
    others do, until it is closed itself. *)
Theorem C62_keeps : forall h e c, In c (pollers h) -> e <> UClose c -> In c (pollers (h ++ [e])).
Proof.
  intros h e c H Ne. unfold pollers in *. apply filter_In in H. destruct H as [L P]. apply filter_In. unfold live in *. rewrite live_snoc, u_run_snoc.
  set (p := fold_left party_step h (mkParty false [] [])) in *. set (s := u_run h) in *. clearbody p s. split.
  - destruct e as [|d|d]; cbn [party_step]; [exact L| |].
    + destruct (_ && _); [|exact L]. cbn [pa_live]. apply in_or_app. left. exact L.
    + cbn [pa_live]. apply filter_In. split; [exact L|]. destruct (Nat.eqb_spec c d) as [->|]; [congruence|reflexivity].
  - destruct e as [|d|d]; cbn [u_step]; [exact P| |].
    + destruct (u_open s d); [apply get_ui_keeps, P|exact P].
    + destruct (u_open s d); [|exact P]. unfold u_close. cbn zeta. cbn [u_poll]. pose proof (get_ui_keeps d s c P) as Q. set (s1 := get_ui d s) in *. destruct (u_reg s1 d); [|exact Q].
      apply add_int_keeps. cbn [u_poll]. destruct (Nat.eqb_spec c d) as [->|]; [congruence|exact Q].
Qed.

(** C62.  Refuted: with three connections, once the first has gone nobody updates the
    metrics. *)
Theorem C62_nobody_refuted : let h := [UReady; UFrame 0; UFrame 1; UFrame 2; UClose 0] in
  live h = [1; 2]%nat /\ pollers h = [].
Proof. split; reflexivity. Qed.

(** Any number of connections joining one after the other. *)
Definition joined (n : nat) : list uev := UReady :: map UFrame (seq 0 n).
Lemma joined_S n : joined (S n) = joined n ++ [UFrame n].
Proof. unfold joined. rewrite seq_S, map_app. reflexivity. Qed.
Lemma seq_mem c n : mem c (seq 0 n) = Nat.ltb c n.
Proof. apply eq_true_iff_eq. rewrite mem_In, in_seq, Nat.ltb_lt. lia. Qed.
Lemma party_joined n : fold_left party_step (joined n) (mkParty false [] []) = mkParty true (seq 0 n) [].
Proof.
  induction n as [|n IH]; [reflexivity|]. rewrite joined_S, live_snoc, IH. cbn [party_step pa_ready pa_live pa_gone]. rewrite app_nil_r.
  change (existsb (Nat.eqb n) (seq 0 n)) with (mem n (seq 0 n)). rewrite seq_mem, Nat.ltb_irrefl. cbn [andb negb]. rewrite seq_S. reflexivity.
Qed.
Lemma live_joined n : live (joined n) = seq 0 n.
Proof. unfold live. rewrite party_joined. reflexivity. Qed.

(** C62.  Refuted: with 257 connections (or 513, ...) every one of them does. *)
Theorem C62_everybody_refuted : forall n, Z.of_nat n mod 256 = 0 ->
  live (joined (S n)) = seq 0 (S n) /\ pollers (joined (S n)) = seq 0 (S n).
Proof.
  intros n Hn. split; [apply live_joined|]. unfold pollers. rewrite live_joined. rewrite (joined_S n), u_run_snoc.
  pose proof (cinv_run (joined n)) as C. rewrite party_joined in C. set (s := u_run (joined n)) in *. clearbody s.
  assert (O : u_open s n = true) by (rewrite (ci_open _ _ C); reflexivity).
  assert (L : forall c, u_reg s c = Nat.ltb c n). { intros c. pose proof (ci_live _ _ C c) as H. cbn [pa_live] in H. rewrite seq_mem, (ci_open _ _ C) in H. cbn in H. rewrite andb_true_r in H. symmetry. exact H. }
  cbn [u_step]. rewrite O. destruct (get_ui_new _ s n C eq_refl) as (_ & P & _); [rewrite L; apply Nat.ltb_irrefl|exact O|].
  assert (R : u_raw s = 0) by (rewrite (ci_raw _ _ C); cbn [pa_live]; unfold zlen; rewrite seq_length; exact Hn).
  assert (F : forall l, (forall c, In c l -> (c < S n)%nat) -> filter (u_poll (get_ui n s)) l = l).
  { induction l as [|c l IH]; intros H; [reflexivity|]. cbn [filter]. rewrite P, <- (ci_reg _ _ C), L, R.
    assert (X : Nat.ltb c n || Nat.eqb c n = true) by (specialize (H c (or_introl eq_refl)); destruct (Nat.ltb_spec c n), (Nat.eqb_spec c n); try reflexivity; lia).
    rewrite X. cbn [Z.add Z.eqb]. rewrite orb_true_r. f_equal. apply IH. intros d Hd. apply H. right. exact Hd. }
  apply F. intros c H. apply in_seq in H. lia.
Qed.
Example wraps_at_256 : Z.of_nat 256 mod 256 = 0.
Proof. reflexivity. Qed.

(** The hypotheses are met, and the work is handed over. *)
Example handed_over : pollers [UFrame 5; UReady; UFrame 0; UFrame 1; UClose 2; UClose 0] = [1%nat].
Proof. reflexivity. Qed.
Example handed_over_bound : never_more_than 255 [UFrame 5; UReady; UFrame 0; UFrame 1; UClose 2; UClose 0].
Proof.
  intros h1 h2 E. do 6 (destruct h1 as [|? h1]; [cbn; lia|injection E as <- E]). destruct h1; [cbn; lia|discriminate].
Qed.

Print Assumptions C62_count.
Print Assumptions C62_at_most_one_partial.
Print Assumptions C62_keeps.
Print Assumptions C62_nobody_refuted.
Print Assumptions C62_everybody_refuted.
