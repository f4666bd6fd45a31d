(** The standard handlers never keep two peers busy for ever. *)
From Coq Require Import QArith Qround.
From Verif Require Import Base BaseLemmas IfaceModel IfaceSpec IfaceProofs IfaceSys.
From Coq Require Import ZifyBool ZifyNat Lia.
Open Scope string_scope.
Open Scope list_scope.
Open Scope Z_scope.

Lemma In_dset {K V} {KD : EqDec K} (k k0 : K) (v v0 : V) d : In (k, v) (dset k0 v0 d) -> (k = k0 /\ v = v0) \/ In (k, v) d.
Proof.
  induction d as [|[k1 v1] d IH]; cbn.
  - intros [H|[]]. injection H as <- <-. auto.
  - destruct (eq_dec k0 k1) as [->|Hne]; cbn; intros [H|H]; auto.
    + injection H as <- <-. auto.
    + destruct (IH H); auto.
Qed.

Lemma fold_dset_In {V} (l : list (string * V)) : forall d k v,
  In (k, v) (fold_left (fun d kb => dset (fst kb) (snd kb) d) l d) -> In (k, v) l \/ In (k, v) d.
Proof.
  induction l as [|[k0 v0] l IH]; intros d k v H; cbn in *; [auto|].
  apply IH in H as [H|H]; [auto|]. apply In_dset in H as [[-> ->]|H]; auto.
Qed.
Lemma fold_ans_In (l : list (string * msg)) : forall d k j,
  In (k, j) (fold_left (fun d (kb : string * msg) => match snd kb with [] => d | _ => dset (fst kb) (JObj (snd kb)) d end) l d) ->
  (exists b, In (k, b) l /\ b <> [] /\ j = JObj b) \/ In (k, j) d.
Proof.
  induction l as [|[k0 v0] l IH]; intros d k j H; cbn [fold_left fst snd] in *; [auto|].
  apply IH in H as [(b & A & B)|H]; [left; exists b; split; [right; exact A|exact B]|].
  destruct v0 as [|p v0]; [auto|]. apply In_dset in H as [[-> ->]|H]; [|auto].
  left. exists (p :: v0). split; [left; reflexivity|]. split; [discriminate|reflexivity].
Qed.
Lemma answer_In subs ig k j : In (k, j) (answer subs ig) ->
  (k = k_ignored /\ ig <> []) \/ exists b, In (k, b) subs /\ b <> [] /\ j = JObj b.
Proof.
  unfold answer. intros H.
  assert (X : forall k j, In (k, j) (fold_left (fun d (kb : string * msg) => match snd kb with [] => d | _ => dset (fst kb) (JObj (snd kb)) d end)
                (fold_left (fun d (kb : string * msg) => dset (fst kb) (snd kb) d) subs []) []) ->
                exists b, In (k, b) subs /\ b <> [] /\ j = JObj b).
  { intros k' j' H'. apply fold_ans_In in H' as [(b & A & B)|[]]. apply fold_dset_In in A as [A|[]]. eauto. }
  destruct ig as [|i ig]; [right; apply X; exact H|].
  apply In_dset in H as [[-> _]|H]; [left; split; [reflexivity|discriminate]|right; apply X; exact H].
Qed.

Lemma polls_le m n : (forall j, In ("poll", j) m -> (poll_count j <= n)%nat) -> (polls m <= n)%nat.
Proof.
  induction m as [|[k j] m IH]; intros H; [cbn; lia|]. cbn [polls].
  assert (polls m <= n)%nat by (apply IH; intros; apply H; right; assumption).
  destruct (eq_dec k "poll") as [->|]; [specialize (H j (or_introl eq_refl))|]; lia.
Qed.
Lemma polls_ge m j : In ("poll", j) m -> (poll_count j <= polls m)%nat.
Proof.
  induction m as [|[k i] m IH]; cbn [In polls]; [intros []|]. intros [H|H].
  - injection H as -> ->. destruct (eq_dec "poll" "poll"); [lia|congruence].
  - specialize (IH H). lia.
Qed.
Lemma unknown_one m k j : In (k, j) m -> known k = false -> unknown m = 1%nat.
Proof.
  intros H K. unfold unknown. destruct (forallb _ m) eqn:E; [|reflexivity].
  rewrite forallb_forall in E. specialize (E _ H). cbn in E. congruence.
Qed.
Lemma unknown_zero m : (forall k j, In (k, j) m -> known k = true) -> unknown m = O.
Proof.
  intros H. unfold unknown. destruct (forallb _ m) eqn:E; [reflexivity|].
  exfalso. enough (forallb (fun kj : string * json => known (fst kj)) m = true) by congruence.
  apply forallb_forall. intros [k j] Hk. cbn. eapply H; eauto.
Qed.

Lemma polls_dset_log l d : polls (dset k_log l d) = polls d.
Proof.
  induction d as [|[k j] d IH]; [reflexivity|]. cbn [dset]. destruct (eq_dec k_log k) as [<-|Hne].
  - reflexivity.
  - cbn [polls]. rewrite IH. reflexivity.
Qed.
Lemma unknown_dset_log l d : unknown (dset k_log l d) = unknown d.
Proof.
  unfold unknown. assert (forallb (fun kj : string * json => known (fst kj)) (dset k_log l d) =
    forallb (fun kj : string * json => known (fst kj)) d) as ->; [|reflexivity].
  induction d as [|[k j] d IH]; [reflexivity|]. cbn [dset]. destruct (eq_dec k_log k) as [<-|Hne]; [reflexivity|].
  cbn [forallb fst]. rewrite IH. reflexivity.
Qed.

Definition mpot (s : option msg) : nat := match s with None => 1 | Some _ => 0 end.

(** What a standard handler's answer can be. *)
Definition sub_ok (k : string) (b : msg) (d : msg) (s s' : option msg) : Prop :=
  b <> [] ->
  (k = "loopback" /\ exists j, In ("loopback", j) d) \/
  (k = "meta" /\ (mpot s' + 1 <= mpot s)%nat) \/
  (k = "poll" /\ (poll_count (JObj b) + 1 <= polls d)%nat).

Lemma collect_std meta d : forall ts ig, collect (std_eval meta) d = Some (ts, ig) ->
  (ig <> [] -> unknown d = 1%nat) /\
  (forall k t ib, In (k, Some (t, ib)) ts -> k = t_key t /\
     exists k0 j, In (k0, j) d /\ std_eval meta k0 = Some t /\ t_prep t j = Some ib).
Proof.
  induction d as [|[k j] d IH]; cbn [collect]; intros ts ig H.
  - injection H as <- <-. split; [congruence|intros ? ? ? []].
  - assert (U : unknown d = 1%nat -> unknown ((k, j) :: d) = 1%nat).
    { unfold unknown. cbn [forallb]. destruct (known (fst (k, j))); cbn [andb]; auto. }
    destruct (std_eval meta k) as [t|] eqn:Ek.
    + destruct (t_prep t j) as [ib|] eqn:Ep; [|discriminate].
      destruct (collect (std_eval meta) d) as [[ts' ig']|]; [|discriminate]. injection H as <- <-.
      destruct (IH _ _ eq_refl) as [A B]. split; [auto|].
      intros k1 t1 ib1 [H|H].
      * injection H as <- <- <-. split; [reflexivity|]. exists k, j. cbn; auto.
      * destruct (B _ _ _ H) as (X & k0 & j0 & Y & Z). split; [exact X|]. exists k0, j0. cbn; auto.
    + destruct (collect (std_eval meta) d) as [[ts' ig']|]; [|discriminate]. destruct (IH _ _ eq_refl) as [A B].
      assert (B' : forall k1 t ib, In (k1, Some (t, ib)) ts' -> k1 = t_key t /\
                exists k0 j0, In (k0, j0) ((k, j) :: d) /\ std_eval meta k0 = Some t /\ t_prep t j0 = Some ib).
      { intros k1 t1 ib1 H1. destruct (B _ _ _ H1) as (X & k0 & j0 & Y & Z). split; [exact X|]. exists k0, j0. cbn; auto. }
      destruct (reserved k) eqn:Er; injection H as <- <-.
      * split; [auto|]. intros k1 t1 ib1 [H1|H1]; [discriminate|]. auto.
      * split; [|exact B']. intros _. eapply unknown_one; [left; reflexivity|].
        unfold known. rewrite Er. unfold std_eval in Ek.
        destruct (eq_dec k "loopback"); [discriminate|]. destruct (eq_dec k "meta"); [discriminate|].
        destruct (eq_dec k "poll"); [discriminate|]. reflexivity.
Qed.

Lemma gather_std meta d ts0 : (forall k t ib, In (k, Some (t, ib)) ts0 -> k = t_key t /\
     exists k0 j, In (k0, j) d /\ std_eval meta k0 = Some t /\ t_prep t j = Some ib) ->
  forall ts s s' o, incl ts ts0 -> gather s ts = (s', o) ->
  (mpot s' <= mpot s)%nat /\ forall l, o = Some l -> forall k b, In (k, b) l -> sub_ok k b d s s'.
Proof.
  intros H0. induction ts as [|[k [[t ib]|]] ts IH]; intros s s' o Hi H; cbn [gather] in H.
  - injection H as <- <-. split; [lia|]. intros l E; injection E as <-. intros ? ? [].
  - destruct (t_run t s ib) as [s1 out] eqn:Er. destruct (gather s1 ts) as [s2 o2] eqn:Eg. injection H as <- <-.
    destruct (IH s1 s2 o2 (fun x Hx => Hi x (or_intror Hx)) Eg) as [A B].
    destruct (H0 k t ib (Hi _ (or_introl eq_refl))) as (Ek & k0 & j & Hj & Et & Ep).
    assert (M : (mpot s1 <= mpot s)%nat /\ forall b, out = Some b -> sub_ok k b d s s1).
    { unfold std_eval in Et. destruct (eq_dec k0 "loopback") as [->|]; [|destruct (eq_dec k0 "meta") as [->|]; [|destruct (eq_dec k0 "poll") as [->|]; [|discriminate]]];
        injection Et as <-; cbn [t_run t_prep t_key h_loopback h_meta h_poll] in Er, Ep, Ek; subst k.
      - injection Er as <- <-. split; [lia|]. intros b _ _. left. split; [reflexivity|]. eauto.
      - destruct s as [m|].
        + injection Er as <- <-. split; [lia|]. intros b E; injection E as <-. intros E; destruct (E eq_refl).
        + injection Er as <- <-. cbn. split; [lia|]. intros b _ _. right. left. cbn. split; [reflexivity|lia].
      - injection Er as <- <-. split; [lia|]. intros b E Hb. right. right. split; [reflexivity|].
        destruct j as [| | | | | |obj]; try discriminate. injection Ep as ->. apply polls_ge in Hj.
        enough (poll_count (JObj b) + 1 <= poll_count (JObj ib))%nat by lia.
        unfold poll_count at 2. destruct (dget "loopback" ib) as [[|[]|v|q| | |]|] eqn:El; try discriminate;
          try (injection E as <-; destruct (Hb eq_refl)).
        + injection E as <-. cbn. lia.
        + destruct (v >? 0) eqn:Ev; injection E as <-; [|destruct (Hb eq_refl)]. cbn. lia.
        + destruct (Qle_bool q 0) eqn:Ev; injection E as <-; [destruct (Hb eq_refl)|].
          assert (0 < q)%Q. { apply Qnot_le_lt. intros L. apply Qle_bool_iff in L. congruence. }
          assert (Qceiling (q - 1) = Qceiling q - 1) as C.
          { unfold Qceiling. unfold Qminus. rewrite Qopp_plus. setoid_replace (- q + - - (1))%Q with (- q + inject_Z 1)%Q by (cbn; field_simplify; reflexivity).
            assert (forall x, Qfloor (x + inject_Z 1) = Qfloor x + 1) as F.
            { intros [num den]. unfold Qfloor, inject_Z. cbn. rewrite Pos.mul_1_r, Z.mul_1_r. replace (num + Z.pos den) with (num + 1 * Z.pos den) by lia. rewrite Z.div_add by lia. reflexivity. }
            rewrite F. lia. }
          assert (0 < Qceiling q). { rewrite Zlt_Qlt. eapply Qlt_le_trans; [exact H|apply Qle_ceiling]. }
          cbn [poll_count dget]. destruct (eq_dec "loopback" "loopback"); [|congruence]. rewrite C. lia. }
    destruct M as [M1 M2]. split; [lia|]. intros l E. destruct out as [b0|]; [|discriminate]. destruct o2 as [l2|]; [|discriminate].
    injection E as <-. intros k1 b1 [H|H] Hb.
    + injection H as <- <-. destruct (M2 b0 eq_refl Hb) as [X|[[X Y]|X]]; auto. right. left. split; [exact X|lia].
    + destruct (B l2 eq_refl k1 b1 H Hb) as [X|[[X Y]|X]]; auto. right. left. split; [exact X|lia].
  - destruct (gather s ts) as [s2 o2] eqn:Eg. injection H as <- <-.
    destruct (IH s s2 o2 (fun x Hx => Hi x (or_intror Hx)) Eg) as [A B]. split; [exact A|].
    intros l E. destruct o2 as [l2|]; [|discriminate]. injection E as <-. intros k1 b1 [H|H] Hb.
    + injection H as <- <-. destruct (Hb eq_refl).
    + apply (B l2 eq_refl k1 b1 H Hb).
Qed.

Lemma std_tame (meta : side -> msg) :
  tame (fun w => std_eval (meta w)) plain cost mpot.
Proof.
  split; [|split].
  - intros d [H _]. split; [exact H|unfold cost; lia].
  - intros d l [H1 H2]. split.
    + split; rewrite dget_dset_ne by discriminate; assumption.
    + unfold cost. rewrite polls_dset_log, unknown_dset_log. reflexivity.
  - intros w s st d s' st' out ok H. unfold process_json in H.
    destruct (collect (std_eval (meta w)) d) as [[ts ig]|] eqn:Ec.
    2:{ injection H as <- <- <- <-. split; [lia|]. intros _ m []. }
    destruct (collect_std _ _ _ _ Ec) as [C1 C2].
    destruct (gather s ts) as [s1 o] eqn:Eg. destruct (gather_std _ _ _ C2 _ _ _ _ (incl_refl _) Eg) as [G1 G2].
    destruct o as [subs|]; [|injection H as <- <- <- <-; split; [exact G1|intros _ m []]].
    specialize (G2 subs eq_refl).
    destruct (handle_reserved st d (answer subs ig)) as [st1 o] eqn:HR.
    assert (s' = s1) as ->.
    { destruct o as [[resp [|]]|]; [destruct resp; [|destruct (send_json _ _) as [? [|]]]| |]; injection H; auto. }
    split; [exact G1|]. intros [P1 P2] m Hm.
    assert (An : forall k j, In (k, j) (answer subs ig) -> known k = true /\ k <> k_id /\ k <> "loopback" /\
              (k = "poll" -> (poll_count j + 1 <= polls d)%nat) /\
              (1 <= polls d \/ unknown d = 1 \/ mpot s1 + 1 <= mpot s)%nat).
    { intros k j Hk. apply answer_In in Hk as [[-> Hi]|(b & Hb & Hne & ->)].
      - split; [reflexivity|]. split; [discriminate|]. split; [discriminate|]. split; [discriminate|]. auto.
      - destruct (G2 k b Hb Hne) as [(-> & j & Hj)|[(-> & L)|(-> & L)]].
        + exfalso. apply dget_None_notin in P2. apply P2. unfold dkeys. apply (in_map fst) in Hj. exact Hj.
        + split; [reflexivity|]. split; [discriminate|]. split; [discriminate|]. split; [discriminate|]. auto.
        + split; [reflexivity|]. split; [discriminate|]. split; [discriminate|]. split; [auto|]. left. lia. }
    assert (Kn : forall k, k = k_id \/ k = "loopback" -> dget k (answer subs ig) = None).
    { intros k Hk. apply dget_None_notin. unfold dkeys. intros Hin. apply in_map_iff in Hin as ([k' j] & <- & Hin).
      apply An in Hin. cbn in Hk. intuition. }
    apply reserved_cases in HR as [_ [(_ & _ & _ & _ & Ho)|(z & r & ? & ((j & Hj & _) & _) & _)]]; [|congruence].
    destruct Ho as [->|(resp & -> & Hr & _)]; [injection H as <- <- <-; destruct Hm|].
    specialize (Hr P1). subst resp. destruct (answer subs ig) as [|p an] eqn:Ean; [injection H as <- <- <-; destruct Hm|].
    assert (plain (p :: an) /\ (cost (p :: an) + mpot s1 + 1 <= cost d + mpot s)%nat) as [R1 R2].
    { split; [split; apply Kn; auto|].
      assert (polls (p :: an) <= polls d - 1)%nat.
      { apply polls_le. intros j Hj. apply An in Hj as (_ & _ & _ & X & _). specialize (X eq_refl). lia. }
      assert (unknown (p :: an) = O) by (apply unknown_zero; intros k j Hk; apply An in Hk; tauto).
      destruct p as [k j]. destruct (An k j (or_introl eq_refl)) as (_ & _ & _ & _ & X).
      unfold cost in *. lia. }
    unfold send_json in H. destruct (i_logs st1) as [|x xs].
    + injection H as <- <- <-. destruct Hm as [<-|[]]. auto.
    + remember (dset k_log (JArr (x :: xs)) (p :: an)) as dd eqn:Edd.
      destruct (dmem k_log (p :: an)); injection H as <- <- <-; [destruct Hm|]. destruct Hm as [<-|[]]. subst dd.
      destruct R1 as [R3 R4]. split; [split; rewrite dget_dset_ne by discriminate; assumption|].
      unfold cost in *. rewrite polls_dset_log, unknown_dset_log. exact R2.
Qed.

Lemma any_tame {S} (eval : side -> string -> option (target S)) : tame eval (fun _ => False) (fun _ => 1%nat) (fun _ => O).
Proof. split; [intros ? []|]. split; [intros ? ? []|]. intros. split; [lia|]. intros []. Qed.
