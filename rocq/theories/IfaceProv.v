(** Where the answer to a request comes from when two peers are connected. *)
From Verif Require Import Base BaseLemmas IfaceModel IfaceSpec IfaceProofs IfaceSys IfaceStd.
From Coq Require Import ZifyBool ZifyNat Lia.
Open Scope string_scope.
Open Scope list_scope.
Open Scope Z_scope.

Lemma effect_resp st st' o out z m : effect st st' o out -> dget z (i_resp st') = Some m ->
  dget z (i_resp st) = Some m \/ exists d r, o = ORecv d /\ matches st d z r /\ content_of m d.
Proof.
  intros E H. inversion E; subst; try congruence.
  - left; congruence.
  - left; congruence.
  - left; congruence.
  - match goal with H1 : i_resp st' = dset ?a ?b _ |- _ => rewrite H1, dget_dset in H; destruct (eq_dec z a) as [->|] end.
    + injection H as <-. right. eauto.
    + auto.
  - match goal with H1 : i_resp st' = ddel ?a _ |- _ => rewrite H1, dget_ddel in H; destruct (eq_dec z a) as [->|] end;
      [discriminate|auto].
  - left; congruence.
  - left; congruence.
Qed.

Lemma effect_done st st' o out r q m : effect st st' o out ->
  nth_error (i_reqs st') r = Some q -> rq_st q = Done m ->
  nth_error (i_reqs st) r = Some q \/ dget (rq_id q) (i_resp st) = Some m.
Proof.
  intros E H D. inversion E; subst.
  - left; congruence.
  - match goal with H1 : i_reqs st' = _ ++ _ |- _ => rewrite H1 in H end.
    destruct (Nat.lt_ge_cases r (List.length (i_reqs st))) as [L|L].
    + rewrite nth_error_app1 in H by exact L. auto.
    + rewrite nth_error_app2 in H by exact L. destruct (r - List.length (i_reqs st))%nat as [|k]; cbn in H; [|destruct k; discriminate].
      injection H as <-. cbn in D. match goal with H1 : _ \/ _ |- _ => destruct H1 as [[-> _]|[-> _]] end; discriminate.
  - left; congruence.
  - match goal with H1 : i_reqs st' = i_reqs (set_event _ ?a) |- _ => rename a into r0; rewrite H1 in H end.
    unfold set_event in H. destruct (nth_error (i_reqs st) r0) as [[qi [| | | |]]|] eqn:E0; auto.
    rewrite (status_reqs _ _ _ _ E0) in H. cbn [i_reqs rq_id] in H. destruct (Nat.eq_dec r0 r) as [->|Hne].
    + rewrite (set_nth_eq _ _ _ _ E0) in H. injection H as <-. discriminate.
    + rewrite set_nth_ne in H by exact Hne. auto.
  - match goal with H1 : i_reqs st' = set_nth _ ?a _, H2 : nth_error _ ?a = _ |- _ => rename a into r0; rewrite H1 in H; rename H2 into E0 end.
    destruct (Nat.eq_dec r0 r) as [->|Hne].
    + rewrite (set_nth_eq _ _ _ _ E0) in H. injection H as <-. cbn in D |- *. injection D as <-. auto.
    + rewrite set_nth_ne in H by exact Hne. auto.
  - match goal with H1 : i_reqs st' = set_nth _ ?a _, H2 : nth_error _ ?a = _ |- _ => rename a into r0; rewrite H1 in H; rename H2 into E0 end.
    destruct (Nat.eq_dec r0 r) as [->|Hne].
    + rewrite (set_nth_eq _ _ _ _ E0) in H. injection H as <-. discriminate.
    + rewrite set_nth_ne in H by exact Hne. auto.
  - match goal with H1 : i_reqs st' = set_nth _ ?a _, H2 : nth_error _ ?a = _ |- _ => rename a into r0; rewrite H1 in H; rename H2 into E0 end.
    destruct (Nat.eq_dec r0 r) as [->|Hne].
    + rewrite (set_nth_eq _ _ _ _ E0) in H. injection H as <-. discriminate.
    + rewrite set_nth_ne in H by exact Hne. auto.
Qed.

Lemma effect_wait_out st st' d f out m : effect st st' (OWait d f) out -> In m out ->
  f = false /\ out = [m] /\ dget k_id m = Some (JInt (id_cur (i_ident st))) /\
  forall k, k <> k_id -> k <> k_log -> dget k m = dget k d.
Proof.
  intros E Hm. inversion E; subst.
  - match goal with H : forall _ _, OWait d f = _ -> _ |- _ => rewrite (H d f eq_refl) in Hm end. destruct Hm.
  - match goal with H : _ \/ _ |- _ => destruct H as [(_ & Hf & m0 & -> & Hid & Hrest)|(_ & ->)] end; [|destruct Hm].
    destruct Hm as [<-|[]]. auto.
  - destruct Hm.
Qed.

Section Prov.
  Context {S : Type} (eval : side -> string -> option (target S)) (s0 : side -> S).
  Notation sys := (@sys S).
  Notation y0 := (sys_new s0).
  Notation run := (sys_run eval y0).
  Notation SI := (SI (fun _ => False)).

  Lemma sys_run_snoc h e : run (h ++ [e]) = sys_step eval (run h) e.
  Proof. unfold sys_run. rewrite fold_left_app. reflexivity. Qed.

  Lemma asked_more h e w z m : asked eval y0 h w z m -> asked eval y0 (h ++ [e]) w z m.
  Proof.
    intros (a & d & b & -> & H). exists a, d, (b ++ [e]). split; [rewrite <- app_assoc; reflexivity|exact H].
  Qed.
  Lemma replied_more h e w z m : replied eval y0 h w z m -> replied eval y0 (h ++ [e]) w z m.
  Proof.
    intros (a & d & b & -> & H). exists a, d, (b ++ [e]). split; [rewrite <- app_assoc; reflexivity|exact H].
  Qed.
  Lemma returned_more h e w z m : returned eval y0 h w z m -> returned eval y0 (h ++ [e]) w z m.
  Proof.
    intros (a & d & b & -> & H). exists a, d, (b ++ [e]). split; [rewrite <- app_assoc; reflexivity|exact H].
  Qed.

  Definition actor (e : sev) : side :=
    match e with EvLog w _ | EvWait w _ _ | EvSend w _ _ | EvWake w _ | EvTimeout w _ | EvDeliver w => w end.

  (** The shape of a system step at side [w]. *)
  Lemma step_shape y e : let w := actor e in let y' := sys_step eval y e in
    sy_if y' (other w) = sy_if y (other w) /\
    sy_in y' (other w) = sy_in y (other w) ++ emitted eval y e /\
    ((exists m rest, e = EvDeliver w /\ sy_in y w = m :: rest /\ sy_in y' w = rest /\
        effect (snd (sy_if y w)) (snd (sy_if y' w)) (ORecv m) (emitted eval y e) /\
        (emitted eval y e = [] \/ exists m', emitted eval y e = [m'] /\ (forall z r, ~ matches (snd (sy_if y w)) m z r) /\
             (dget k_id m <> None -> dget k_id m' = dget k_id m))) \/
     (exists o, (forall d, o <> ORecv d) /\ sy_in y' w = sy_in y w /\
        effect (snd (sy_if y w)) (snd (sy_if y' w)) o (emitted eval y e) /\
        (forall m, In m (emitted eval y e) -> (exists d f, e = EvWait w d f /\ o = OWait d f) \/ exists d f, e = EvSend w d f)) \/
     (e = EvDeliver w /\ y' = y /\ emitted eval y e = [])).
  Proof.
    intros w y'.
    assert (X : forall o, sys_step eval y e = local eval y w o -> (forall d, o <> ORecv d) ->
               emitted eval y e = snd (fst (step (eval w) (sy_if y w) o)) ->
               (forall m, In m (emitted eval y e) -> (exists d f, e = EvWait w d f /\ o = OWait d f) \/ exists d f, e = EvSend w d f) ->
               sy_if y' (other w) = sy_if y (other w) /\ sy_in y' (other w) = sy_in y (other w) ++ emitted eval y e /\
               exists o, (forall d, o <> ORecv d) /\ sy_in y' w = sy_in y w /\
                 effect (snd (sy_if y w)) (snd (sy_if y' w)) o (emitted eval y e) /\
                 (forall m, In m (emitted eval y e) -> (exists d f, e = EvWait w d f /\ o = OWait d f) \/ exists d f, e = EvSend w d f)).
    { intros o E Hn Hem Hw. unfold y'. rewrite E. destruct (step (eval w) (sy_if y w) o) as [[x out] ok] eqn:Es.
      destruct (local_fields eval y w o x out ok Es) as (F1 & F2 & F3 & F4). cbn [fst snd] in Hem. rewrite Hem in *.
      split; [exact F2|]. split; [exact F4|]. exists o. split; [exact Hn|]. split; [exact F3|]. split; [|exact Hw].
      rewrite F1. pose proof (step_eff (eval w) (sy_if y w) o) as Eff. unfold step_st in Eff. rewrite Es in Eff. exact Eff. }
    destruct e as [v x|v d f|v d f|v r|v r|v]; cbn [actor] in w; subst w.
    1: { destruct (X (OLog x)) as (A & B & C); [reflexivity|discriminate|reflexivity|cbn; destruct (sy_if y v); intros ? []|auto]. }
    1: { destruct (X (OWait d f)) as (A & B & C); [reflexivity|discriminate|reflexivity|eauto|auto]. }
    1: { destruct (X (OSend d f)) as (A & B & C); [reflexivity|discriminate|reflexivity|eauto|auto]. }
    1: { destruct (X (OWake r)) as (A & B & C); [reflexivity|discriminate|cbn; destruct (sy_if y v); reflexivity|intros ? []|auto]. }
    1: { destruct (X (OTimeout r)) as (A & B & C); [reflexivity|discriminate|cbn; destruct (sy_if y v); reflexivity|intros ? []|auto]. }
    unfold y'. cbn [sys_step emitted]. destruct (sy_in y v) as [|m rest] eqn:Hin.
    - split; [reflexivity|]. rewrite app_nil_r. split; [reflexivity|]. right. right. auto.
    - clear X. set (y1 := mkSys (sy_if y) (fupd (sy_in y) v rest)).
      destruct (step (eval v) (sy_if y v) (ORecv m)) as [[x out] ok] eqn:Es.
      destruct (local_fields eval y1 v (ORecv m) x out ok Es) as (F1 & F2 & F3 & F4).
      cbn [y1 sy_if sy_in] in F2, F3, F4. rewrite fupd_eq in F3. rewrite fupd_other in F4. cbn [fst snd].
      split; [exact F2|]. split; [exact F4|]. left. exists m, rest. split; [reflexivity|]. split; [reflexivity|]. split; [exact F3|].
      rewrite F1. pose proof (step_eff (eval v) (sy_if y v) (ORecv m)) as Eff. unfold step_st in Eff. rewrite Es in Eff. split; [exact Eff|].
      destruct (sy_if y v) as [s st]. cbn [step] in Es. destruct (process_json (eval v) s st m) as [[[s' st'] out'] ok'] eqn:P.
      injection Es as <- -> ->. apply process_cases in P as [_ P]. exact P.
  Qed.

  Definition prov (h : list sev) (w : side) : Prop :=
    (forall m z, In m (sy_in (run h) (other w)) -> dget k_id m = Some (JInt z) -> Z.odd z = par w -> asked eval y0 h w z m) /\
    (forall m z, In m (sy_in (run h) w) -> dget k_id m = Some (JInt z) -> Z.odd z = par w -> replied eval y0 h w z m) /\
    (forall m z, dget z (i_resp (snd (sy_if (run h) w))) = Some m -> returned eval y0 h w z m) /\
    (forall r q m, nth_error (i_reqs (snd (sy_if (run h) w))) r = Some q -> rq_st q = Done m -> returned eval y0 h w (rq_id q) m).

  Lemma two_peer_prov h : no_sends h -> forall w, prov h w.
  Proof.
    induction h as [|e h IH] using rev_ind; intros NS w.
    - assert (E1 : sy_in (run []) = fun _ => []) by reflexivity.
      assert (E2 : forall v, snd (sy_if (run []) v) = i_new (match v with SA => id_new | SB => id_offset id_new end)) by reflexivity.
      unfold prov. rewrite E1, E2. split; [intros ? ? []|]. split; [intros ? ? []|]. cbn. split; [discriminate|].
      intros [|r] q m; discriminate.
    - assert (NS' : no_sends h) by (intros v d f H; apply (NS v d f); apply in_app_iff; auto).
      assert (He : forall v d f, e <> EvSend v d f) by (intros v d f ->; apply (NS v d f); apply in_app_iff; cbn; auto).
      specialize (IH NS').
      assert (IV : SInv (fun _ => False) (run h)).
      { apply (sys_run_inv eval _ _ _ (any_tame eval) h y0).
        - intros x Hx. destruct x; cbn; auto. apply (NS' w0 d fail Hx).
        - apply SInv_new. }
      destruct (step_shape (run h) e) as (F1 & F2 & F3). rewrite <- sys_run_snoc in F1, F2, F3.
      remember (actor e) as v eqn:Ev. clear Ev.
      assert (SIv : SI (run h) v) by (apply (SInv_w _ (run h) v); exact IV).
      (* what is emitted *)
      assert (Em : forall m z, In m (emitted eval (run h) e) -> dget k_id m = Some (JInt z) ->
                 (Z.odd z = par v -> asked eval y0 (h ++ [e]) v z m) /\
                 (Z.odd z = par (other v) -> replied eval y0 (h ++ [e]) (other v) z m)).
      { intros m z Hm Hz. destruct F3 as [(d & rest & -> & Hin & Hin' & Eff & [Ho|(m' & Ho & NM & Hid)])|[(o & Hno & Hin' & Eff & Hw)|(_ & _ & Ho)]].
        - rewrite Ho in Hm. destruct Hm.
        - rewrite Ho in Hm. destruct Hm as [<-|[]].
          assert (Hd : dget k_id d = Some (JInt z)).
          { destruct (si_msg _ _ _ SIv d) as [[z' Hz']|[]]; [rewrite Hin; left; reflexivity|]. rewrite Hid in Hz by congruence. congruence. }
          split; intros Hp.
          + exfalso. assert (In z (dkeys (i_waiting (snd (sy_if (run h) v))))) as Hk.
            { apply (si_in _ _ _ SIv). rewrite mids_app, in_app_iff. left. rewrite Hin. unfold mids. cbn [flat_map]. apply in_app_iff. left.
              unfold mid. rewrite Hd, Hp, eqb_reflx. left. reflexivity. }
            apply in_keys in Hk as [r Hr]. apply (NM z r). split; [exists (JInt z); auto|exact Hr].
          + exists h, d, []. split; [rewrite other_other; reflexivity|]. rewrite other_other, Hin. split; [reflexivity|].
            split; [exact Ho|]. apply (IH (other v)); auto. rewrite other_other, Hin. left. reflexivity.
        - destruct (Hw m Hm) as [(d & f & -> & ->)|(d & f & Hs)]; [|destruct (He _ _ _ Hs)].
          assert (K : z = id_cur (i_ident (snd (sy_if (run h) v))) /\ f = false /\ emitted eval (run h) (EvWait v d f) = [m] /\
                      forall k, k <> k_id -> k <> k_log -> dget k m = dget k d).
          { destruct (effect_wait_out _ _ _ _ _ _ Eff Hm) as (K1 & K2 & K3 & K4).
            rewrite K3 in Hz. injection Hz as <-. auto. }
          destruct K as (-> & -> & Hout & Hrest). split; intros Hp.
          + exists h, d, []. auto.
          + exfalso. rewrite (si_par _ _ _ SIv), par_other in Hp. destruct (par v); discriminate.
        - rewrite Ho in Hm. destruct Hm. }
      (* the bookkeeping of the acting side *)
      assert (Bk : (forall m z, dget z (i_resp (snd (sy_if (run (h ++ [e])) v))) = Some m -> returned eval y0 (h ++ [e]) v z m) /\
                   (forall r q m, nth_error (i_reqs (snd (sy_if (run (h ++ [e])) v))) r = Some q -> rq_st q = Done m ->
                      returned eval y0 (h ++ [e]) v (rq_id q) m)).
      { destruct (IH v) as (_ & R & P1 & P2).
        assert (Eff : (exists o, effect (snd (sy_if (run h) v)) (snd (sy_if (run (h ++ [e])) v)) o (emitted eval (run h) e) /\
                         (forall d, o = ORecv d -> e = EvDeliver v /\ exists rest, sy_in (run h) v = d :: rest)) \/
                      run (h ++ [e]) = run h).
        { destruct F3 as [(d & rest & -> & Hin & _ & Eff & _)|[(o & Hno & _ & Eff & _)|(_ & H & _)]].
          - left. exists (ORecv d). split; [exact Eff|]. intros d' E. injection E as <-. split; [reflexivity|eauto].
          - left. exists o. split; [exact Eff|]. intros d E. destruct (Hno d E).
          - auto. }
        destruct Eff as [(o & Eff & Ho)|E].
        - split.
          + intros m z Hm. destruct (effect_resp _ _ _ _ _ _ Eff Hm) as [H|(d & r & -> & Mt & Cm)].
            * apply returned_more. auto.
            * destruct (Ho d eq_refl) as [-> [rest Hin]]. exists h, d, []. split; [reflexivity|]. rewrite Hin.
              split; [reflexivity|]. split; [exact Cm|]. destruct Mt as ((j & A & B) & C).
              destruct (si_msg _ _ _ SIv d) as [[z' Hz']|[]]; [rewrite Hin; left; reflexivity|].
              rewrite Hz' in A. injection A as <-. cbn in B. injection B as ->. apply R; [rewrite Hin; left; reflexivity|exact Hz'|].
              apply (waiting_par _ (run h) v z SIv). apply in_keys. eauto.
          + intros r q m Hq Hd. destruct (effect_done _ _ _ _ _ _ _ Eff Hq Hd) as [H|H]; apply returned_more; eauto.
        - rewrite E. split; intros; apply returned_more; eauto. }
      assert (Old : forall u m, In m (sy_in (run (h ++ [e])) u) -> In m (sy_in (run h) u) \/ (u = other v /\ In m (emitted eval (run h) e))).
      { intros u m Hm. destruct (side_cases u v) as [->| ->].
        - left. destruct F3 as [(d & rest & _ & Hin & Hin' & _)|[(o & _ & Hin' & _)|(_ & H & _)]].
          + rewrite Hin' in Hm. rewrite Hin. right. exact Hm.
          + rewrite Hin' in Hm. exact Hm.
          + rewrite H in Hm. exact Hm.
        - rewrite F2, in_app_iff in Hm. tauto. }
      destruct (IH w) as (A & B & C & D). split; [|split].
      + intros m z Hm Hz Hp. destruct (Old _ _ Hm) as [Hm'|[Ew Hm']].
        * apply asked_more. auto.
        * assert (w = v) as -> by (destruct w, v; cbn in Ew; congruence). apply (Em m z Hm' Hz). exact Hp.
      + intros m z Hm Hz Hp. destruct (Old _ _ Hm) as [Hm'|[-> Hm']].
        * apply replied_more. auto.
        * apply (Em m z Hm' Hz). exact Hp.
      + destruct (side_cases w v) as [->| ->]; [exact Bk|]. rewrite F1. split; intros; apply returned_more; eauto.
  Qed.
End Prov.
