(** Two connected interfaces: bounded exchanges and where answers come from. *)
From Coq Require Import QArith Qround Permutation.
From Verif Require Import Base BaseLemmas IfaceModel IfaceSpec IfaceProofs.
From Coq Require Import ZifyBool ZifyNat Lia.
Open Scope string_scope.
Open Scope list_scope.
Open Scope Z_scope.

Definition par (w : side) : bool := match w with SA => true | SB => false end.
Lemma par_other w : par (other w) = negb (par w). Proof. destruct w; reflexivity. Qed.
Lemma other_other w : other (other w) = w. Proof. destruct w; reflexivity. Qed.
Lemma side_cases v w : v = w \/ v = other w. Proof. destruct v, w; auto. Qed.
Lemma fupd_eq {A} (f : side -> A) w a : fupd f w a w = a. Proof. destruct w; reflexivity. Qed.
Lemma fupd_other {A} (f : side -> A) w a : fupd f w a (other w) = f (other w). Proof. destruct w; reflexivity. Qed.
Lemma fupd_other' {A} (f : side -> A) w a : fupd f (other w) a w = f w. Proof. destruct w; reflexivity. Qed.

(** Identifiers of one parity among messages. *)
Definition mid (p : bool) (m : msg) : list Z :=
  match dget k_id m with Some (JInt z) => if Bool.eqb (Z.odd z) p then [z] else [] | _ => [] end.
Definition mids (p : bool) (l : list msg) : list Z := flat_map (mid p) l.

Lemma mids_app p a b : mids p (a ++ b) = mids p a ++ mids p b.
Proof. apply flat_map_app. Qed.

Lemma in_keys {K V} {KD : EqDec K} (k : K) (d : list (K * V)) : In k (dkeys d) <-> exists v, dget k d = Some v.
Proof.
  split.
  - intros H. destruct (dget k d) as [v|] eqn:E; [eauto|]. apply dget_None_notin in E. contradiction.
  - intros [v H]. eapply dget_Some_in; eauto.
Qed.

Lemma recv_waiting st st' d out : effect st st' (ORecv d) out ->
  i_waiting st' = i_waiting st \/ exists z r, matches st d z r /\ i_waiting st' = ddel z (i_waiting st).
Proof. intros E. inversion E; subst; eauto. Qed.

Section Sys.
  Context {S : Type} (eval : side -> string -> option (target S)).
  Notation sys := (@sys S).
  Notation sys_step := (sys_step eval).
  Notation sys_run := (sys_run eval).

  (** What is known about messages without identifier. *)
  Context (ok0 : msg -> Prop) (cost0 : msg -> nat) (pot : S -> nat).
  Definition tame : Prop :=
    (forall d, ok0 d -> dget k_id d = None /\ (1 <= cost0 d)%nat) /\
    (forall d l, ok0 d -> ok0 (dset k_log l d) /\ cost0 (dset k_log l d) = cost0 d) /\
    (forall w s st d s' st' out ok, process_json (eval w) s st d = (s', st', out, ok) ->
       (pot s' <= pot s)%nat /\
       (ok0 d -> forall m, In m out -> ok0 m /\ (cost0 m + pot s' + 1 <= cost0 d + pot s)%nat)).
  Context (T : tame).

  Record SI (y : sys) (w : side) : Prop := {
    si_inv : IInv (snd (sy_if y w));
    si_par : Z.odd (id_cur (i_ident (snd (sy_if y w)))) = par w;
    si_msg : forall m, In m (sy_in y w) -> (exists z, dget k_id m = Some (JInt z)) \/ ok0 m;
    si_nd : NoDup (mids (par w) (sy_in y w ++ sy_in y (other w)));
    si_in : forall z, In z (mids (par w) (sy_in y w ++ sy_in y (other w))) -> In z (dkeys (i_waiting (snd (sy_if y w))))
  }.

  Definition wt (w : side) (m : msg) : nat :=
    match dget k_id m with
    | Some (JInt z) => if Bool.eqb (Z.odd z) (par w) then 1 else 2
    | _ => cost0 m
    end.
  Definition wts (w : side) (l : list msg) : nat := list_sum (map (wt w) l).
  Definition Phi (y : sys) : nat :=
    (wts SA (sy_in y SA) + wts SB (sy_in y SB) + pot (fst (sy_if y SA)) + pot (fst (sy_if y SB)))%nat.
  Definition phi1 (y : sys) (w : side) : nat := (wts w (sy_in y w) + pot (fst (sy_if y w)))%nat.
  Lemma Phi_split y w : Phi y = (phi1 y w + phi1 y (other w))%nat.
  Proof. unfold Phi, phi1. destruct w; cbn [other]; lia. Qed.

  Lemma wts_app w a b : wts w (a ++ b) = (wts w a + wts w b)%nat.
  Proof. unfold wts. rewrite map_app, list_sum_app. reflexivity. Qed.

  Lemma local_fields y w o x out ok : step (eval w) (sy_if y w) o = (x, out, ok) ->
    sy_if (local eval y w o) w = x /\ sy_if (local eval y w o) (other w) = sy_if y (other w) /\
    sy_in (local eval y w o) w = sy_in y w /\ sy_in (local eval y w o) (other w) = sy_in y (other w) ++ out.
  Proof.
    intros E. unfold local. rewrite E. cbn [sy_if sy_in].
    rewrite fupd_eq, fupd_other, fupd_other', fupd_eq. auto.
  Qed.

  (** Keys of the waiting table have the side's parity. *)
  Lemma waiting_par y w z : SI y w -> In z (dkeys (i_waiting (snd (sy_if y w)))) -> Z.odd z = par w.
  Proof.
    intros I Hz. apply in_keys in Hz as [r Hr]. destruct (n_w _ (si_inv _ _ I) _ _ Hr) as (q & A & <- & _).
    rewrite <- (si_par _ _ I). apply (n_par _ (si_inv _ _ I)). eapply nth_error_In; eauto.
  Qed.

  Lemma odd_next i : Z.odd (id_cur (fst (id_next (mkIdent (id_cur i) 2)))) = Z.odd (id_cur i).
  Proof. cbn. rewrite Z.odd_add. cbn. apply xorb_false_r. Qed.

  Lemma effect_par st st' o out : IInv st -> effect st st' o out ->
    Z.odd (id_cur (i_ident st')) = Z.odd (id_cur (i_ident st)).
  Proof.
    intros I E. pose proof (n_scale st I) as Sc.
    assert (X : Z.odd (id_cur (fst (id_next (i_ident st)))) = Z.odd (id_cur (i_ident st))).
    { cbn. rewrite Sc, Z.odd_add. cbn. apply xorb_false_r. }
    destruct E; congruence.
  Qed.

  (** A step that neither delivers nor makes a request. *)
  Definition quiet (o : op) : Prop :=
    match o with OLog _ | OWake _ | OTimeout _ => True | OSend d _ => ok0 d | _ => False end.

  Lemma quiet_out x o x' out ok w : quiet o -> step (eval w) x o = (x', out, ok) ->
    fst x' = fst x /\ i_waiting (snd x') = i_waiting (snd x) /\
    (forall m, In m out -> exists d f, o = OSend d f /\ ok0 m /\ cost0 m = cost0 d /\ out = [m]).
  Proof.
    destruct x as [s st]. destruct o; cbn [quiet step]; intros Hq H; try destruct Hq.
    - injection H as <- <- <-. repeat split. intros m [].
    - destruct T as (T1 & T2 & _). unfold send_json in H. destruct (i_logs st) as [|l ls].
      + destruct fail; injection H as <- <- <-; cbn; repeat split; try (intros ? []; fail).
        intros m [<-|[]]. exists d, false. auto.
      + destruct (dmem k_log d); [|destruct fail]; injection H as <- <- <-; cbn; repeat split; try (intros ? []; fail).
        intros m [<-|[]]. exists d, false. destruct (T2 d (JArr (l :: ls)) Hq). auto.
    - injection H as <- <- <-. cbn. unfold wake. destruct (nth_error (i_reqs st) r) as [[id [| | | |]]|] eqn:E; cbn; repeat split; try (intros ? []; fail).
      + destruct (dget id (i_resp st)); erewrite status_reqs by exact E; reflexivity.
    - injection H as <- <- <-. cbn. unfold time_out. destruct (nth_error (i_reqs st) r) as [[id [| | | |]]|] eqn:E; cbn; repeat split; try (intros ? []; fail).
      + erewrite status_reqs by exact E; reflexivity.
      + erewrite status_reqs by exact E; reflexivity.
  Qed.

  Lemma ok0_mid p m : ok0 m -> mid p m = [].
  Proof. intros H. apply (proj1 T) in H as [H _]. unfold mid. rewrite H. reflexivity. Qed.
  Lemma ok0_wt w m : ok0 m -> wt w m = cost0 m.
  Proof. intros H. apply (proj1 T) in H as [H _]. unfold wt. rewrite H. reflexivity. Qed.

  Definition ecost (e : sev) : nat :=
    match e with EvWait _ _ _ => 2 | EvSend _ d _ => cost0 d | _ => 0 end.
  Definition edeliv (y : sys) (e : sev) : nat :=
    match e with EvDeliver w => match sy_in y w with [] => O | _ => 1%nat end | _ => O end.
  Definition eok (e : sev) : Prop := match e with EvSend _ d _ => ok0 d | _ => True end.

  Lemma quiet_step y w o : SI y w -> SI y (other w) -> quiet o ->
    SI (local eval y w o) w /\ SI (local eval y w o) (other w) /\
    (Phi (local eval y w o) <= Phi y + match o with OSend d _ => cost0 d | _ => 0 end)%nat.
  Proof.
    intros I1 I2 Q. destruct (step (eval w) (sy_if y w) o) as [[x out] ok] eqn:E.
    destruct (local_fields y w o x out ok E) as (F1 & F2 & F3 & F4).
    pose proof (step_eff (eval w) (sy_if y w) o) as Eff. unfold step_st in Eff. rewrite E in Eff. cbn [fst snd] in Eff.
    destruct (quiet_out _ _ _ _ _ _ Q E) as (Q1 & Q2 & Q3).
    assert (M0 : forall p, mids p out = []).
    { intros p. destruct out as [|m out]; [reflexivity|]. destruct (Q3 m (or_introl eq_refl)) as (d & f & _ & Om & _ & ->).
      cbn. rewrite (ok0_mid _ _ Om). reflexivity. }
    split; [|split].
    - split; rewrite ?F1, ?F3, ?F4.
      + eapply inv_effect; [apply I1|exact Eff].
      + rewrite (effect_par _ _ _ _ (si_inv _ _ I1) Eff). apply I1.
      + apply I1.
      + rewrite mids_app, mids_app, M0, app_nil_r, <- mids_app. apply I1.
      + rewrite mids_app, mids_app, M0, app_nil_r, <- mids_app, Q2. apply I1.
    - split; rewrite ?other_other, ?F2, ?F3, ?F4.
      + apply I2.
      + apply I2.
      + intros m Hm. apply in_app_iff in Hm as [Hm|Hm]; [apply I2; exact Hm|].
        destruct (Q3 m Hm) as (? & ? & _ & Om & _). auto.
      + rewrite mids_app, mids_app, M0, app_nil_r, <- mids_app. pose proof (si_nd _ _ I2) as N. rewrite other_other in N. exact N.
      + rewrite mids_app, mids_app, M0, app_nil_r, <- mids_app. pose proof (si_in _ _ I2) as N. rewrite other_other in N. exact N.
    - rewrite !(Phi_split _ w). unfold phi1. rewrite F1, F2, F3, F4, wts_app, Q1.
      enough (wts (other w) out <= match o with OSend d _ => cost0 d | _ => 0 end)%nat by lia.
      destruct out as [|m out]; [cbn; lia|]. destruct (Q3 m (or_introl eq_refl)) as (d & f & -> & Om & C & ->).
      unfold wts. cbn. rewrite (ok0_wt _ _ Om). lia.
  Qed.

  Lemma wait_step y w d f : SI y w -> SI y (other w) ->
    SI (local eval y w (OWait d f)) w /\ SI (local eval y w (OWait d f)) (other w) /\
    (Phi (local eval y w (OWait d f)) <= Phi y + 2)%nat.
  Proof.
    intros I1 I2. set (o := OWait d f). destruct (step (eval w) (sy_if y w) o) as [[x out] ok] eqn:E.
    destruct (local_fields y w o x out ok E) as (F1 & F2 & F3 & F4).
    pose proof (step_eff (eval w) (sy_if y w) o) as Eff. unfold step_st in Eff. rewrite E in Eff. cbn [fst snd] in Eff.
    assert (Fs : fst x = fst (sy_if y w)).
    { unfold o in E. destruct (sy_if y w) as [s st]. cbn [step] in E. destruct (wait_json st d f) as [[st' out'] ok'].
      injection E as <- _ _. reflexivity. }
    set (z := id_cur (i_ident (snd (sy_if y w)))).
    assert (Cases : (i_waiting (snd x) = i_waiting (snd (sy_if y w)) /\ out = []) \/
              (dget z (i_waiting (snd (sy_if y w))) = None /\
               i_waiting (snd x) = dset z (List.length (i_reqs (snd (sy_if y w)))) (i_waiting (snd (sy_if y w))) /\
               (out = [] \/ exists m, out = [m] /\ dget k_id m = Some (JInt z)))).
    { unfold o in Eff. inversion Eff; subst; auto.
      - left. split; [assumption|]. eauto.
      - right. split; [assumption|]. split; [assumption|].
        match goal with H : _ \/ _ |- _ => destruct H as [(_ & _ & m & Hm & Hid & _)|(_ & Hm)] end; [right; eauto|auto]. }
    assert (Pz : Z.odd z = par w) by apply I1.
    assert (Mw : mids (par (other w)) out = []).
    { destruct Cases as [(_ & ->)|(_ & _ & [->|(m & -> & Hm)])]; [reflexivity|reflexivity|].
      cbn. unfold mid. rewrite Hm, Pz, par_other. destruct (par w); reflexivity. }
    assert (Mo : mids (par w) out = [] \/ (mids (par w) out = [z] /\ dget z (i_waiting (snd (sy_if y w))) = None)).
    { destruct Cases as [(_ & ->)|(Hn & _ & [->|(m & -> & Hm)])]; [auto|auto|].
      right. split; [|exact Hn]. cbn. unfold mid. rewrite Hm, Pz, eqb_reflx. reflexivity. }
    assert (Hold : dget z (i_waiting (snd (sy_if y w))) = None -> ~ In z (mids (par w) (sy_in y w ++ sy_in y (other w)))).
    { intros Hn Hz. apply (si_in _ _ I1) in Hz. apply dget_None_notin in Hn. contradiction. }
    split; [|split].
    - split; rewrite ?F1, ?F3, ?F4.
      + eapply inv_effect; [apply I1|exact Eff].
      + rewrite (effect_par _ _ _ _ (si_inv _ _ I1) Eff). apply I1.
      + apply I1.
      + rewrite app_assoc, mids_app. destruct Mo as [->|[-> Hn]]; [rewrite app_nil_r; apply I1|].
        apply NoDup_app; [apply I1|constructor; [intros []|constructor]|].
        intros u Hu [<-|[]]. exact (Hold Hn Hu).
      + intros u Hu. rewrite app_assoc, mids_app, in_app_iff in Hu.
        destruct Cases as [(-> & ->)|(Hn & -> & Ho)].
        * cbn in Hu. destruct Hu as [Hu|[]]. apply I1. exact Hu.
        * assert (u = z \/ In u (mids (par w) (sy_in y w ++ sy_in y (other w)))) as [->|Hu'].
          { destruct Hu as [Hu|Hu]; [auto|]. destruct Mo as [M|[M _]]; rewrite M in Hu; [destruct Hu|].
            destruct Hu as [<-|[]]. auto. }
          -- apply in_keys. rewrite dget_dset_eq. eauto.
          -- apply I1 in Hu'. apply in_keys in Hu' as [v Hv]. apply in_keys.
             rewrite dget_dset. destruct (eq_dec u z); eauto.
    - split; rewrite ?other_other, ?F2, ?F3, ?F4.
      + apply I2.
      + apply I2.
      + intros m Hm. apply in_app_iff in Hm as [Hm|Hm]; [apply I2; exact Hm|]. left.
        destruct Cases as [(_ & ->)|(_ & _ & [->|(m' & -> & Hm')])]; [destruct Hm|destruct Hm|].
        destruct Hm as [<-|[]]. eauto.
      + rewrite mids_app, mids_app, Mw, app_nil_r, <- mids_app. pose proof (si_nd _ _ I2) as N. rewrite other_other in N. exact N.
      + rewrite mids_app, mids_app, Mw, app_nil_r, <- mids_app. pose proof (si_in _ _ I2) as N. rewrite other_other in N. exact N.
    - rewrite !(Phi_split _ w). unfold phi1. rewrite F1, F2, F3, F4, wts_app, Fs.
      enough (wts (other w) out <= 2)%nat by lia.
      destruct Cases as [(_ & ->)|(_ & _ & [->|(m & -> & Hm)])]; [cbn; lia|cbn; lia|].
      unfold wts. cbn. unfold wt. rewrite Hm. destruct (Bool.eqb _ _); lia.
  Qed.

  Lemma deliver_step y w m rest : sy_in y w = m :: rest -> SI y w -> SI y (other w) ->
    let y0 := mkSys (sy_if y) (fupd (sy_in y) w rest) in
    let y' := local eval y0 w (ORecv m) in
    SI y' w /\ SI y' (other w) /\ (Phi y' + 1 <= Phi y)%nat.
  Proof.
    intros Hin I1 I2 y0 y'. set (o := ORecv m).
    destruct (step (eval w) (sy_if y0 w) o) as [[x out] ok] eqn:E.
    destruct (local_fields y0 w o x out ok E) as (F1 & F2 & F3 & F4). change (local eval y0 w o) with y' in F1, F2, F3, F4.
    cbn [y0 sy_if sy_in] in F2, F3, F4. rewrite fupd_eq in F3. rewrite fupd_other in F4. cbn [y0 sy_if] in E.
    pose proof (step_eff (eval w) (sy_if y w) o) as Eff. unfold step_st in Eff. rewrite E in Eff. cbn [fst snd] in Eff.
    pose proof E as Proc. unfold o in Proc. destruct (sy_if y w) as [s st] eqn:Est. cbn [step] in Proc.
    destruct (process_json (eval w) s st m) as [[[s' st'] out'] ok'] eqn:P. injection Proc as <- -> ->.
    destruct T as (T1 & T2 & T3). destruct (T3 _ _ _ _ _ _ _ _ P) as [P1 P2].
    apply process_cases in P as [_ P3]. cbn [snd fst] in *.
    assert (IV : IInv st) by (pose proof (si_inv _ _ I1) as X; rewrite Est in X; exact X).
    assert (PV : Z.odd (id_cur (i_ident st)) = par w) by (pose proof (si_par _ _ I1) as X; rewrite Est in X; exact X).
    pose proof (si_nd _ _ I1) as N1. pose proof (si_in _ _ I1) as J1. rewrite Hin in N1, J1. rewrite Est in J1. cbn [snd] in J1.
    pose proof (si_nd _ _ I2) as N2. pose proof (si_in _ _ I2) as J2. rewrite other_other, Hin in N2, J2.
    cbn [app] in N1, J1. unfold mids in N1, J1. cbn [flat_map] in N1, J1. fold (mids (par w) (rest ++ sy_in y (other w))) in N1, J1.
    assert (WP : forall z, In z (dkeys (i_waiting st)) -> Z.odd z = par w).
    { intros z Hz. apply (waiting_par y w z I1). rewrite Est. exact Hz. }
    (* the three kinds of message *)
    assert (K : (exists z, dget k_id m = Some (JInt z) /\ Z.odd z = par w /\ out = []) \/
                (exists z, dget k_id m = Some (JInt z) /\ Z.odd z = par (other w) /\
                   i_waiting st' = i_waiting st /\ (out = [] \/ exists m', out = [m'] /\ dget k_id m' = Some (JInt z))) \/
                (ok0 m /\ i_waiting st' = i_waiting st /\ (out = [] \/ exists m', out = [m']))).
    { assert (Wsame : (forall z r, ~ matches st m z r) -> i_waiting st' = i_waiting st).
      { intros NM. destruct (recv_waiting _ _ _ _ Eff) as [Q|(z & r & Q & _)]; [exact Q|]. destruct (NM z r Q). }
      destruct (si_msg _ _ I1 m) as [[z Hz]|Om]; [rewrite Hin; left; reflexivity| |].
      - destruct (Bool.bool_dec (Z.odd z) (par w)) as [Hp|Hp].
        + left. exists z. split; [exact Hz|]. split; [exact Hp|]. destruct P3 as [->|(m' & _ & NM & _)]; [reflexivity|].
          exfalso. assert (In z (dkeys (i_waiting st))) as Hw.
          { apply J1. apply in_app_iff. left. unfold mid. rewrite Hz, Hp, eqb_reflx. left. reflexivity. }
          apply in_keys in Hw as [r Hr]. apply (NM z r). split; [|exact Hr]. exists (JInt z). auto.
        + right. left. exists z. split; [exact Hz|]. split; [rewrite par_other; destruct (Z.odd z), (par w); cbn in *; congruence|].
          split.
          * apply Wsame. intros z' r ((j & A & B) & C). rewrite Hz in A. injection A as <-. cbn in B. injection B as <-.
            apply Hp. apply WP. apply in_keys. eauto.
          * destruct P3 as [->|(m' & -> & _ & Hid)]; [auto|]. right. exists m'. split; [reflexivity|].
            rewrite Hid by congruence. exact Hz.
      - right. right. split; [exact Om|]. split.
        + apply Wsame. intros z r ((j & A & _) & _). apply T1 in Om as [Om _]. congruence.
        + destruct P3 as [->|(m' & -> & _)]; eauto. }
    assert (Mm : mid (par w) m ++ mid (par (other w)) m = match dget k_id m with Some (JInt z) => [z] | _ => [] end).
    { unfold mid. destruct (dget k_id m) as [[]|]; try reflexivity. rewrite par_other. destruct (Z.odd z), (par w); reflexivity. }
    assert (Mmo : mids (par w) out = [] /\ Permutation (mids (par (other w)) out)
                    (match out with [] => [] | _ => mid (par (other w)) m end)).
    { destruct K as [(z & _ & _ & ->)|[(z & Hz & Hp & _ & [->|(m' & -> & Hm')])|(Om & _ & [->|(m' & ->)])]]; try (split; reflexivity).
      - cbn. rewrite !app_nil_r. unfold mid. rewrite Hz, Hm', Hp, eqb_reflx, par_other. split; [destruct (par w); reflexivity|reflexivity].
      - destruct (P2 Om m' (or_introl eq_refl)) as [Om' _]. cbn. rewrite !app_nil_r, !ok0_mid by assumption. split; reflexivity. }
    destruct Mmo as [Mw Mo].
    split; [|split].
    - split; rewrite ?F1, ?F3, ?F4; cbn [snd].
      + eapply inv_effect; [exact IV|exact Eff].
      + rewrite (effect_par _ _ _ _ IV Eff). exact PV.
      + intros u Hu. apply I1. rewrite Hin. right. exact Hu.
      + rewrite app_assoc, mids_app, Mw, app_nil_r. eapply NoDup_app_r. exact N1.
      + intros z Hz. rewrite app_assoc, mids_app, Mw, app_nil_r in Hz.
        assert (Hz' : In z (dkeys (i_waiting st))) by (apply J1; apply in_app_iff; auto).
        destruct (recv_waiting _ _ _ _ Eff) as [Q|(u & r & Mt & Q)].
        * rewrite Q. exact Hz'.
        * assert (z <> u).
          { intros ->. destruct Mt as ((j & A & B) & C).
            destruct (si_msg _ _ I1 m) as [[z0 Hz0]|Om]; [rewrite Hin; left; reflexivity| |apply T1 in Om as [Om _]; congruence].
            rewrite Hz0 in A. injection A as <-. cbn in B. injection B as ->.
            assert (In u (mid (par w) m)).
            { unfold mid. rewrite Hz0. rewrite (WP u Hz'), eqb_reflx. left. reflexivity. }
            clear - N1 H Hz. revert N1. intros N. apply in_split in H as (l1 & l2 & H). rewrite H, <- app_assoc in N.
            cbn in N. apply NoDup_remove_2 in N. apply N. rewrite !in_app_iff. auto. }
          apply in_keys in Hz' as [r' Hr']. apply in_keys. exists r'.
          rewrite Q. rewrite dget_ddel_ne by assumption. exact Hr'.
    - assert (PP : exists l, Permutation (mids (par (other w)) (sy_in y (other w) ++ m :: rest))
                         (l ++ mids (par (other w)) ((sy_in y (other w) ++ out) ++ rest))).
      { rewrite !mids_app. change (mids (par (other w)) (m :: rest)) with (mid (par (other w)) m ++ mids (par (other w)) rest).
        destruct out as [|m' out]; [cbn in Mo|].
        - exists (mid (par (other w)) m). cbn [app mids flat_map]. rewrite app_nil_r.
          rewrite app_assoc, (app_assoc (mid _ m)). apply Permutation_app_tail. apply Permutation_app_comm.
        - exists []. cbn [app]. rewrite Mo, <- app_assoc. reflexivity. }
      destruct PP as (l & PP).
      split; rewrite ?other_other, ?F2, ?F3, ?F4.
      + apply I2.
      + apply I2.
      + intros u Hu. apply in_app_iff in Hu as [Hu|Hu]; [apply I2; exact Hu|].
        destruct K as [(z & _ & _ & ->)|[(z & Hz & Hp & _ & [->|(m' & -> & Hm')])|(Om & _ & Ho)]]; try (destruct Hu; fail).
        * destruct Hu as [<-|[]]. eauto.
        * right. apply (P2 Om u Hu).
      + eapply NoDup_app_r. eapply Permutation_NoDup; [exact PP|exact N2].
      + intros z Hz. apply J2. eapply Permutation_in; [apply Permutation_sym; exact PP|]. apply in_app_iff. auto.
    - rewrite !(Phi_split _ w). unfold phi1. rewrite F1, F2, F3, F4, wts_app, Est, Hin. cbn [fst].
      assert (W : wts w (m :: rest) = (wt w m + wts w rest)%nat) by reflexivity. rewrite W.
      enough (wts (other w) out + pot s' + 1 <= wt w m + pot s)%nat by lia.
      destruct K as [(z & Hz & Hp & ->)|[(z & Hz & Hp & _ & Ho)|(Om & _ & Ho)]].
      + cbn. unfold wt. rewrite Hz. destruct (Bool.eqb _ _); lia.
      + assert (wt w m = 2%nat) as -> by (unfold wt; rewrite Hz, Hp, par_other; destruct (par w); reflexivity).
        destruct Ho as [->|(m' & -> & Hm')]; [cbn; lia|]. unfold wts. cbn. unfold wt. rewrite Hm', Hp, eqb_reflx. lia.
      + rewrite (ok0_wt w m Om). destruct (proj1 (conj T1 T2) m Om) as [_ C1]. destruct Ho as [->|(m' & ->)]; [cbn; lia|].
        destruct (P2 Om m' (or_introl eq_refl)) as [Om' C]. unfold wts. cbn. rewrite (ok0_wt _ _ Om'). lia.
  Qed.

  Definition SInv (y : sys) : Prop := SI y SA /\ SI y SB.
  Lemma SInv_w y w : SInv y <-> SI y w /\ SI y (other w).
  Proof. unfold SInv. destruct w; cbn; tauto. Qed.

  Lemma sys_step_inv y e : eok e -> SInv y ->
    SInv (sys_step y e) /\ (edeliv y e + Phi (sys_step y e) <= Phi y + ecost e)%nat.
  Proof.
    intros He I.
    assert (X : forall w o, quiet o -> SInv (local eval y w o) /\
              (Phi (local eval y w o) <= Phi y + match o with OSend d _ => cost0 d | _ => 0 end)%nat).
    { intros w o Q. destruct (proj1 (SInv_w y w) I) as [I1 I2]. destruct (quiet_step y w o I1 I2 Q) as (A & B & C).
      split; [apply (SInv_w _ w); auto|exact C]. }
    destruct e as [w x|w d f|w d f|w r|w r|w]; cbn [IfaceSpec.sys_step edeliv ecost eok] in *.
    - apply (X w (OLog x) Logic.I).
    - destruct (proj1 (SInv_w y w) I) as [I1 I2]. destruct (wait_step y w d f I1 I2) as (A & B & C).
      split; [apply (SInv_w _ w); auto|lia].
    - apply (X w (OSend d f) He).
    - apply (X w (OWake r) Logic.I).
    - apply (X w (OTimeout r) Logic.I).
    - destruct (sy_in y w) as [|m rest] eqn:E; [split; [exact I|lia]|].
      destruct (proj1 (SInv_w y w) I) as [I1 I2]. destruct (deliver_step y w m rest E I1 I2) as (A & B & C).
      split; [apply (SInv_w _ w); auto|lia].
  Qed.

  Lemma SInv_new s : SInv (sys_new s).
  Proof.
    assert (X : forall w, SI (sys_new s) w).
    { intros w. split; cbn [sys_new sy_if sy_in snd].
      - apply inv_new. destruct w; reflexivity.
      - destruct w; reflexivity.
      - intros m [].
      - constructor.
      - intros z []. }
    split; apply X.
  Qed.

  Lemma sys_run_inv h : forall y, (forall e, In e h -> eok e) -> SInv y ->
    SInv (sys_run y h) /\ (deliveries eval y h + Phi (sys_run y h) <= Phi y + list_sum (map ecost h))%nat.
  Proof.
    induction h as [|e h IH]; intros y Hok I; [cbn; split; [exact I|lia]|].
    destruct (sys_step_inv y e (Hok e (or_introl eq_refl)) I) as [I' C].
    destruct (IH (sys_step y e) (fun e' H => Hok e' (or_intror H)) I') as [I'' C'].
    split; [exact I''|]. cbn [deliveries map list_sum fold_right] in *. unfold IfaceSpec.sys_run in *. cbn [fold_left].
    unfold list_sum in C' |- *. cbn [fold_right]. unfold edeliv in C. lia.
  Qed.
End Sys.
