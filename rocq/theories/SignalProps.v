(** C99: sine and cosine channels, signal sources and the sample telemetry task. *)
From Verif Require Import Base BaseLemmas PyStrModel PyStrProofs HttpProofs SignalModel SignalSpec.
From Coq Require Import ZifyBool ZifyNat Lia.
Open Scope list_scope.

Section Trig.
  Context {F : Type} (zero tau : F) (mul add div : F -> F -> F) (of_step : Z -> F)
          (fsin fcos : F -> option F) (rnd : F -> F) (neb : F -> F -> bool) (is_zero : F -> bool).
  Notation tstep := (t_step tau mul add div of_step fsin fcos rnd neb is_zero).
  Notation trun := (t_run tau mul add div of_step fsin fcos rnd neb is_zero).
  Notation init := (trig0 zero rnd).
  Notation angle_of := (last_angle tau mul div of_step rnd).

  (** What is stored is what was assigned last, and the angle is that of the last
      dispatch, whatever was raised in between by a callback. *)
  Definition no_zero_steps (ops : list (top F)) (steps : F) : Prop :=
    forall pre s post, ops = pre ++ Dispatch s :: post -> is_zero (last_steps rnd steps pre) = false.
  Lemma both_fields t : let t' := fst (both mul add fsin fcos rnd t) in
    t_angle t' = t_angle t /\ t_steps t' = t_steps t /\ t_amp t' = t_amp t /\ t_sp t' = t_sp t /\ t_cp t' = t_cp t.
  Proof.
    unfold both, update_sin, update_cos. destruct (fsin _); [|cbn; auto]. cbn [fst t_angle t_cp]. destruct (fcos _); cbn; auto.
  Qed.
  Lemma step_fields t o : let t' := fst (tstep t o) in
    t_amp t' = match o with SetAmp v => rnd v | _ => t_amp t end /\
    t_sp t' = match o with SetSinPhase v => rnd v | _ => t_sp t end /\
    t_cp t' = match o with SetCosPhase v => rnd v | _ => t_cp t end /\
    t_steps t' = match o with SetSteps v => rnd v | _ => t_steps t end /\
    t_angle t' = match o with Dispatch s => if is_zero (t_steps t) then t_angle t else mul (div tau (t_steps t)) (of_step s) | _ => t_angle t end.
  Proof.
    destruct o as [v|v|v|v|s]; cbn [t_step].
    - destruct (neb (t_amp t) v); [|cbn; auto]. match goal with |- context [both _ _ _ _ _ ?x] => destruct (both_fields x) as (A & B & C & D & E) end. cbn in *. auto.
    - destruct (neb (t_sp t) v); [|cbn; auto]. unfold update_sin. destruct (fsin _); cbn; auto.
    - destruct (neb (t_cp t) v); [|cbn; auto]. unfold update_cos. destruct (fcos _); cbn; auto.
    - cbn; auto.
    - destruct (is_zero (t_steps t)); [cbn; auto|]. match goal with |- context [both _ _ _ _ _ ?x] => destruct (both_fields x) as (A & B & C & D & E) end. cbn in *. auto.
  Qed.
  Theorem C99_stored : forall ops t, no_zero_steps ops (t_steps t) ->
    let t' := fst (trun ops t) in
    t_amp t' = last_amp rnd (t_amp t) ops /\ t_sp t' = last_sin_phase rnd (t_sp t) ops /\
    t_cp t' = last_cos_phase rnd (t_cp t) ops /\ t_steps t' = last_steps rnd (t_steps t) ops /\
    t_angle t' = angle_of (t_steps t) (t_angle t) ops.
  Proof.
    induction ops as [|o ops IH]; intros t Nz; [cbn; auto|]. cbn [t_run].
    destruct (step_fields t o) as (A & B & C & D & E). cbv zeta in *. destruct (tstep t o) as [t1 ok]. cbn [fst] in *.
    assert (Nz1 : no_zero_steps ops (t_steps t1)).
    { intros pre s post H. rewrite D. apply (Nz (o :: pre) s post). rewrite H. reflexivity. }
    specialize (IH t1 Nz1). cbv zeta in IH. destruct (trun ops t1) as [t2 oks]. cbn [fst] in *.
    destruct IH as (-> & -> & -> & -> & ->). rewrite A, B, C, D, E.
    unfold last_amp, last_sin_phase, last_cos_phase, last_steps. cbn [fold_left]. repeat split.
    destruct o as [v|v|v|v|s]; try reflexivity. cbn [last_angle]. rewrite (Nz [] s ops eq_refl : is_zero (t_steps t) = false). reflexivity.
  Qed.

  (** A value that compares equal to the stored one is stored as the same. *)
  Context (same : forall x v, neb (rnd x) v = false -> rnd v = rnd x).

  Definition sin_right (t : trig F) : Prop := exists c, fsin (add (t_angle t) (t_sp t)) = Some c /\ t_sin t = rnd (mul (t_amp t) c).
  Definition cos_right (t : trig F) : Prop := exists c, fcos (add (t_angle t) (t_cp t)) = Some c /\ t_cos t = rnd (mul (t_amp t) c).
  Definition stored (t : trig F) : Prop := (exists x, t_amp t = rnd x) /\ (exists x, t_sp t = rnd x) /\ (exists x, t_cp t = rnd x).
  Lemma step_stored t o : stored t -> stored (fst (tstep t o)).
  Proof.
    intros (A & B & C). destruct (step_fields t o) as (A1 & B1 & C1 & _). unfold stored. rewrite A1, B1, C1. destruct o; eauto.
  Qed.
  Lemma both_right t : snd (both mul add fsin fcos rnd t) = true -> let t' := fst (both mul add fsin fcos rnd t) in sin_right t' /\ cos_right t'.
  Proof.
    unfold both, update_sin, update_cos, sin_right, cos_right. destruct (fsin (add (t_angle t) (t_sp t))) as [c|] eqn:Es; [|discriminate].
    cbn [t_angle t_cp t_steps t_amp t_sp t_sin t_cos]. destruct (fcos (add (t_angle t) (t_cp t))) as [c'|] eqn:Ec; [|discriminate].
    cbn. intros _. split; eauto.
  Qed.
  Lemma step_right t o : stored t -> snd (tstep t o) = true ->
    (sin_right t -> sin_right (fst (tstep t o))) /\ (cos_right t -> cos_right (fst (tstep t o))).
  Proof.
    intros ((xa & Ea) & (xs & Es) & (xc & Ec)). destruct o as [v|v|v|v|s]; cbn [t_step].
    - destruct (neb (t_amp t) v) eqn:N; intros Ok.
      + apply both_right in Ok. tauto.
      + rewrite Ea in N. apply same in N. unfold sin_right, cos_right. cbn. rewrite N, <- Ea. tauto.
    - destruct (neb (t_sp t) v) eqn:N; intros Ok.
      + revert Ok. unfold update_sin, sin_right, cos_right. destruct (fsin _) as [c|] eqn:X; [|discriminate]. cbn in *. intros _. split; [eauto|tauto].
      + rewrite Es in N. apply same in N. unfold sin_right, cos_right. cbn. rewrite N, <- Es. tauto.
    - destruct (neb (t_cp t) v) eqn:N; intros Ok.
      + revert Ok. unfold update_cos, sin_right, cos_right. destruct (fcos _) as [c|] eqn:X; [|discriminate]. cbn in *. intros _. split; [tauto|eauto].
      + rewrite Ec in N. apply same in N. unfold sin_right, cos_right. cbn. rewrite N, <- Ec. tauto.
    - intros _. unfold sin_right, cos_right. cbn. tauto.
    - destruct (is_zero (t_steps t)); intros Ok; [discriminate|]. apply both_right in Ok. tauto.
  Qed.
  Lemma run_right : forall ops t, stored t -> forallb (fun b => b) (snd (trun ops t)) = true ->
    (sin_right t -> sin_right (fst (trun ops t))) /\ (cos_right t -> cos_right (fst (trun ops t))).
  Proof.
    induction ops as [|o ops IH]; intros t St Ok; [cbn; tauto|]. cbn [t_run] in *.
    pose proof (step_stored t o St) as S1. pose proof (step_right t o St) as R. destruct (tstep t o) as [t1 ok]. cbn [fst snd] in *.
    specialize (IH t1 S1). destruct (trun ops t1) as [t2 oks]. cbn [fst snd forallb] in *. apply andb_true_iff in Ok. destruct Ok as (-> & Ok).
    specialize (IH Ok). specialize (R eq_refl). tauto.
  Qed.
  Lemma run_app ops1 : forall ops2 t, trun (ops1 ++ ops2) t =
    (fst (trun ops2 (fst (trun ops1 t))), snd (trun ops1 t) ++ snd (trun ops2 (fst (trun ops1 t)))).
  Proof.
    induction ops1 as [|o ops1 IH]; intros ops2 t; cbn [t_run app].
    - cbn [fst snd app]. destruct (trun ops2 t); reflexivity.
    - destruct (tstep t o) as [t1 ok]. rewrite IH. destruct (trun ops1 t1) as [t2 oks]. reflexivity.
  Qed.
  Lemma run_stored : forall ops t, stored t -> stored (fst (trun ops t)).
  Proof.
    induction ops as [|o ops IH]; intros t St; [exact St|]. cbn [t_run]. pose proof (step_stored t o St) as S1.
    destruct (tstep t o) as [t1 ok]. specialize (IH t1 S1). destruct (trun ops t1). exact IH.
  Qed.

  (** From the first dispatch on, after every history in which nothing was raised, both
      channels are the current amplitude times the function at the last angle plus the
      current phase. *)
  Theorem C99_follows : forall steps amp sp cp ops s ops',
    let h := ops ++ Dispatch s :: ops' in
    let t := fst (trun h (init steps amp sp cp)) in
    forallb (fun b => b) (snd (trun h (init steps amp sp cp))) = true ->
    let a := last_amp rnd (rnd amp) h in
    let angle := angle_of (rnd steps) zero h in
    (exists c, fsin (add angle (last_sin_phase rnd (rnd sp) h)) = Some c /\ t_sin t = rnd (mul a c)) /\
    (exists c, fcos (add angle (last_cos_phase rnd (rnd cp) h)) = Some c /\ t_cos t = rnd (mul a c)).
  Proof.
    intros steps amp sp cp ops s ops' h t Ok.
    assert (Nz : no_zero_steps h (t_steps (init steps amp sp cp))).
    { intros pre s0 post Eh. rewrite Eh in Ok. rewrite run_app in Ok. cbn [snd] in Ok. rewrite forallb_app in Ok. apply andb_true_iff in Ok. destruct Ok as (_ & Ok).
      cbn [t_run] in Ok. set (u := fst (trun pre (init steps amp sp cp))) in *.
      assert (Eu : t_steps u = last_steps rnd (t_steps (init steps amp sp cp)) pre).
      { unfold u. generalize (init steps amp sp cp). clear. induction pre as [|o pre IH]; intros t; [reflexivity|]. cbn [t_run].
        destruct (step_fields t o) as (_ & _ & _ & D & _). destruct (tstep t o) as [t1 ok]. cbn [fst] in D. specialize (IH t1). destruct (trun pre t1). cbn [fst] in *. rewrite IH, D. reflexivity. }
      rewrite <- Eu. destruct (is_zero (t_steps u)) eqn:Z; [|reflexivity]. exfalso.
      destruct (tstep u (Dispatch s0)) as [t1 ok] eqn:Ts. cbn [t_step] in Ts. rewrite Z in Ts. injection Ts as <- <-.
      destruct (trun post u). cbn in Ok. discriminate. }
    pose proof (C99_stored h (init steps amp sp cp) Nz) as St. cbv zeta in St. fold t in St. destruct St as (A & B & C & _ & E).
    assert (R : sin_right t /\ cos_right t).
    { unfold t, h in *. rewrite run_app in *. cbn [fst snd] in *. rewrite forallb_app in Ok. apply andb_true_iff in Ok. destruct Ok as (_ & Ok).
      set (u := fst (trun ops (init steps amp sp cp))) in *.
      assert (Su : stored u) by (apply run_stored; split; [exists amp; reflexivity|split; [exists sp; reflexivity|exists cp; reflexivity]]).
      cbn [t_run] in *. pose proof (step_stored u (Dispatch s) Su) as S1.
      assert (X : snd (tstep u (Dispatch s)) = true -> sin_right (fst (tstep u (Dispatch s))) /\ cos_right (fst (tstep u (Dispatch s)))).
      { cbn [t_step]. destruct (is_zero (t_steps u)); [discriminate|apply both_right]. }
      destruct (tstep u (Dispatch s)) as [t1 ok]. cbn [fst snd] in *. pose proof (run_right ops' t1 S1) as R. destruct (trun ops' t1) as [t2 oks]. cbn [fst snd forallb] in *.
      apply andb_true_iff in Ok. destruct Ok as (-> & Ok). specialize (X eq_refl). specialize (R Ok). tauto. }
    unfold sin_right, cos_right in R. rewrite A, B, C, E in R. exact R.
  Qed.
  (** Before, they are what they were created as: zero, so the cosine is not the
      amplitude. *)
  Theorem C99_initial_refuted : forall steps amp sp cp, t_sin (init steps amp sp cp) = zero /\ t_cos (init steps amp sp cp) = zero.
  Proof. split; reflexivity. Qed.
  (** A dispatch raises exactly if there are no steps or a function has no value at its
      angle. *)
  Theorem C99_dispatch_raises : forall t s,
    snd (tstep t (Dispatch s)) = false <->
    is_zero (t_steps t) = true \/
    fsin (add (mul (div tau (t_steps t)) (of_step s)) (t_sp t)) = None \/
    fcos (add (mul (div tau (t_steps t)) (of_step s)) (t_cp t)) = None.
  Proof.
    intros t s. cbn [t_step]. destruct (is_zero (t_steps t)) eqn:Z; [cbn; tauto|].
    unfold both, update_sin, update_cos. cbn [t_angle t_sp t_cp]. destruct (fsin _) as [c|]; cbn [t_angle t_cp].
    - destruct (fcos _) as [c'|]; cbn; intuition congruence.
    - cbn. intuition congruence.
  Qed.
  (** A phase without a sine stops the cosine too: no change of the amplitude reaches it. *)
  Theorem C99_one_stops_both_refuted : forall t v, fsin (add (t_angle t) (t_sp t)) = None -> neb (t_amp t) v = true ->
    tstep t (SetAmp v) = (mkTrig (t_angle t) (t_steps t) (rnd v) (t_sp t) (t_cp t) (t_sin t) (t_cos t), false).
  Proof. intros t v H N. cbn [t_step]. rewrite N. unfold both, update_sin. cbn [t_angle t_sp]. rewrite H. reflexivity. Qed.
  (** The number of steps has no effect until the next dispatch. *)
  Theorem C99_steps_later : forall t v, t_sin (fst (tstep t (SetSteps v))) = t_sin t /\ t_cos (fst (tstep t (SetSteps v))) = t_cos t /\
    snd (tstep t (SetSteps v)) = true.
  Proof. repeat split. Qed.
End Trig.

(** ** Sources *)
Section Source.
  Context {F : Type} (mul : F -> F -> F) (conv : F -> F).
  Notation pl := (poll mul conv).
  Lemma poll_spec source : forall amps outs i, List.length amps = List.length outs ->
    forall outs' ok, pl source i amps outs = (outs', ok) ->
    List.length outs' = List.length outs /\
    (ok = false <-> exists j, (j < List.length outs)%nat /\ source (i + j)%nat = None) /\
    forall j a o, nth_error amps j = Some a -> nth_error outs j = Some o ->
      nth_error outs' j = Some (match source (i + j)%nat with
        | Some s => if forallb (fun k => match source (i + k)%nat with Some _ => true | None => false end) (seq 0 j) then conv (mul a s) else o
        | None => o
        end).
  Proof.
    induction amps as [|a amps IH]; intros [|o outs] i L outs' ok H; cbn [List.length] in L; try discriminate; cbn [poll] in H.
    - injection H as <- <-. split; [reflexivity|]. split; [split; [discriminate|intros (j & J & _); cbn in J; lia]|]. intros [|j] a o X; discriminate.
    - destruct (source i) as [s|] eqn:Si.
      + destruct (pl source (S i) amps outs) as [rest ok1] eqn:P. injection H as <- <-. destruct (IH outs (S i) (Nat.succ_inj _ _ L) rest ok1 P) as (L1 & R1 & N1).
        split; [cbn; congruence|]. split.
        * rewrite R1. split; intros (j & J & X).
          -- exists (S j). split; [cbn; lia|]. rewrite Nat.add_succ_r. exact X.
          -- destruct j as [|j]; [rewrite Nat.add_0_r in X; congruence|]. exists j. split; [cbn in J; lia|]. rewrite Nat.add_succ_r in X. exact X.
        * intros [|j] a' o' A O.
          -- injection A as <-. injection O as <-. rewrite Nat.add_0_r, Si. reflexivity.
          -- cbn [nth_error] in *. rewrite (N1 j a' o' A O). rewrite Nat.add_succ_r. cbn [seq forallb]. rewrite Nat.add_0_r, Si.
             replace (forallb (fun k => match source (i + k)%nat with Some _ => true | None => false end) (seq 1 j)) with
               (forallb (fun k => match source (S i + k)%nat with Some _ => true | None => false end) (seq 0 j)); [reflexivity|].
             rewrite <- seq_shift. clear. induction (seq 0 j) as [|k l IHl]; [reflexivity|]. cbn [map forallb]. rewrite Nat.add_succ_r, IHl. reflexivity.
      + injection H as <- <-. split; [reflexivity|]. split; [split; [intros _; exists 0%nat; split; [cbn; lia|rewrite Nat.add_0_r; exact Si]|reflexivity]|].
        intros [|j] a' o' A O; [injection O as <-; rewrite Nat.add_0_r, Si; reflexivity|]. cbn [nth_error] in *. rewrite O.
        cbn [seq forallb]. rewrite Nat.add_0_r, Si. cbn. destruct (source (i + S j)%nat); reflexivity.
  Qed.
  (** Polling a source whose values are all there makes every output its amplitude times
      its value. *)
  Theorem C99_poll : forall source amps outs, List.length amps = List.length outs ->
    (forall j, (j < List.length outs)%nat -> source j <> None) ->
    exists outs', pl source 0 amps outs = (outs', true) /\ List.length outs' = List.length outs /\
    forall j a s, nth_error amps j = Some a -> source j = Some s -> nth_error outs' j = Some (conv (mul a s)).
  Proof.
    intros source amps outs L Al. destruct (pl source 0 amps outs) as [outs' ok] eqn:P. destruct (poll_spec source amps outs 0 L outs' ok P) as (L1 & R & N).
    exists outs'. assert (Ok : ok = true).
    { destruct ok; [reflexivity|]. destruct R as (R & _). destruct (R eq_refl) as (j & J & X). destruct (Al j J X). }
    subst ok. split; [reflexivity|]. split; [exact L1|]. intros j a s A S0.
    assert (Jl : (j < List.length outs)%nat) by (rewrite <- L; apply nth_error_Some; congruence).
    destruct (nth_error outs j) as [o|] eqn:O; [|apply nth_error_None in O; lia]. rewrite (N j a o A O). cbn [Nat.add]. rewrite S0.
    replace (forallb (fun k => match source k with Some _ => true | None => false end) (seq 0 j)) with true; [reflexivity|].
    symmetry. apply forallb_forall. intros k K. apply in_seq in K. destruct (source k) eqn:E; [reflexivity|]. destruct (Al k ltac:(lia) E).
  Qed.
  (** A source that raises: the outputs before it are updated, it and those after it stay. *)
  Theorem C99_poll_raises : forall source amps outs i, List.length amps = List.length outs -> (i < List.length outs)%nat ->
    source i = None -> (forall j, (j < i)%nat -> source j <> None) ->
    exists outs', pl source 0 amps outs = (outs', false) /\
    (forall j a s, (j < i)%nat -> nth_error amps j = Some a -> source j = Some s -> nth_error outs' j = Some (conv (mul a s))) /\
    (forall j, (i <= j)%nat -> nth_error outs' j = nth_error outs j).
  Proof.
    intros source amps outs i L Li Si Be. destruct (pl source 0 amps outs) as [outs' ok] eqn:P. destruct (poll_spec source amps outs 0 L outs' ok P) as (L1 & R & N).
    exists outs'. assert (Ok : ok = false) by (apply R; exists i; auto). subst ok. split; [reflexivity|]. split.
    - intros j a s J A S0. assert (Jl : (j < List.length outs)%nat) by lia. destruct (nth_error outs j) as [o|] eqn:O; [|apply nth_error_None in O; lia].
      rewrite (N j a o A O). cbn [Nat.add]. rewrite S0.
      replace (forallb (fun k => match source k with Some _ => true | None => false end) (seq 0 j)) with true; [reflexivity|].
      symmetry. apply forallb_forall. intros k K. apply in_seq in K. destruct (source k) eqn:E; [reflexivity|]. destruct (Be k ltac:(lia) E).
    - intros j J. destruct (nth_error outs j) as [o|] eqn:O; [|apply nth_error_None in O; apply nth_error_None; lia].
      assert (Jl : (j < List.length outs)%nat) by (apply nth_error_Some; congruence).
      destruct (nth_error amps j) as [a|] eqn:A; [|apply nth_error_None in A; lia]. rewrite (N j a o A O). cbn [Nat.add].
      destruct (source j) as [s|] eqn:Sj; [|reflexivity].
      replace (forallb (fun k => match source k with Some _ => true | None => false end) (seq 0 j)) with false; [reflexivity|].
      symmetry. apply not_true_iff_false. intros F0. rewrite forallb_forall in F0. assert (Ij : In i (seq 0 j)) by (apply in_seq; destruct (Nat.eq_dec i j); [congruence|lia]).
      specialize (F0 i Ij). cbn beta in F0. rewrite Si in F0. discriminate.
  Qed.
End Source.

(** The channels of a source have different names, for every count. *)
Lemma dot_name i sfx : ~ In 46 (dec i) -> split_on 46 (dec i ++ 46 :: sfx) = dec i :: split_on 46 sfx.
Proof. apply split_on_app. Qed.
Theorem C99_names_distinct : forall count, NoDup (source_names count) /\ List.length (source_names count) = (2 * Z.to_nat count)%nat.
Proof.
  assert (Nd : forall i, ~ In 46 (dec i)) by (intros i; apply not_in_dec; [lia|unfold is_digit; lia]).
  assert (Inj : forall i j, dec (Z.of_nat i) = dec (Z.of_nat j) -> i = j).
  { intros i j H. pose proof (py_int_dec (Z.of_nat i)) as A. rewrite H, py_int_dec in A. injection A as A. lia. }
  assert (Oo : forall i j, output_name i = output_name j -> i = j).
  { intros i j H. apply (f_equal (split_on 46)) in H. unfold output_name in H. change (lit ".output") with (46 :: lit "output") in H. rewrite !dot_name in H by apply Nd. apply Inj. congruence. }
  assert (Aa : forall i j, amplitude_name i = amplitude_name j -> i = j).
  { intros i j H. apply (f_equal (split_on 46)) in H. unfold amplitude_name in H. change (lit ".amplitude") with (46 :: lit "amplitude") in H. rewrite !dot_name in H by apply Nd. apply Inj. congruence. }
  assert (Oa : forall i j, output_name i <> amplitude_name j).
  { intros i j H. apply (f_equal (split_on 46)) in H. unfold output_name, amplitude_name in H. change (lit ".output") with (46 :: lit "output") in H. change (lit ".amplitude") with (46 :: lit "amplitude") in H.
    rewrite !dot_name in H by apply Nd. assert (X : split_on 46 (lit "output") = split_on 46 (lit "amplitude")) by congruence. vm_compute in X. discriminate. }
  intros count. unfold source_names. generalize (Z.to_nat count). intros n.
  assert (G : forall l, NoDup l -> NoDup (List.concat (map (fun i => [output_name i; amplitude_name i]) l)) /\ List.length (List.concat (map (fun i => [output_name i; amplitude_name i]) l)) = (2 * List.length l)%nat).
  { induction l as [|i l IH]; intros H; [split; [constructor|reflexivity]|]. inversion H as [|? ? Hi Hl]; subst. destruct (IH Hl) as (N & L).
    assert (X : forall s, In s (List.concat (map (fun i => [output_name i; amplitude_name i]) l)) -> exists j, In j l /\ (s = output_name j \/ s = amplitude_name j)).
    { intros s I. apply in_concat in I. destruct I as (c & C & I). apply in_map_iff in C. destruct C as (j & <- & J). exists j. split; [exact J|]. destruct I as [<-|[<-|[]]]; auto. }
    cbn [map List.concat app List.length]. split; [|rewrite L; lia]. constructor; [|constructor; [|exact N]].
    - intros [E|I]; [apply (Oa i i); congruence|]. destruct (X _ I) as (j & J & [E|E]); [apply Oo in E; congruence|apply (Oa _ _ E)].
    - intros I. destruct (X _ I) as (j & J & [E|E]); [apply (Oa j i); congruence|apply Aa in E; congruence]. }
  destruct (G (seq 0 n) (seq_NoDup n 0)) as (A & B). rewrite seq_length in B. split; assumption.
Qed.

(** And they are the numbers below the count with these endings. *)
Theorem C99_names : forall count name, In name (source_names count) <->
  exists i, 0 <= i < count /\ (name = dec i ++ lit ".output" \/ name = dec i ++ lit ".amplitude").
Proof.
  intros count name. unfold source_names. rewrite in_concat. split.
  - intros (c & C & I). apply in_map_iff in C. destruct C as (j & <- & J). apply in_seq in J. exists (Z.of_nat j). split; [lia|].
    destruct I as [<-|[<-|[]]]; auto.
  - intros (i & B & H). exists [output_name (Z.to_nat i); amplitude_name (Z.to_nat i)]. split.
    + apply in_map_iff. exists (Z.to_nat i). split; [reflexivity|]. apply in_seq. lia.
    + unfold output_name, amplitude_name. rewrite Z2Nat.id by lia. destruct H as [->| ->]; [left|right; left]; reflexivity.
Qed.

(** In this order: the output of each number and then its amplitude. *)
Theorem C99_names_order : forall count i, 0 <= i < count ->
  nth_error (source_names count) (Z.to_nat (2 * i)) = Some (dec i ++ lit ".output") /\
  nth_error (source_names count) (Z.to_nat (2 * i + 1)) = Some (dec i ++ lit ".amplitude").
Proof.
  intros count i B. unfold source_names.
  assert (G : forall n s k, (k < n)%nat ->
    let l := List.concat (map (fun i => [output_name i; amplitude_name i]) (seq s n)) in
    nth_error l (2 * k) = Some (output_name (s + k)) /\ nth_error l (2 * k + 1) = Some (amplitude_name (s + k))).
  { induction n as [|n IH]; intros s k K; [lia|]. cbv zeta. cbn [seq map List.concat app]. destruct k as [|k].
    - rewrite Nat.add_0_r. split; reflexivity.
    - replace (2 * S k)%nat with (S (S (2 * k))) by lia. replace (S (S (2 * k)) + 1)%nat with (S (S (2 * k + 1))) by lia. cbn [nth_error].
      replace (s + S k)%nat with (S s + k)%nat by lia. apply IH. lia. }
  destruct (G (Z.to_nat count) 0%nat (Z.to_nat i) ltac:(lia)) as (A & C). cbn [Nat.add] in A, C.
  assert (Eo : output_name (Z.to_nat i) = dec i ++ lit ".output") by (unfold output_name; rewrite Z2Nat.id by lia; reflexivity).
  assert (Ea : amplitude_name (Z.to_nat i) = dec i ++ lit ".amplitude") by (unfold amplitude_name; rewrite Z2Nat.id by lia; reflexivity). rewrite Eo in A. rewrite Ea in C.
  replace (Z.to_nat (2 * i)) with (2 * Z.to_nat i)%nat by lia. replace (Z.to_nat (2 * i + 1)) with (2 * Z.to_nat i + 1)%nat by lia. split; assumption.
Qed.

(** ** The sample telemetry task *)
Lemma flushes_app a b : flushes (a ++ b) = flushes a + flushes b.
Proof. unfold flushes. rewrite filter_app. apply zlen_app. Qed.
Lemma captures_app a b : captures (a ++ b) = captures a + captures b.
Proof. unfold captures. rewrite filter_app. apply zlen_app. Qed.
Lemma multiple_step c d : 1 <= c -> d / c - (d - 1) / c = if d mod c =? 0 then 1 else 0.
Proof.
  intros C. pose proof (Z.div_mod d c ltac:(lia)) as E. pose proof (Z.mod_pos_bound d c ltac:(lia)) as B.
  destruct (d mod c =? 0) eqn:Z0.
  - assert (H : (d - 1) / c = d / c - 1) by (symmetry; apply (Z.div_unique (d - 1) c (d / c - 1) (c - 1)); [lia|lia]). lia.
  - assert (H : (d - 1) / c = d / c) by (symmetry; apply (Z.div_unique (d - 1) c (d / c) (d mod c - 1)); [lia|lia]). lia.
Qed.
(** With a fixed count every dispatch captures once and the flushes are at the multiples
    of the count. *)
Theorem C99_flushes : forall c, 1 <= c -> forall n d, 0 <= d -> d + Z.of_nat n <= 2 ^ 32 ->
  captures (sample_run d (repeat c n)) = Z.of_nat n /\
  flushes (sample_run d (repeat c n)) = (d + Z.of_nat n - 1) / c - (d - 1) / c.
Proof.
  intros c C. induction n as [|n IH]; intros d D Bd; [cbn [repeat sample_run]; rewrite Z.add_0_r; cbn; lia|].
  cbn [repeat sample_run]. rewrite (Z.mod_small d) by lia. unfold sample_dispatch. replace (c =? 0) with false by lia.
  destruct (IH (d + 1) ltac:(lia) ltac:(lia)) as (I1 & I2). pose proof (multiple_step c d C) as M. replace (d + 1 - 1) with d in I2 by lia.
  destruct (d mod c =? 0); rewrite captures_app, flushes_app, I1, I2;
    replace (d + 1 + Z.of_nat n - 1) with (d + Z.of_nat (S n) - 1) by lia; unfold captures, flushes; cbn [filter negb]; rewrite ?zlen_cons, ?zlen_nil; lia.
Qed.
(** So any [count] dispatches in a row flush exactly once. *)
Theorem C99_flush_once : forall c d, 1 <= c -> 0 <= d -> d + c <= 2 ^ 32 -> flushes (sample_run d (repeat c (Z.to_nat c))) = 1.
Proof.
  intros c d C D B. destruct (C99_flushes c C (Z.to_nat c) d D ltac:(lia)) as (_ & ->). rewrite Z2Nat.id by lia.
  replace (d + c - 1) with (d - 1 + 1 * c) by lia. rewrite Z.div_add by lia. lia.
Qed.
(** A count of zero, which the channel accepts, ends the task. *)
Theorem C99_flush_zero_refuted : forall d counts, sample_run d (0 :: counts) = [false].
Proof. reflexivity. Qed.
(** Counts that change can put the flush off for as long as they do. *)
Theorem C99_flush_late_refuted : forall n, Z.of_nat n <= 65534 ->
  exists counts, List.length counts = n /\ Forall (fun c => 1 <= c <= 65535) counts /\
    captures (sample_run 1 counts) = Z.of_nat n /\ flushes (sample_run 1 counts) = 0.
Proof.
  intros n Hn. exists (map (fun k => Z.of_nat k + 1) (seq 1 n)). split; [rewrite map_length; apply seq_length|]. split.
  - apply Forall_forall. intros c I. apply in_map_iff in I. destruct I as (k & <- & K). apply in_seq in K. lia.
  - assert (G : forall m k, (1 <= k)%nat -> Z.of_nat (k + m) <= 2 ^ 32 ->
      captures (sample_run (Z.of_nat k) (map (fun k => Z.of_nat k + 1) (seq k m))) = Z.of_nat m /\
      flushes (sample_run (Z.of_nat k) (map (fun k => Z.of_nat k + 1) (seq k m))) = 0).
    { induction m as [|m IH]; intros k K B; [split; reflexivity|]. cbn [seq map sample_run]. rewrite (Z.mod_small (Z.of_nat k)) by lia.
      unfold sample_dispatch. replace (Z.of_nat k + 1 =? 0) with false by lia. rewrite (Z.mod_small (Z.of_nat k) (Z.of_nat k + 1)) by lia. replace (Z.of_nat k =? 0) with false by lia.
      destruct (IH (S k) ltac:(lia) ltac:(lia)) as (I1 & I2). replace (Z.of_nat k + 1) with (Z.of_nat (S k)) by lia.
      rewrite captures_app, flushes_app, I1, I2. unfold captures, flushes. cbn [filter negb]. rewrite ?zlen_cons, ?zlen_nil. lia. }
    apply (G n 1%nat); lia.
Qed.

(** ** Cases *)
(** Integers, a quarter of the circle being 1; the functions have no value beyond 1000. *)
Definition ex_sin (x : Z) : option Z := if 1000 <? x then None else Some (match x mod 4 with 1 => 1 | 3 => -1 | _ => 0 end).
Definition ex_cos (x : Z) : option Z := if 1000 <? x then None else Some (match x mod 4 with 0 => 1 | 2 => -1 | _ => 0 end).
Definition ex_trig (ops : list (top Z)) : trig Z * list bool :=
  t_run 4 Z.mul Z.add Z.div (fun z => z) ex_sin ex_cos (fun x => x) (fun a b => negb (a =? b)) (fun x => x =? 0) ops (trig0 0 (fun x => x) 4 1 0 0).
Example C99_trig_case :
  (forall x v : Z, negb (x =? v) = false -> v = x) /\
  ex_trig [Dispatch 1; SetAmp 5; SetSinPhase 2; SetSteps 2; Dispatch 2] = (mkTrig 4 2 5 2 0 0 5, [true; true; true; true; true]) /\
  ex_trig [] = (mkTrig 0 4 1 0 0 0 0, []) /\
  snd (ex_trig [SetSteps 0; Dispatch 1]) = [true; false] /\
  ex_trig [Dispatch 0; SetSinPhase 2000; SetAmp 7] = (mkTrig 0 4 7 2000 0 0 1, [true; false; false]).
Proof. split; [intros; lia|]. repeat split. Qed.
Example C99_poll_case :
  poll Z.mul (fun x => x) (fun i => Some (Z.of_nat i + 1)) 0 [2; 3; 4] [0; 0; 0] = ([2; 6; 12], true) /\
  poll Z.mul (fun x => x) (fun i => if Nat.eqb i 1 then None else Some 1) 0 [2; 3; 4] [9; 9; 9] = ([2; 9; 9], false) /\
  source_names 2 = [lit "0.output"; lit "0.amplitude"; lit "1.output"; lit "1.amplitude"].
Proof. repeat split; vm_compute; reflexivity. Qed.
Example C99_sample_case : sample_run 4 [3; 3; 3; 0; 3] = [false; false; false; true; false].
Proof. reflexivity. Qed.
Print Assumptions C99_stored.
Print Assumptions C99_follows.
Print Assumptions C99_initial_refuted.
Print Assumptions C99_dispatch_raises.
Print Assumptions C99_one_stops_both_refuted.
Print Assumptions C99_steps_later.
Print Assumptions C99_poll.
Print Assumptions C99_poll_raises.
Print Assumptions C99_names_distinct.
Print Assumptions C99_flushes.
Print Assumptions C99_flush_once.
Print Assumptions C99_flush_zero_refuted.
Print Assumptions C99_flush_late_refuted.
Print Assumptions C99_names.
Print Assumptions C99_names_order.
