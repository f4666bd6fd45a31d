From Coq Require Import Ascii Lia ZifyBool ZifyNat.
From Verif Require Import Base BaseLemmas EnvModel CmdLineModel CmdLineSpec CmdLineProofs CmdLineLoop.

Lemma verb_of_iff s v : verb_of s = Some v <-> s = verb_name v.
Proof.
  unfold verb_of. split.
  - intros H. apply find_some in H. destruct H as [_ H]. apply String.eqb_eq in H. exact H.
  - intros ->. destruct v; reflexivity.
Qed.

Section S.
  Context (neg : string -> bool) (NOK : neg_ok neg) (defer strip_all : bool).
  Notation cl := (classify_all neg).
  Notation arg_word := (arg_word neg).
  Notation options := (options neg).
  Notation loop := (parse_loop defer strip_all).
  Notation nodash := (fun ws => ~ In "--"%string ws).

  Lemma nodash_app (a b : list string) : ~ In "--"%string (a ++ b) -> ~ In "--"%string a /\ ~ In "--"%string b.
  Proof. intros N. split; intros H; apply N; apply in_or_app; [left|right]; exact H. Qed.
  Lemma args_fine l : Forall arg_word l -> fine strip_all l.
  Proof. intros F _ H. rewrite Forall_forall in F. apply (arg_not_sep neg NOK _ (F _ H)). reflexivity. Qed.
  Lemma loop_end fuel n ps : loop fuel n ps [] = match fuel with O => None | S _ => match ps with [] => Some n | [PExtra] => Some (with_extra n []) | _ => loop fuel n ps [] end end.
  Proof.
    destruct fuel as [|fuel]; [reflexivity|]. destruct ps as [|[] ps]; [apply loop_nil; lia|reflexivity..|].
    destruct ps; [|reflexivity]. cbn. unfold consume_positionals, match_args, values_of. cbn. rewrite andb_false_r, orb_false_r. destruct strip_all; reflexivity.
  Qed.
  Lemma loop_end2 fuel n : loop fuel n [PChan; PExtra] [] = None.
  Proof. destruct fuel as [|fuel]; [reflexivity|]. cbn. unfold consume_positionals, match_args. cbn. rewrite andb_false_r. reflexivity. Qed.
  Lemma loop_end3 fuel n : loop fuel n [PVerb; PChan; PExtra] [] = None.
  Proof. destruct fuel as [|fuel]; [reflexivity|]. cbn. unfold consume_positionals, match_args. cbn. rewrite andb_false_r. reflexivity. Qed.

  (* after the options: nothing, or arguments up to the next option *)
  Lemma front ws fuel n ps n' : ~ In "--"%string ws -> (List.length ws < fuel)%nat ->
    loop fuel n ps (cl ws) = Some n' ->
    exists o ss l r, ws = o ++ l ++ r /\ options o ss /\ Forall arg_word l /\ fin (cl r) /\ (l = [] -> r = []) /\
      loop fuel (nset ss n) ps (map TA l ++ cl r) = Some n' /\
      (List.length (map TA l ++ cl r) < fuel)%nat.
  Proof.
    intros N L H. destruct (peel neg defer strip_all (S (List.length ws)) ws ltac:(lia)) as [(o & ss & r & -> & O & K)|G].
    2:{ rewrite G in H. discriminate H. }
    destruct (nodash_app _ _ N) as [_ N2]. destruct (chunk neg r N2) as (l & r2 & -> & F & Fr).
    rewrite loop_opts with (ss := ss) in H by assumption.
    rewrite classify_all_args in H by assumption. exists o, ss, l, r2.
    split; [reflexivity|]. split; [exact O|]. split; [exact F|]. split; [exact Fr|]. split.
    - intros ->. cbn [app] in K. apply (cl_nil neg). apply (fin_nil _ Fr K).
    - split; [exact H|]. rewrite app_length, map_length, classify_all_length. rewrite !app_length in L. lia.
  Qed.

  Lemma exact0 ws fuel n n' : ~ In "--"%string ws -> (List.length ws < fuel)%nat ->
    loop fuel n [] (cl ws) = Some n' -> exists ss, options ws ss /\ n' = nset ss n.
  Proof.
    intros N L H. destruct (front ws fuel n [] n' N L H) as (o & ss & l & r & -> & O & F & Fr & E & G & L').
    destruct l as [|a l]; [|rewrite loop_A0 in G by exact Fr; discriminate G].
    rewrite (E eq_refl) in *. cbn [map app] in *. rewrite app_nil_r. exists ss. split; [exact O|].
    change (cl []) with (@nil tok) in G. rewrite loop_nil in G by (cbn in L'; lia). congruence.
  Qed.
  Lemma exact1 ws fuel n n' : ~ In "--"%string ws -> (List.length ws < fuel)%nat ->
    loop fuel n [PExtra] (cl ws) = Some n' ->
    exists o1 s1 extra o2 s2, ws = o1 ++ extra ++ o2 /\ options o1 s1 /\ options o2 s2 /\ Forall arg_word extra /\
      n' = with_extra (nset (s1 ++ s2) n) extra.
  Proof.
    intros N L H. destruct (front ws fuel n [PExtra] n' N L H) as (o & ss & l & r & -> & O & F & Fr & E & G & L').
    destruct l as [|a l].
    - rewrite (E eq_refl) in *. exists o, ss, [], [], []. split; [reflexivity|]. split; [exact O|]. split; [constructor|].
      split; [constructor|]. rewrite app_nil_r. cbn [map app] in G. change (cl []) with (@nil tok) in G.
      rewrite loop_end in G. destruct fuel; [lia|]. congruence.
    - rewrite loop_A1 in G; [|exact Fr|apply args_fine; exact F|exact L'].
      destruct (nodash_app _ _ N) as [_ N2]. destruct (nodash_app _ _ N2) as [_ N3].
      assert (List.length r < fuel)%nat as Lr by (rewrite !app_length in L; lia).
      destruct (exact0 r fuel _ n' N3 Lr G) as (s2 & O2 & ->).
      exists o, ss, (a :: l), r, s2. split; [reflexivity|]. split; [exact O|]. split; [exact O2|]. split; [exact F|].
      rewrite nset_extra, !nset_app. reflexivity.
  Qed.
  Lemma exact2_run ws l r fuel n n' : ~ In "--"%string r -> Forall arg_word l -> fin (cl r) -> ws = l ++ r ->
    (List.length (map TA l ++ cl r) < fuel)%nat ->
    loop fuel n [PChan; PExtra] (map TA l ++ cl r) = Some n' ->
    l <> [] ->
    exists c o1 s1 extra o2 s2, ws = [c] ++ o1 ++ extra ++ o2 /\ options o1 s1 /\ options o2 s2 /\ arg_word c /\ Forall arg_word extra /\
      (o1 <> [] -> defer = true) /\
      n' = with_extra (with_chan (nset (s1 ++ s2) n) c) extra.
  Proof.
    intros N F Fr -> L G NE. destruct l as [|c l]; [contradiction NE; reflexivity|]. inversion F as [|x y Fc Fl]; subst.
    assert (List.length r < fuel)%nat as Lr by (rewrite app_length, classify_all_length in L; lia).
    rewrite loop_A2 in G; [|exact Fr|apply args_fine; exact F|exact L].
    destruct (defer && headO (cl r) && match l with [] => true | _ => false end) eqn:D.
    - apply andb_true_iff in D. destruct D as [D1 D2]. apply andb_true_iff in D1. destruct D1 as [D1 _].
      destruct l; [|discriminate D2].
      destruct (exact1 r fuel _ n' N Lr G) as (o1 & s1 & extra & o2 & s2 & -> & O1 & O2 & Fe & ->).
      exists c, o1, s1, extra, o2, s2. split; [reflexivity|]. repeat (split; [assumption|]). split; [intros _; exact D1|].
      rewrite nset_chan. reflexivity.
    - destruct (exact0 r fuel _ n' N Lr G) as (s2 & O2 & ->).
      exists c, [], [], l, r, s2. split; [reflexivity|]. split; [constructor|]. repeat (split; [assumption|]). split; [congruence|].
      rewrite nset_extra, nset_chan. reflexivity.
  Qed.
  Lemma exact2 ws fuel n n' : ~ In "--"%string ws -> (List.length ws < fuel)%nat ->
    loop fuel n [PChan; PExtra] (cl ws) = Some n' ->
    exists o0 s0 c o1 s1 extra o2 s2, ws = o0 ++ [c] ++ o1 ++ extra ++ o2 /\ options o0 s0 /\ options o1 s1 /\ options o2 s2 /\ arg_word c /\ Forall arg_word extra /\
      (o1 <> [] -> defer = true) /\
      n' = with_extra (with_chan (nset (s0 ++ s1 ++ s2) n) c) extra.
  Proof.
    intros N L H. destruct (front ws fuel n [PChan; PExtra] n' N L H) as (o & ss & l & r & -> & O & F & Fr & E & G & L').
    destruct (nodash_app _ _ N) as [_ N2]. destruct (nodash_app _ _ N2) as [_ N3].
    destruct l as [|a l].
    - rewrite (E eq_refl) in G. cbn [map app] in G. change (cl []) with (@nil tok) in G. rewrite loop_end2 in G. discriminate G.
    - destruct (exact2_run ((a :: l) ++ r) (a :: l) r fuel _ n' N3 F Fr eq_refl L' G ltac:(discriminate))
        as (c & o1 & s1 & extra & o2 & s2 & Ew & O1 & O2 & Fc & Fe & D & ->).
      exists o, ss, c, o1, s1, extra, o2, s2. rewrite Ew. split; [reflexivity|]. repeat (split; [assumption|]). rewrite !nset_app. reflexivity.
  Qed.
  Lemma exact3 ws fuel n n' : ~ In "--"%string ws -> (List.length ws < fuel)%nat ->
    loop fuel n [PVerb; PChan; PExtra] (cl ws) = Some n' ->
    exists v c extra o1 o2 o3 o4 s1 s2 s3 s4,
      ws = o1 ++ [verb_name v] ++ o2 ++ [c] ++ o3 ++ extra ++ o4 /\
      options o1 s1 /\ options o2 s2 /\ options o3 s3 /\ options o4 s4 /\ arg_word c /\ Forall arg_word extra /\
      (o3 <> [] -> defer = true) /\
      n' = with_extra (with_chan (with_verb (nset (s1 ++ s2 ++ s3 ++ s4) n) v) c) extra.
  Proof.
    intros N L H. destruct (front ws fuel n _ n' N L H) as (o & ss & l & r & -> & O & F & Fr & E & G & L').
    destruct (nodash_app _ _ N) as [_ N2]. destruct (nodash_app _ _ N2) as [Nl N3].
    destruct l as [|a l].
    - rewrite (E eq_refl) in G. cbn [map app] in G. change (cl []) with (@nil tok) in G. rewrite loop_end3 in G. discriminate G.
    - rewrite loop_A3 in G; [|exact Fr|apply args_fine; exact F|exact L'].
      destruct (verb_of a) as [v|] eqn:V; [|discriminate G]. apply verb_of_iff in V. subst a.
      inversion F as [|x y Fa Fl]; subst.
      rewrite <- classify_all_args in G by assumption.
      destruct (exact2 (l ++ r) fuel (with_verb (nset ss n) v) n') as (o0 & s0 & c & o1 & s1 & extra & o2 & s2 & Ew & O0 & O1 & O2 & Fc & Fe & D & ->).
      + intros X. apply N2. right. exact X.
      + rewrite !app_length in *. cbn [List.length] in L. lia.
      + exact G.
      + exists v, c, extra, o, o0, o1, o2, ss, s0, s1, s2. cbn [app]. rewrite Ew. split; [reflexivity|].
        repeat (split; [assumption|]). rewrite nset_verb, !nset_app. reflexivity.
  Qed.

  (* and conversely *)
  Lemma conv0 o s fuel n : options o s -> (List.length o < fuel)%nat -> loop fuel n [] (cl o) = Some (nset s n).
  Proof.
    intros O L. rewrite <- (app_nil_r o) in *. rewrite loop_opts with (ss := s) by (try assumption; rewrite app_nil_r in O; exact O).
    change (cl []) with (@nil tok). apply loop_nil. lia.
  Qed.
  Lemma options_head o s : options o s -> fin (cl o).
  Proof.
    intros H. destruct H as [|o s os ss W H]; [left; reflexivity|]. right.
    destruct (option_complete neg NOK o s os W) as (on & l & sep & x & ts & C1 & _). rewrite C1. reflexivity.
  Qed.
  Lemma conv1 o1 s1 extra o2 s2 fuel n : options o1 s1 -> options o2 s2 -> Forall arg_word extra ->
    (List.length (o1 ++ extra ++ o2) < fuel)%nat ->
    loop fuel n [PExtra] (cl (o1 ++ extra ++ o2)) = Some (with_extra (nset (s1 ++ s2) n) extra).
  Proof.
    intros O1 O2 F L. destruct extra as [|a l].
    - cbn [app] in *. rewrite <- (app_nil_r (o1 ++ o2)) in *. pose proof (options_app neg _ _ _ _ O1 O2) as O.
      rewrite loop_opts with (ss := s1 ++ s2) by assumption.
      change (cl []) with (@nil tok). rewrite loop_end. destruct fuel; [lia|]. reflexivity.
    - rewrite loop_opts with (ss := s1) by assumption. rewrite classify_all_args by assumption.
      rewrite !app_length in L. cbn [List.length] in L.
      rewrite loop_A1; [|apply (options_head _ _ O2)|apply args_fine; exact F|].
      + rewrite (conv0 o2 s2) by (try assumption; lia). rewrite nset_extra, !nset_app. reflexivity.
      + rewrite app_length, map_length, classify_all_length. cbn [List.length]. lia.
  Qed.
  Lemma head_of_app l r : Forall arg_word l -> cl (l ++ r) = map TA l ++ cl r.
  Proof. apply classify_all_args. exact NOK. Qed.
  Lemma conv2 o0 s0 c o1 s1 extra o2 s2 fuel n : options o0 s0 -> options o1 s1 -> options o2 s2 -> arg_word c -> Forall arg_word extra ->
    (o1 <> [] -> defer = true) ->
    (List.length (o0 ++ [c] ++ o1 ++ extra ++ o2) < fuel)%nat ->
    loop fuel n [PChan; PExtra] (cl (o0 ++ [c] ++ o1 ++ extra ++ o2)) = Some (with_extra (with_chan (nset (s0 ++ s1 ++ s2) n) c) extra).
  Proof.
    intros O0 O1 O2 Fc F D L. rewrite loop_opts with (ss := s0) by assumption.
    rewrite !app_length in L. cbn [List.length] in L.
    destruct o1 as [|w o1].
    - inversion O1 as [|o s os ss W H E1 E2]; subst.
      + cbn [app] in *. change (c :: extra ++ o2) with ((c :: extra) ++ o2). rewrite head_of_app by (constructor; assumption).
        rewrite loop_A2; [|apply (options_head _ _ O2)|apply args_fine; constructor; assumption|].
        * destruct (defer && headO (cl o2) && match extra with [] => true | _ => false end) eqn:E.
          -- destruct extra; [|rewrite andb_false_r in E; discriminate E].
             change (cl o2) with (cl ([] ++ [] ++ o2)).
             rewrite (conv1 [] [] [] o2 s2) by (try assumption; try constructor; cbn [app List.length]; lia).
             cbn [app]. rewrite nset_chan, !nset_app. reflexivity.
          -- rewrite (conv0 o2 s2) by (try assumption; lia). rewrite nset_extra, nset_chan, !nset_app. reflexivity.
        * rewrite app_length, map_length, classify_all_length. cbn [List.length]. lia.
      + exfalso. destruct (option_words_cons neg _ _ W) as (w & q & ->). discriminate E1.
    - change ([c] ++ (w :: o1) ++ extra ++ o2) with ([c] ++ ((w :: o1) ++ extra ++ o2)).
      rewrite head_of_app by (constructor; [assumption|constructor]).
      assert (headO (cl ((w :: o1) ++ extra ++ o2)) = true) as HO.
      { inversion O1 as [|o s os ss W H E1 E2]; subst. rewrite <- app_assoc.
        destruct (option_complete neg NOK o s (os ++ extra ++ o2) W) as (on & l & sep & x & ts & C1 & _). rewrite C1. reflexivity. }
      rewrite loop_A2; [|right; exact HO|apply args_fine; constructor; [assumption|constructor]|].
      + match goal with |- (if ?b then _ else _) = _ => assert (b = true) as DT by (rewrite HO, (D ltac:(discriminate)); reflexivity) end.
        rewrite DT. rewrite (conv1 (w :: o1) s1 extra o2 s2); [|assumption..|rewrite !app_length; lia].
        rewrite nset_chan, !nset_app. reflexivity.
      + rewrite app_length, map_length, classify_all_length, !app_length. cbn [List.length] in *. lia.
  Qed.
  Lemma verb_arg v : arg_word (verb_name v).
  Proof. left. destruct v; intros r E; discriminate E. Qed.
  Lemma conv3 v c extra o1 o2 o3 o4 s1 s2 s3 s4 fuel n :
    options o1 s1 -> options o2 s2 -> options o3 s3 -> options o4 s4 -> arg_word c -> Forall arg_word extra ->
    (o3 <> [] -> defer = true) ->
    (List.length (o1 ++ [verb_name v] ++ o2 ++ [c] ++ o3 ++ extra ++ o4) < fuel)%nat ->
    loop fuel n [PVerb; PChan; PExtra] (cl (o1 ++ [verb_name v] ++ o2 ++ [c] ++ o3 ++ extra ++ o4)) =
      Some (with_extra (with_chan (with_verb (nset (s1 ++ s2 ++ s3 ++ s4) n) v) c) extra).
  Proof.
    intros O1 O2 O3 O4 Fc F D L. rewrite loop_opts with (ss := s1) by assumption.
    rewrite !app_length in L. cbn [List.length] in L.
    (* the arguments that follow the command directly *)
    assert (exists l r, o2 ++ [c] ++ o3 ++ extra ++ o4 = l ++ r /\ Forall arg_word l /\ fin (cl r)) as (l & r & E & Fl & Fr).
    { destruct o2 as [|w o2].
      - destruct o3 as [|w o3].
        + exists (c :: extra), o4. split; [reflexivity|]. split; [constructor; assumption|apply (options_head _ _ O4)].
        + exists [c], ((w :: o3) ++ extra ++ o4). split; [reflexivity|]. split; [constructor; [assumption|constructor]|].
          right. inversion O3 as [|o s os ss W H E1 E2]; subst. rewrite <- app_assoc.
          destruct (option_complete neg NOK o s (os ++ extra ++ o4) W) as (on & l & sep & x & ts & C1 & _). rewrite C1. reflexivity.
      - exists [], ((w :: o2) ++ [c] ++ o3 ++ extra ++ o4). split; [reflexivity|]. split; [constructor|].
        right. inversion O2 as [|o s os ss W H E1 E2]; subst. rewrite <- app_assoc.
        destruct (option_complete neg NOK o s (os ++ [c] ++ o3 ++ extra ++ o4) W) as (on & l & sep & x & ts & C1 & _). rewrite C1. reflexivity. }
    assert (List.length l + List.length r = List.length o2 + (1 + (List.length o3 + (List.length extra + List.length o4))))%nat as EL.
    { apply (f_equal (@List.length string)) in E. rewrite !app_length in E. cbn [List.length] in E. lia. }
    assert (arg_word (verb_name v)) as Av by apply verb_arg.
    rewrite E. change ([verb_name v] ++ l ++ r) with ((verb_name v :: l) ++ r). rewrite head_of_app by (constructor; assumption).
    rewrite loop_A3; [|exact Fr|apply args_fine; constructor; assumption|].
    - destruct (verb_of (verb_name v)) as [v'|] eqn:V.
      + assert (v' = v) as -> by (assert (verb_of (verb_name v) = Some v) as G by (apply verb_of_iff; reflexivity); congruence).
        rewrite <- head_of_app by exact Fl. rewrite <- E.
        rewrite (conv2 o2 s2 c o3 s3 extra o4 s4); [|assumption..|rewrite !app_length; cbn [List.length]; lia].
        rewrite nset_verb, !nset_app. reflexivity.
      + assert (verb_of (verb_name v) = Some v) as G by (apply verb_of_iff; reflexivity). congruence.
    - rewrite app_length, map_length, classify_all_length. cbn [List.length]. lia.
  Qed.

  (* what is stored *)
  Lemma nset_force ss : forall n, n_force (nset ss n) = true <-> n_force n = true \/ In SForce ss.
  Proof.
    induction ss as [|s ss IH]; intros n; [cbn [In]; tauto|]. unfold nset in *. cbn [fold_left]. rewrite IH.
    destruct s; cbn [n_set n_force In]; intuition congruence.
  Qed.
  Lemma nset_remote ss : forall n, n_remote (nset ss n) = true <-> n_remote n = true \/ In SRemote ss.
  Proof.
    induction ss as [|s ss IH]; intros n; [cbn [In]; tauto|]. unfold nset in *. cbn [fold_left]. rewrite IH.
    destruct s; cbn [n_set n_remote In]; intuition congruence.
  Qed.
  Lemma nset_env ss : forall n, 
    (exists e a b, ss = a ++ SEnv e :: b /\ (forall v, ~ In (SEnv v) b) /\ n_env (nset ss n) = e) \/
    (n_env (nset ss n) = n_env n /\ forall v, ~ In (SEnv v) ss).
  Proof.
    induction ss as [|s ss IH]; intros n; [right; split; [reflexivity|intros v []]|]. unfold nset in *. cbn [fold_left].
    destruct (IH (n_set n s)) as [(e & a & b & -> & B & E)|[E B]].
    - left. exists e, (s :: a), b. split; [reflexivity|]. split; assumption.
    - destruct s as [| | |v]; try (right; split; [exact E | intros v [X|X]; [discriminate X|apply (B v X)]]).
      left. exists v, [], ss. split; [reflexivity|]. split; [exact B|exact E].
  Qed.
  Lemma names_env_fun ss e e' : names_env ss e -> names_env ss e' -> e = e'.
  Proof.
    assert (forall e e' a b a' b', ss = a ++ SEnv e :: b -> ss = a' ++ SEnv e' :: b' ->
      (forall v, ~ In (SEnv v) b) -> (forall v, ~ In (SEnv v) b') -> e = e') as G.
    { clear e e'. intros e e' a b a' b' E E' B B'. rewrite E in E'. clear E.
      revert a' E'. induction a as [|x a IH]; intros [|y a'] E'; cbn [app] in E'.
      - congruence.
      - exfalso. injection E' as _ E'. apply (B e'). rewrite E'. apply in_or_app. right; left; reflexivity.
      - exfalso. injection E' as _ E'. apply (B' e). rewrite <- E'. apply in_or_app. right; left; reflexivity.
      - injection E' as _ E'. apply (IH a' E'). }
    intros [(a & b & E & B)|[E B]] [(a' & b' & E' & B')|[E' B']].
    - exact (G _ _ _ _ _ _ E E' B B').
    - exfalso. apply (B' e). rewrite E. apply in_or_app. right; left; reflexivity.
    - exfalso. apply (B e'). rewrite E'. apply in_or_app. right; left; reflexivity.
    - congruence.
  Qed.

  Definition result (n : ns) : option (args * string) :=
    match n_verb n, n_chan n with
    | Some v, Some c => Some (mkArgs v (n_force n) (n_remote n) c (n_extra n), n_env n)
    | _, _ => None
    end.
  Lemma result_says ss v c extra a e :
    result (with_extra (with_chan (with_verb (nset ss n_new) v) c) extra) = Some (a, e) <-> says ss v c extra a e.
  Proof.
    cbn [result with_extra with_chan with_verb n_verb n_chan n_force n_remote n_env n_extra].
    pose proof (nset_force ss n_new) as Hf. pose proof (nset_remote ss n_new) as Hr. pose proof (nset_env ss n_new) as He.
    cbn [n_new n_force n_remote n_env] in Hf, Hr, He.
    assert (names_env ss (n_env (nset ss n_new))) as HE.
    { destruct He as [(x & p & q & E1 & E2 & E3)|[E1 E2]]; [left; exists p, q; rewrite E3; tauto | right; tauto]. }
    unfold says. split.
    - intros E. injection E as <- <-. cbn [a_verb a_chan a_extra a_force a_remote].
      split; [reflexivity|]. split; [reflexivity|]. split; [reflexivity|]. split; [rewrite Hf; intuition congruence|]. split; [rewrite Hr; intuition congruence|exact HE].
    - intros (<- & <- & <- & F & R & N). rewrite (names_env_fun _ _ _ HE N). f_equal. f_equal. destruct a as [av af ar ac ax]. cbn [a_verb a_chan a_extra a_force a_remote] in *.
      f_equal.
      + apply eq_true_iff_eq. rewrite F, Hf. intuition congruence.
      + apply eq_true_iff_eq. rewrite R, Hr. intuition congruence.
  Qed.
  Theorem parse_exact ws a e : ~ In "--"%string ws ->
    (parse neg defer strip_all ws = Some (a, e) <-> line_says neg defer ws a e).
  Proof.
    intros N. unfold parse. split.
    - destruct (loop (S (List.length ws)) n_new [PVerb; PChan; PExtra] (cl ws)) as [n'|] eqn:P; [|discriminate].
      intros H. destruct (exact3 ws (S (List.length ws)) n_new n' N ltac:(lia) P) as (v & c & extra & o1 & o2 & o3 & o4 & s1 & s2 & s3 & s4 & E & O1 & O2 & O3 & O4 & A & F & D & ->).
      apply result_says in H.
      exists v, c, extra, o1, o2, o3, o4, s1, s2, s3, s4. repeat (split; [assumption|]). exact H.
    - intros (v & c & extra & o1 & o2 & o3 & o4 & s1 & s2 & s3 & s4 & E & O1 & O2 & O3 & O4 & A & F & D & H).
      rewrite E. rewrite (conv3 v c extra o1 o2 o3 o4 s1 s2 s3 s4); [|assumption..|lia]. apply result_says. exact H.
  Qed.
End S.
