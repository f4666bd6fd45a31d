From Coq Require Import Ascii Lia ZifyBool ZifyNat.
From Verif Require Import Base BaseLemmas EnvModel CmdLineModel CmdLineSpec CmdLineProofs CmdLineLoop CmdLineExact.

(** ** Nothing is made up or reordered *)

Lemma io_refl {A} (l : list A) : in_order l l.
Proof. induction l; [constructor|apply io_take; assumption]. Qed.
Lemma io_app {A} (a b c d : list A) : in_order a b -> in_order c d -> in_order (a ++ c) (b ++ d).
Proof.
  intros H G. induction H as [l|x l m H IH|x l m H IH]; cbn [app].
  - induction l; [exact G|apply io_skip; assumption].
  - apply io_take. exact IH.
  - apply io_skip. exact IH.
Qed.
Lemma io_trans {A} (a b c : list A) : in_order a b -> in_order b c -> in_order a c.
Proof.
  intros H G. revert a H. induction G as [l|x l m G IH|x l m G IH]; intros a H.
  - inversion H; constructor.
  - inversion H; subst; [constructor | apply io_take; apply IH; assumption | apply io_skip; apply IH; assumption].
  - apply io_skip. apply IH. exact H.
Qed.

Lemma io_nil_l {A} (l : list A) : in_order l [] -> l = [].
Proof. inversion 1; reflexivity. Qed.

Lemma nodup_right {A} (a b : list A) : NoDup (a ++ b) -> NoDup b.
Proof. induction a as [|x a IH]; intros H; [exact H|]. inversion H; subst. apply IH; assumption. Qed.

Section S.
  Context (neg : string -> bool) (defer strip_all : bool).
  Notation cl := (classify_all neg).
  Notation loop := (parse_loop defer strip_all).
  Notation consume := (consume_positionals defer strip_all).

  Lemma texts_app a b : texts (a ++ b) = texts a ++ texts b.
  Proof. apply flat_map_app. Qed.
  Lemma remove_first_io l : in_order (remove_first l) l.
  Proof. induction l as [|a l IH]; [constructor|]. cbn [remove_first]. destruct (String.eqb a "--"); [apply io_skip; apply io_refl | apply io_take; exact IH]. Qed.
  Lemma values_io l : in_order (values_of strip_all l) (texts l).
  Proof. unfold values_of. destruct (_ || _); [apply remove_first_io|apply io_refl]. Qed.
  Lemma texts_cl ws : in_order (texts (cl ws)) ws.
  Proof.
    induction ws as [|w ws IH]; [constructor|]. cbn [classify_all]. destruct (String.eqb_spec w "--") as [->|N].
    - change (TD :: map TA ws) with ([TD] ++ map TA ws). rewrite texts_app, texts_args. apply io_refl.
    - change (classify neg w :: cl ws) with ([classify neg w] ++ cl ws). rewrite texts_app.
      destruct (classify neg w) as [s| |o l sep x] eqn:C.
      + destruct (classify_TA neg w s C) as [<- _]. apply io_take. exact IH.
      + exfalso. apply (classify_TD neg w C).
      + apply io_skip. exact IH.
  Qed.

  Lemma dashes_split ts a b : dashes ts = (a, b) -> ts = a ++ b.
  Proof.
    revert a b. induction ts as [|t ts IH]; intros a b E; cbn [dashes] in E.
    - injection E as <- <-. reflexivity.
    - destruct t; try (injection E as <- <-; reflexivity). destruct (dashes ts) as [a' b']. injection E as <- <-. rewrite (IH a' b' eq_refl). reflexivity.
  Qed.
  Lemma match_one_split ts a b : match_one ts = Some (a, b) -> ts = a ++ b.
  Proof.
    unfold match_one. destruct (dashes ts) as [a1 r1] eqn:D1. destruct r1 as [|[s| |] r1]; try discriminate.
    destruct (dashes r1) as [a2 r2] eqn:D2. intros E. injection E as <- <-.
    rewrite (dashes_split _ _ _ D1), (dashes_split _ _ _ D2), <- app_assoc. reflexivity.
  Qed.
  Lemma match_run_split ts a b : match_run ts = (a, b) -> ts = a ++ b.
  Proof.
    revert a b. induction ts as [|t ts IH]; intros a b E; cbn [match_run] in E.
    - injection E as <- <-. reflexivity.
    - destruct t; try (injection E as <- <-; reflexivity); destruct (match_run ts) as [a' b']; injection E as <- <-; rewrite (IH a' b' eq_refl); reflexivity.
  Qed.
  Lemma match_pos_split ps : forall ts ls r, match_pos ps ts = Some (ls, r) -> ts = List.concat ls ++ r /\ List.length ls = List.length ps.
  Proof.
    induction ps as [|p ps IH]; intros ts ls r E; cbn [match_pos] in E.
    - injection E as <- <-. split; reflexivity.
    - assert (forall a ts', ts = a ++ ts' -> option_map (fun mr : list (list tok) * list tok => (a :: fst mr, snd mr)) (match_pos ps ts') = Some (ls, r) ->
        ts = List.concat ls ++ r /\ List.length ls = List.length (p :: ps)) as G.
      { intros a ts' -> H. destruct (match_pos ps ts') as [[ls' r']|] eqn:M; [|discriminate H]. cbn [option_map fst snd] in H. injection H as <- <-.
        destruct (IH _ _ _ M) as [-> L]. split; [cbn [List.concat]; rewrite app_assoc; reflexivity | cbn [List.length]; rewrite L; reflexivity]. }
      destruct p.
      + destruct (match_one ts) as [[a ts']|] eqn:M; [|discriminate E]. apply (G a ts' (match_one_split _ _ _ M) E).
      + destruct (match_one ts) as [[a ts']|] eqn:M; [|discriminate E]. apply (G a ts' (match_one_split _ _ _ M) E).
      + destruct (match_run ts) as [a ts'] eqn:M. apply (G a ts' (match_run_split _ _ _ M) E).
  Qed.
  Lemma match_partial_split k ps : forall ts ls r, (k <= List.length ps)%nat -> match_partial k ps ts = (ls, r) ->
    ts = List.concat ls ++ r /\ (List.length ls <= List.length ps)%nat.
  Proof.
    induction k as [|k IH]; intros ts ls r L E; cbn [match_partial] in E.
    - injection E as <- <-. split; [reflexivity|cbn [List.length]; lia].
    - match type of E with match ?m with _ => _ end = _ => destruct m as [[ls' r']|] eqn:M end.
      + injection E as -> ->. destruct (match_pos_split _ _ _ _ M) as [A B]. split; [exact A|]. rewrite B, firstn_length. lia.
      + apply (IH ts ls r ltac:(lia) E).
  Qed.
  Lemma drop_empty_facts ls : List.concat (drop_empty ls) = List.concat ls /\ (List.length (drop_empty ls) <= List.length ls)%nat.
  Proof.
    induction ls as [|a ls [IH1 IH2]]; [split; reflexivity|]. cbn [drop_empty List.concat].
    destruct (drop_empty ls) as [|b r] eqn:D.
    - cbn [List.concat] in IH1. rewrite <- IH1, app_nil_r. destruct a; cbn [List.concat List.length] in *; split; try lia; try reflexivity. rewrite app_nil_r; reflexivity.
    - cbn [List.length List.concat] in *. rewrite <- IH1. split; [reflexivity|lia].
  Qed.
  Lemma match_args_split ps ts ls r : match_args defer ps ts = (ls, r) -> ts = List.concat ls ++ r /\ (List.length ls <= List.length ps)%nat.
  Proof.
    unfold match_args. destruct (match_partial (List.length ps) ps ts) as [ls' r'] eqn:M. intros E. injection E as E <-.
    destruct (match_partial_split _ _ _ _ _ (Nat.le_refl _) M) as [A B]. destruct (drop_empty_facts ls') as [C D].
    destruct (defer && _); subst ls; [rewrite C; split; [exact A|lia] | split; assumption].
  Qed.

  Definition pos_vals (n : ns) (p : pos) : list string :=
    match p with
    | PVerb => match n_verb n with Some v => [verb_name v] | None => [] end
    | PChan => match n_chan n with Some c => [c] | None => [] end
    | PExtra => n_extra n
    end.
  Lemma n_pos_vals n p l n' : n_pos strip_all n p l = Some n' ->
    pos_vals n' p = values_of strip_all l /\ forall q, q <> p -> pos_vals n' q = pos_vals n q.
  Proof.
    unfold n_pos. destruct p; destruct (values_of strip_all l) as [|a [|b r]]; try discriminate.
    - destruct (verb_of a) as [v|] eqn:V; [|discriminate]. intros E. injection E as <-. split.
      + cbn [pos_vals n_verb]. apply verb_of_iff in V. rewrite V. reflexivity.
      + intros [] Q; try reflexivity. contradiction Q; reflexivity.
    - intros E. injection E as <-. split; [reflexivity|]. intros [] Q; try reflexivity. contradiction Q; reflexivity.
    - intros E. injection E as <-. split; [reflexivity|]. intros [] Q; try reflexivity. contradiction Q; reflexivity.
    - intros E. injection E as <-. split; [reflexivity|]. intros [] Q; try reflexivity. contradiction Q; reflexivity.
    - intros E. injection E as <-. split; [reflexivity|]. intros [] Q; try reflexivity. contradiction Q; reflexivity.
  Qed.
  Lemma n_poss_vals ps : forall n ls n', NoDup ps -> (List.length ls <= List.length ps)%nat -> n_poss strip_all n ps ls = Some n' ->
    in_order (List.concat (map (pos_vals n') (firstn (List.length ls) ps))) (texts (List.concat ls)) /\
    (forall q, ~ In q (firstn (List.length ls) ps) -> pos_vals n' q = pos_vals n q).
  Proof.
    induction ps as [|p ps IH]; intros n ls n' ND L E.
    - destruct ls; [|cbn [List.length] in L; lia]. injection E as <-. split; [constructor|reflexivity].
    - destruct ls as [|l ls]; [injection E as <-; split; [constructor|reflexivity]|].
      cbn [n_poss] in E. destruct (n_pos strip_all n p l) as [n1|] eqn:P; [|discriminate E].
      inversion ND as [|x y N1 N2]; subst. cbn [List.length] in L.
      destruct (IH n1 ls n' N2 ltac:(lia) E) as [A B]. destruct (n_pos_vals _ _ _ _ P) as [C D].
      assert (forall q k, In q (firstn k ps) -> In q ps) as FI by (intros q k H; rewrite <- (firstn_skipn k ps); apply in_or_app; left; exact H).
      cbn [List.length firstn map List.concat]. split.
      + rewrite texts_app. apply io_app; [|exact A]. rewrite B, C by (intros H; apply N1; apply (FI _ _ H)). apply values_io.
      + intros q Q. rewrite B by (intros H; apply Q; right; exact H). apply D. intros ->. apply Q. left; reflexivity.
  Qed.
  Lemma consume_vals n ps ts n' ps' r : NoDup ps -> consume n ps ts = Some (n', ps', r) ->
    exists done pre, ps = done ++ ps' /\ ts = pre ++ r /\ in_order (List.concat (map (pos_vals n') done)) (texts pre) /\
      (forall q, ~ In q done -> pos_vals n' q = pos_vals n q).
  Proof.
    unfold consume_positionals. destruct (match_args defer ps ts) as [ls r0] eqn:M. intros ND E.
    destruct (n_poss strip_all n ps ls) as [n1|] eqn:P; [|discriminate E]. cbn [option_map] in E. injection E as <- <- <-.
    destruct (match_args_split _ _ _ _ M) as [-> L]. destruct (n_poss_vals ps n ls n1 ND L P) as [A B].
    exists (firstn (List.length ls) ps), (List.concat ls). split; [symmetry; apply firstn_skipn|]. split; [reflexivity|]. split; assumption.
  Qed.
  Lemma pos_vals_set n s q : pos_vals (n_set n s) q = pos_vals n q.
  Proof. destruct s, q; reflexivity. Qed.
  Lemma pos_vals_nset ss : forall n q, pos_vals (fold_left n_set ss n) q = pos_vals n q.
  Proof. induction ss as [|s ss IH]; intros n q; [reflexivity|]. cbn [fold_left]. rewrite IH. apply pos_vals_set. Qed.

  Lemma opt_plain_suffix o rest ss r : opt_plain o rest = Some (ss, r) -> exists pre, rest = pre ++ r.
  Proof.
    destruct o; cbn [opt_plain]; try (intros E; injection E as <- <-; exists []; reflexivity).
    destruct rest as [|[v| |] rest]; try discriminate. intros E. injection E as <- <-. exists [TA v]. reflexivity.
  Qed.
  Lemma chain_suffix : forall n r o rest ss rest', (String.length r < n)%nat ->
    chain o r rest = Some (ss, rest') -> exists pre, rest = pre ++ rest'.
  Proof.
    induction n as [|n IH]; intros r o rest ss rest' L H; [lia|].
    destruct r as [|c r]; [apply (opt_plain_suffix _ _ _ _ H)|].
    destruct o.
    4:{ unfold chain in H. destruct (Ascii.eqb c "="); cbn [opt_short] in H; [destruct r|]; injection H as <- <-; exists []; reflexivity. }
    all: rewrite chain_step in H by discriminate; destruct (short_opt c) as [o'|]; [|discriminate H];
      destruct (chain o' r rest) as [[ss2 r2]|] eqn:C; [|discriminate H]; cbn [option_map fst snd] in H; injection H as <- <-;
      cbn [String.length] in L; apply (IH r o' rest ss2 r2 ltac:(lia) C).
  Qed.
  Lemma consume_optional_suffix o l sep x rest ss r : consume_optional o l sep x rest = Some (ss, r) -> exists pre, rest = pre ++ r.
  Proof.
    destruct o as [o|]; [|discriminate]. destruct x as [x|]; cbn [consume_optional]; [|apply opt_plain_suffix].
    destruct l; [destruct o; try discriminate; intros E; injection E as <- <-; exists []; reflexivity|].
    destruct o.
    4:{ destruct x; cbn [opt_short]; intros E; injection E as <- <-; exists []; reflexivity. }
    all: destruct sep; [rewrite opt_short_sep by discriminate; discriminate|];
      destruct x as [|c x]; [discriminate|]; rewrite opt_short_step by discriminate;
      destruct (short_opt c) as [o'|]; [|discriminate]; destruct (chain o' x rest) as [[ss2 r2]|] eqn:C; [|discriminate];
      cbn [option_map fst snd]; intros E; injection E as <- <-; apply (chain_suffix (S (String.length x)) x o' rest ss2 r2 ltac:(lia) C).
  Qed.

  Lemma loop_vals : forall fuel n ps ts n', NoDup ps -> loop fuel n ps ts = Some n' ->
    in_order (List.concat (map (pos_vals n') ps)) (texts ts) /\ (forall q, ~ In q ps -> pos_vals n' q = pos_vals n q).
  Proof.
    induction fuel as [|fuel IH]; intros n ps ts n' ND E; [discriminate E|]. cbn [parse_loop] in E.
    assert (forall X : Prop, (match consume n ps ts with Some (n0, ps0, r) => if Nat.ltb (List.length r) (List.length ts) then loop fuel n0 ps0 r else None | None => None end) = Some n' ->
       in_order (List.concat (map (pos_vals n') ps)) (texts ts) /\ (forall q, ~ In q ps -> pos_vals n' q = pos_vals n q)) as G.
    { intros _ H. destruct (consume n ps ts) as [[[n0 ps0] r]|] eqn:C; [|discriminate H].
      destruct (Nat.ltb (List.length r) (List.length ts)); [|discriminate H].
      destruct (consume_vals _ _ _ _ _ _ ND C) as (done & pre & -> & -> & A & B).
      destruct (IH n0 ps0 r n' (nodup_right _ _ ND) H) as [A' B'].
      assert (forall q, In q done -> ~ In q ps0) as DJ.
      { intros q Q1 Q2. apply in_split in Q1. destruct Q1 as (d1 & d2 & ->). rewrite <- app_assoc in ND. cbn [app] in ND.
        apply NoDup_remove_2 in ND. apply ND. apply in_or_app; right. apply in_or_app; right. exact Q2. }
      split.
      - rewrite map_app, concat_app, texts_app. apply io_app; [|exact A'].
        rewrite (map_ext_in _ (pos_vals n0)); [exact A|]. intros q Q. apply B'. apply DJ. exact Q.
      - intros q Q. rewrite B' by (intros H'; apply Q; apply in_or_app; right; exact H'). apply B. intros H'; apply Q; apply in_or_app; left; exact H'. }
    destruct (existsb is_opt ts) eqn:X.
    - destruct ts as [|[s| |o l sep x] r]; try (apply (G True); exact E).
      destruct (consume_optional o l sep x r) as [[ss r2]|] eqn:C; [|discriminate E].
      destruct (IH _ _ _ _ ND E) as [A B]. split.
      + apply (io_trans _ _ _ A). change (TO o l sep x :: r) with ([TO o l sep x] ++ r). rewrite texts_app. cbn [texts flat_map app].
        destruct (consume_optional_suffix _ _ _ _ _ _ _ C) as (pre & ->). rewrite texts_app.
        apply (io_app [] _ _ _); [constructor|apply io_refl].
      + intros q Q. rewrite (B q Q). apply pos_vals_nset.
    - destruct (consume n ps ts) as [[[n0 ps0] r]|] eqn:C; [|discriminate E]. destruct ps0; [|discriminate E]. destruct r; [|discriminate E]. injection E as <-.
      destruct (consume_vals _ _ _ _ _ _ ND C) as (done & pre & -> & -> & A & B). rewrite !app_nil_r. split; assumption.
  Qed.
  Theorem parse_in_order ws a e : parse neg defer strip_all ws = Some (a, e) ->
    in_order (verb_name (a_verb a) :: a_chan a :: a_extra a) ws.
  Proof.
    unfold parse. destruct (loop (S (List.length ws)) n_new [PVerb; PChan; PExtra] (cl ws)) as [n'|] eqn:P; [|discriminate].
    assert (NoDup [PVerb; PChan; PExtra]) as ND by (repeat constructor; cbn [In]; intuition discriminate).
    destruct (loop_vals _ _ _ _ _ ND P) as [A _]. intros E. apply (io_trans _ (texts (cl ws))); [|apply texts_cl].
    cbn [map List.concat pos_vals] in A. destruct (n_verb n') as [v|]; [|discriminate E]. destruct (n_chan n') as [c|]; [|discriminate E].
    injection E as <- <-. cbn [a_verb a_chan a_extra]. cbn [app] in A. rewrite app_nil_r in A. exact A.
  Qed.
End S.

(** ** The separator *)
Section D.
  Context (neg : string -> bool) (NOK : neg_ok neg) (defer strip_all : bool).
  Notation cl := (classify_all neg).
  Notation loop := (parse_loop defer strip_all).
  Notation consume := (consume_positionals defer strip_all).
  Notation options := (options neg).
  Notation arg_word := (arg_word neg).

  Lemma existsb_none l : existsb is_opt (map TA l) = false.
  Proof. induction l; [reflexivity|assumption]. Qed.
  Lemma loop_final fuel n ps ts n' : (0 < fuel)%nat -> existsb is_opt ts = false -> consume n ps ts = Some (n', [], []) -> loop fuel n ps ts = Some n'.
  Proof. intros L E C. destruct fuel; [lia|]. cbn [parse_loop]. rewrite E, C. reflexivity. Qed.
  Lemma run_all l : match_run (map TA l) = (map TA l, []).
  Proof. rewrite <- (app_nil_r (map TA l)) at 1. apply match_run_args. left; reflexivity. Qed.
  Lemma run_sep l m : match_run (map TA l ++ TD :: map TA m) = (map TA l ++ TD :: map TA m, []).
  Proof. induction l as [|a l IH]; cbn [map app match_run]; [rewrite run_all; reflexivity|rewrite IH; reflexivity]. Qed.
  Lemma dashes_all l : dashes (map TA l) = ([], map TA l).
  Proof. destruct l; reflexivity. Qed.
  Lemma dashes_sep l m : l <> [] -> dashes (map TA l ++ TD :: map TA m) = ([], map TA l ++ TD :: map TA m).
  Proof. destruct l; [contradiction|reflexivity]. Qed.
  Lemma values_sep l m : ~ In "--"%string l -> values_of strip_all (map TA l ++ TD :: map TA m) = l ++ m.
  Proof.
    intros N. unfold values_of. rewrite existsb_app. cbn [existsb orb]. rewrite orb_true_r, orb_true_r.
    rewrite texts_app, texts_args. change (TD :: map TA m) with ([TD] ++ map TA m). rewrite texts_app, texts_args. cbn [texts flat_map app].
    induction l as [|a l IH]; [reflexivity|]. cbn [app remove_first]. destruct (String.eqb_spec a "--") as [->|]; [exfalso; apply N; left; reflexivity|].
    rewrite IH; [reflexivity|]. intros H; apply N; right; exact H.
  Qed.
  Lemma values_one a : a <> "--"%string -> values_of strip_all [TA a] = [a].
  Proof. intros N. apply (values_args strip_all [a]). intros _ [H|[]]. apply N; symmetry; congruence. Qed.
  Lemma values_sep_r a : a <> "--"%string -> values_of strip_all [TA a; TD] = [a].
  Proof. intros N. apply (values_sep [a] []). intros [H|[]]. apply N; symmetry; congruence. Qed.
  Lemma values_sep_l a : values_of strip_all [TD; TA a] = [a].
  Proof. apply (values_sep [] [a]). intros []. Qed.

  (* consuming everything at the end *)
  Lemma no_defer ps ts ls : match_pos ps ts = Some (ls, []) -> match_args defer ps ts = (ls, []).
  Proof.
    intros M. unfold match_args. destruct ps as [|p ps]; cbn [List.length match_partial].
    - cbn [match_pos] in M. injection M as <- ->. rewrite andb_false_r. reflexivity.
    - rewrite firstn_all2 by (cbn [List.length]; lia). rewrite M, andb_false_r. reflexivity.
  Qed.
  Lemma consume_final n ps ts ls n' : match_pos ps ts = Some (ls, []) -> List.length ls = List.length ps -> n_poss strip_all n ps ls = Some n' ->
    consume n ps ts = Some (n', [], []).
  Proof.
    intros M L P. unfold consume_positionals. rewrite (no_defer _ _ _ M), P, L, skipn_all. reflexivity.
  Qed.

  (* the tails: "-- c extra", "c e1 -- e2", and "c extra" after "command --" *)
  Definition tail (T : list tok) (c : string) (extra : list string) : Prop :=
    (T = TD :: TA c :: map TA extra /\ fine strip_all extra) \/
    (exists e1 e2, T = TA c :: map TA e1 ++ TD :: map TA e2 /\ extra = e1 ++ e2 /\ c <> "--"%string /\ ~ In "--"%string e1 /\ fine strip_all e2).
  Lemma tail_none T c extra : tail T c extra -> existsb is_opt T = false.
  Proof.
    intros [[-> _]|(e1 & e2 & -> & _)]; cbn [existsb is_opt orb]; [apply existsb_none|].
    rewrite existsb_app. cbn [existsb is_opt orb]. rewrite !existsb_none. reflexivity.
  Qed.
  Lemma tail2 n T c extra : tail T c extra -> consume n [PChan; PExtra] T = Some (with_extra (with_chan n c) extra, [], []).
  Proof.
    intros [[-> F]|(e1 & e2 & -> & -> & Nc & N1 & F)].
    - apply (consume_final n _ _ [[TD; TA c]; map TA extra]); [|reflexivity|].
      + cbn [match_pos]. unfold match_one. cbn [dashes]. rewrite dashes_all, run_all. reflexivity.
      + cbn [n_poss n_pos]. rewrite values_sep_l. cbv iota. rewrite values_args by exact F. reflexivity.
    - destruct e1 as [|b e1].
      + cbn [map app]. apply (consume_final n _ _ [[TA c; TD]; map TA e2]); [|reflexivity|].
        * cbn [match_pos]. unfold match_one. cbn [dashes]. rewrite dashes_all, run_all. reflexivity.
        * cbn [n_poss n_pos]. rewrite values_sep_r by exact Nc. cbv iota. rewrite values_args by exact F. reflexivity.
      + apply (consume_final n _ _ [[TA c]; map TA (b :: e1) ++ TD :: map TA e2]); [|reflexivity|].
        * cbn [match_pos]. unfold match_one. cbn [dashes]. rewrite dashes_sep by discriminate. rewrite run_sep. reflexivity.
        * cbn [n_poss n_pos]. rewrite values_one by exact Nc. cbv iota. rewrite values_sep by exact N1. reflexivity.
  Qed.
  Lemma tail3 n T c extra v : tail T c extra -> (strip_all = true -> c <> "--"%string) ->
    consume n [PVerb; PChan; PExtra] (TA (verb_name v) :: T) = Some (with_extra (with_chan (with_verb n v) c) extra, [], []).
  Proof.
    assert (verb_of (verb_name v) = Some v) as V by (apply verb_of_iff; reflexivity).
    assert (verb_name v <> "--"%string) as Nv by (destruct v; discriminate).
    intros [[-> F]|(e1 & e2 & -> & -> & Nc & N1 & F)] Hc.
    - apply (consume_final n _ _ [[TA (verb_name v); TD]; [TA c]; map TA extra]); [|reflexivity|].
      + cbn [match_pos]. unfold match_one. cbn [dashes app]. rewrite dashes_all. cbn [app]. rewrite run_all. reflexivity.
      + cbn [n_poss n_pos]. rewrite values_sep_r by exact Nv. cbv iota. rewrite V. cbn [option_map].
        assert (values_of strip_all [TA c] = [c]) as -> by (apply (values_args strip_all [c]); intros E [H|[]]; apply (Hc E); congruence).
        cbv iota. rewrite values_args by exact F. reflexivity.
    - destruct e1 as [|b e1].
      + cbn [map app]. apply (consume_final n _ _ [[TA (verb_name v)]; [TA c; TD]; map TA e2]); [|reflexivity|].
        * cbn [match_pos]. unfold match_one. cbn [dashes app]. rewrite dashes_all. cbn [app]. rewrite run_all. reflexivity.
        * cbn [n_poss n_pos]. rewrite values_one by exact Nv. cbv iota. rewrite V. cbn [option_map]. rewrite values_sep_r by exact Nc. cbv iota. rewrite values_args by exact F. reflexivity.
      + apply (consume_final n _ _ [[TA (verb_name v)]; [TA c]; map TA (b :: e1) ++ TD :: map TA e2]); [|reflexivity|].
        * cbn [match_pos]. unfold match_one. cbn [dashes app]. rewrite dashes_sep by discriminate. rewrite run_sep. reflexivity.
        * cbn [n_poss n_pos]. rewrite values_one by exact Nv. cbv iota. rewrite V. cbn [option_map]. rewrite values_one by exact Nc. cbv iota. rewrite values_sep by exact N1. reflexivity.
  Qed.

  Lemma parse_tail o1 o2 s1 s2 v T c extra a e : options o1 s1 -> options o2 s2 -> tail (cl T) c extra ->
    (strip_all = true -> c <> "--"%string) -> says (s1 ++ s2) v c extra a e ->
    parse neg defer strip_all (o1 ++ [verb_name v] ++ o2 ++ T) = Some (a, e).
  Proof.
    intros O1 O2 TT Hc S. unfold parse. rewrite loop_opts with (ss := s1) by (try assumption; lia).
    set (fuel := Datatypes.S (List.length (o1 ++ [verb_name v] ++ o2 ++ T))).
    assert (List.length (o2 ++ T) + 1 < fuel)%nat as L by (subst fuel; rewrite (app_length o1); cbn [app List.length]; lia).
    assert (arg_word (verb_name v)) as Av by apply verb_arg.
    assert (loop fuel (nset s1 n_new) [PVerb; PChan; PExtra] (cl ([verb_name v] ++ o2 ++ T)) =
      Some (with_extra (with_chan (with_verb (nset (s1 ++ s2) n_new) v) c) extra)) as ->.
    { destruct o2 as [|w o2].
      - inversion O2 as [|o s os ss W H E1 E2]; subst.
        + cbn [app]. rewrite classify_all_arg by assumption. apply loop_final; [lia | exact (tail_none _ _ _ TT) |].
          rewrite app_nil_r. apply tail3; assumption.
        + exfalso. destruct (option_words_cons neg _ _ W) as (w & q & ->). discriminate E1.
      - assert (headO (cl ((w :: o2) ++ T)) = true) as HO.
        { inversion O2 as [|o s os ss W H E1 E2]; subst. rewrite <- app_assoc.
          destruct (option_complete neg NOK o s (os ++ T) W) as (on & l & sep & x & ts & C1 & _). rewrite C1. reflexivity. }
        rewrite (classify_all_args neg NOK [verb_name v]) by (constructor; [assumption|constructor]).
        rewrite loop_A3; [|right; exact HO| |].
        + destruct (verb_of (verb_name v)) as [v'|] eqn:V; [|assert (verb_of (verb_name v) = Some v) as G by (apply verb_of_iff; reflexivity); congruence].
          assert (v' = v) as -> by (assert (verb_of (verb_name v) = Some v) as G by (apply verb_of_iff; reflexivity); congruence).
          cbn [map]. change ([] ++ cl ((w :: o2) ++ T)) with (cl ((w :: o2) ++ T)).
          rewrite loop_opts with (ss := s2) by (try assumption; lia).
          assert (0 < fuel)%nat as L0 by lia.
          rewrite (loop_final fuel _ _ _ _ L0 (tail_none _ _ _ TT) (tail2 _ _ _ _ TT)).
          rewrite nset_verb, nset_app. reflexivity.
        + intros _ [H|[]]. destruct v; discriminate H.
        + rewrite app_length, map_length, classify_all_length. cbn [List.length] in *. lia. }
    apply result_says. exact S.
  Qed.
  Lemma cl_after e : cl ("--"%string :: e) = TD :: map TA e.
  Proof. reflexivity. Qed.
  Lemma tail_sep_chan c extra : fine strip_all extra -> tail (cl ("--"%string :: c :: extra)) c extra.
  Proof. intros F. left. split; [reflexivity|exact F]. Qed.
  Lemma tail_sep_extra c e1 e2 : arg_word c -> Forall arg_word e1 -> fine strip_all e2 -> tail (cl ([c] ++ e1 ++ "--"%string :: e2)) c (e1 ++ e2).
  Proof.
    intros A F F2. right. exists e1, e2. split.
    - cbn [app]. rewrite classify_all_arg by assumption. rewrite classify_all_args by assumption. reflexivity.
    - split; [reflexivity|]. split; [apply (arg_not_sep neg NOK _ A)|]. split; [|exact F2].
      intros H. rewrite Forall_forall in F. apply (arg_not_sep neg NOK _ (F _ H)). reflexivity.
  Qed.
End D.

(** ** Words *)
Section W.
  Context (space : ascii -> bool).
  Notation word := (word space).
  Lemma split_word w : forall s cur, (forall c, In c (list_ascii_of_string w) -> space c = false) ->
    split_words space (w ++ s)%string cur = split_words space s (cur ++ w)%string.
  Proof.
    induction w as [|c w IH]; intros s cur H.
    - rewrite append_nil_r. reflexivity.
    - cbn [String.append split_words]. rewrite (H c) by (left; reflexivity). rewrite IH by (intros d D; apply H; right; exact D).
      f_equal. clear. induction cur as [|d cur IH]; [reflexivity|]. cbn [String.append]. rewrite IH. reflexivity.
  Qed.
  Lemma split_word0 w s : word w -> split_words space (w ++ s)%string "" = split_words space s w.
  Proof. intros [_ H]. rewrite split_word by exact H. reflexivity. Qed.
  (** Words joined by separators are the words of the line. *)
  Lemma words_join ws : Forall word ws -> space " " = true -> words space (String.concat " " ws) = ws.
  Proof.
    intros F S. unfold words. induction F as [|w ws W F IH]; [reflexivity|].
    destruct ws as [|w2 ws].
    - cbn [String.concat]. rewrite <- (append_nil_r w) at 1. rewrite split_word0 by exact W. cbn [split_words]. destruct W as [N _]. destruct w; [contradiction N; reflexivity|reflexivity].
    - change (String.concat " " (w :: w2 :: ws)) with (w ++ " " ++ String.concat " " (w2 :: ws))%string.
      rewrite split_word0 by exact W. cbn [String.append split_words]. rewrite S. destruct W as [N _]. destruct w as [|c w]; [contradiction N; reflexivity|].
      rewrite IH. reflexivity.
  Qed.
  Lemma words_words s : Forall word (words space s).
  Proof.
    unfold words. assert (forall s cur, (forall c, In c (list_ascii_of_string cur) -> space c = false) -> Forall word (split_words space s cur)) as G.
    { clear s. induction s as [|c s IH]; intros cur H; cbn [split_words].
      - destruct cur as [|d cur]; [constructor|]. constructor; [|constructor]. split; [discriminate|exact H].
      - destruct (space c) eqn:E.
        + destruct cur as [|d cur]; [apply IH; intros x []|]. constructor; [split; [discriminate|exact H]|]. apply IH. intros x [].
        + apply IH. intros x X. assert (forall a, list_ascii_of_string (a ++ String c "")%string = list_ascii_of_string a ++ [c]) as LA.
          { induction a as [|y a IHa]; [reflexivity|]. cbn [String.append list_ascii_of_string app]. rewrite IHa. reflexivity. }
          rewrite LA in X. apply in_app_or in X. destruct X as [X|[<-|[]]]; [apply H; exact X|exact E]. }
    apply G. intros c [].
  Qed.
End W.
