From Coq Require Import Ascii Lia ZifyBool ZifyNat.
From Verif Require Import Base BaseLemmas EnvModel CmdLineModel CmdLineSpec CmdLineProofs.

Definition with_verb (n : ns) (v : verb) : ns := mkNs (Some v) (n_chan n) (n_extra n) (n_force n) (n_remote n) (n_env n) (n_help n).
Definition with_chan (n : ns) (c : string) : ns := mkNs (n_verb n) (Some c) (n_extra n) (n_force n) (n_remote n) (n_env n) (n_help n).
Definition with_extra (n : ns) (l : list string) : ns := mkNs (n_verb n) (n_chan n) l (n_force n) (n_remote n) (n_env n) (n_help n).
Definition nset (ss : list setting) (n : ns) : ns := fold_left n_set ss n.

Lemma nset_verb ss : forall n v, nset ss (with_verb n v) = with_verb (nset ss n) v.
Proof. induction ss as [|s ss IH]; intros n v; [reflexivity|]. unfold nset in *. cbn [fold_left]. rewrite <- IH. destruct s; reflexivity. Qed.
Lemma nset_chan ss : forall n v, nset ss (with_chan n v) = with_chan (nset ss n) v.
Proof. induction ss as [|s ss IH]; intros n v; [reflexivity|]. unfold nset in *. cbn [fold_left]. rewrite <- IH. destruct s; reflexivity. Qed.
Lemma nset_extra ss : forall n v, nset ss (with_extra n v) = with_extra (nset ss n) v.
Proof. induction ss as [|s ss IH]; intros n v; [reflexivity|]. unfold nset in *. cbn [fold_left]. rewrite <- IH. destruct s; reflexivity. Qed.
Lemma nset_app a b n : nset (a ++ b) n = nset b (nset a n).
Proof. apply fold_left_app. Qed.

Section S.
  Context (neg : string -> bool) (NOK : neg_ok neg) (defer strip_all : bool).
  Notation classify := (classify neg).
  Notation cl := (classify_all neg).
  Notation arg_word := (arg_word neg).
  Notation options := (options neg).
  Notation option_words := (option_words neg).
  Notation loop := (parse_loop defer strip_all).
  Notation consume := (consume_positionals defer strip_all).

  Definition headO (R : list tok) : bool := match R with TO _ _ _ _ :: _ => true | _ => false end.
  Definition fin (R : list tok) : Prop := R = [] \/ headO R = true.

  (* options only shorten the line *)
  Lemma opt_plain_len o rest ss r : opt_plain o rest = Some (ss, r) -> (List.length r <= List.length rest)%nat.
  Proof.
    destruct o; cbn [opt_plain]; try (intros E; injection E as <- <-; lia).
    destruct rest as [|[v| |] rest]; try discriminate. intros E. injection E as <- <-. cbn [List.length]. lia.
  Qed.
  Lemma chain_len : forall n r o rest ss rest', (String.length r < n)%nat ->
    chain o r rest = Some (ss, rest') -> (List.length rest' <= List.length rest)%nat.
  Proof.
    induction n as [|n IH]; intros r o rest ss rest' L H; [lia|].
    destruct r as [|c r]; [apply (opt_plain_len _ _ _ _ H)|].
    destruct o.
    4:{ unfold chain in H. destruct (Ascii.eqb c "="); cbn [opt_short] in H; [destruct r|]; injection H as <- <-; lia. }
    all: rewrite chain_step in H by discriminate; destruct (short_opt c) as [o'|]; [|discriminate H];
      destruct (chain o' r rest) as [[ss2 r2]|] eqn:C; [|discriminate H]; cbn [option_map fst snd] in H; injection H as <- <-;
      cbn [String.length] in L; apply (IH r o' rest ss2 r2 ltac:(lia) C).
  Qed.
  Lemma opt_short_len o sep x rest ss rest' : opt_short o sep x rest = Some (ss, rest') -> (List.length rest' <= List.length rest)%nat.
  Proof.
    destruct o.
    4:{ destruct x; cbn [opt_short]; intros E; injection E as <- <-; lia. }
    all: destruct sep; [rewrite opt_short_sep by discriminate; discriminate|];
      destruct x as [|c x]; [discriminate|]; rewrite opt_short_step by discriminate;
      destruct (short_opt c) as [o'|]; [|discriminate]; destruct (chain o' x rest) as [[ss2 r2]|] eqn:C; [|discriminate];
      cbn [option_map fst snd]; intros E; injection E as <- <-; apply (chain_len (S (String.length x)) x o' rest ss2 r2 ltac:(lia) C).
  Qed.
  Lemma consume_optional_len o l sep x rest ss r : consume_optional o l sep x rest = Some (ss, r) -> (List.length r <= List.length rest)%nat.
  Proof.
    destruct o as [o|]; [|discriminate]. destruct x as [x|]; cbn [consume_optional]; [|apply opt_plain_len].
    destruct l; [|apply opt_short_len]. destruct o; try discriminate. intros E. injection E as <- <-. lia.
  Qed.

  Lemma loop_fuel : forall f1 f2 n ps ts, (List.length ts < f1)%nat -> (List.length ts < f2)%nat -> loop f1 n ps ts = loop f2 n ps ts.
  Proof.
    induction f1 as [|f1 IH]; intros f2 n ps ts L1 L2; [lia|]. destruct f2 as [|f2]; [lia|].
    cbn [parse_loop]. destruct (existsb is_opt ts); [|reflexivity].
    assert (forall X, (match consume n ps ts with Some (n0, ps0, r) => if Nat.ltb (List.length r) (List.length ts) then loop f1 n0 ps0 r else None | None => None end) = X ->
      (match consume n ps ts with Some (n0, ps0, r) => if Nat.ltb (List.length r) (List.length ts) then loop f2 n0 ps0 r else None | None => None end) = X) as G.
    { intros X <-. destruct (consume n ps ts) as [[[n0 ps0] r]|]; [|reflexivity].
      destruct (Nat.ltb_spec (List.length r) (List.length ts)); [|reflexivity]. symmetry. apply IH; lia. }
    destruct ts as [|[s| |o l sep x] r]; try (symmetry; apply G; reflexivity).
    destruct (consume_optional o l sep x r) as [[ss r2]|] eqn:C; [|reflexivity].
    pose proof (consume_optional_len _ _ _ _ _ _ _ C). cbn [List.length] in L1, L2. apply IH; lia.
  Qed.

  Lemma option_words_cons ws ss : option_words ws ss -> exists w r, ws = w :: r.
  Proof. intros H; destruct H; eexists _, _; reflexivity. Qed.
  Lemma loop_opts o ss r fuel n ps : options o ss -> (List.length (o ++ r) < fuel)%nat ->
    loop fuel n ps (cl (o ++ r)) = loop fuel (nset ss n) ps (cl r).
  Proof.
    intros H. revert fuel n. induction H as [|o s os ss W H IH]; intros fuel n L; [reflexivity|].
    rewrite <- app_assoc in *. destruct (option_complete neg NOK o s (os ++ r) W) as (on & l & sep & x & ts & C1 & C2).
    destruct (option_words_cons _ _ W) as (w & o' & ->).
    destruct fuel as [|fuel]; [lia|]. rewrite C1. cbn [parse_loop existsb is_opt orb]. rewrite C2.
    change (fold_left n_set s n) with (nset s n).
    rewrite nset_app. transitivity (loop (S fuel) (nset s n) ps (cl (os ++ r))).
    - apply loop_fuel; rewrite classify_all_length; rewrite app_length in L; cbn [List.length] in L; lia.
    - apply IH. rewrite app_length in L; cbn [List.length] in L; lia.
  Qed.

  Lemma options_app a sa b sb : options a sa -> options b sb -> options (a ++ b) (sa ++ sb).
  Proof.
    intros H G. induction H as [|o s os ss W H IH]; [exact G|]. rewrite <- !app_assoc. constructor; assumption.
  Qed.

  (* the options at the start *)
  Lemma peel : forall k ws, (List.length ws < k)%nat ->
    (exists o ss r, ws = o ++ r /\ options o ss /\ headO (cl r) = false) \/
    (forall fuel n ps, loop fuel n ps (cl ws) = None).
  Proof.
    induction k as [|k IH]; intros ws L; [lia|].
    destruct (cl ws) as [|t ts] eqn:C.
    - left. exists [], [], ws. split; [reflexivity|]. split; [constructor|]. rewrite C; reflexivity.
    - destruct t as [s| |o l sep x];
        [left; exists [], [], ws; split; [reflexivity|]; split; [constructor|]; rewrite C; reflexivity..|].
      destruct (consume_optional o l sep x ts) as [[ss ts']|] eqn:E.
      + destruct ws as [|w r]; [discriminate C|].
        destruct (option_sound neg w r o l sep x ts ss ts' C E) as (vs & r' & -> & W & ->).
        cbn [List.length] in L. rewrite app_length in L.
        destruct (IH r' ltac:(lia)) as [(o' & ss' & r2 & -> & H & K)|H].
        * left. exists ((w :: vs) ++ o'), (ss ++ ss'), r2. split; [rewrite <- app_assoc; reflexivity|].
          split; [constructor; assumption|exact K].
        * right. intros fuel n ps. destruct fuel as [|fuel]; [reflexivity|]. cbn [parse_loop existsb is_opt orb]. rewrite E. apply H.
      + right. intros fuel n ps. destruct fuel as [|fuel]; [reflexivity|]. cbn [parse_loop existsb is_opt orb]. rewrite E. reflexivity.
  Qed.

  (* the arguments at the start *)
  Lemma chunk ws : ~ In "--"%string ws ->
    exists l r, ws = l ++ r /\ Forall arg_word l /\ fin (cl r).
  Proof.
    induction ws as [|w ws IH]; intros N; [exists [], []; split; [reflexivity|]; split; [constructor|left; reflexivity]|].
    assert (w <> "--"%string) as Nw by (intros ->; apply N; left; reflexivity).
    destruct (classify w) as [s| |o l sep x] eqn:C.
    - destruct (classify_TA neg w s C) as [-> A]. destruct IH as (l & r & -> & F & K); [intros H; apply N; right; exact H|].
      exists (s :: l), r. split; [reflexivity|]. split; [constructor; [apply A; exact Nw|exact F]|exact K].
    - exfalso. apply (classify_TD neg w C).
    - exists [], (w :: ws). split; [reflexivity|]. split; [constructor|]. right. rewrite classify_all_cons, C by exact Nw. reflexivity.
  Qed.
  Lemma fin_nil R : fin R -> headO R = false -> R = [].
  Proof. intros [->|H] E; [reflexivity|congruence]. Qed.
  Lemma cl_nil r : cl r = [] -> r = [].
  Proof. destruct r as [|w r]; [reflexivity|]. cbn [classify_all]. destruct (String.eqb w "--"); discriminate. Qed.

  Lemma existsb_args l R : existsb is_opt (map TA l ++ R) = existsb is_opt R.
  Proof. induction l as [|a l IH]; [reflexivity|]. cbn [map app existsb is_opt orb]. exact IH. Qed.
  Lemma existsb_fin R : fin R -> existsb is_opt R = headO R.
  Proof. intros [->|H]; [reflexivity|]. destruct R as [|[| |] R]; try discriminate H. reflexivity. Qed.
  Lemma match_run_args l R : fin R -> match_run (map TA l ++ R) = (map TA l, R).
  Proof.
    intros F. induction l as [|a l IH]; cbn [map app match_run].
    - destruct F as [->|H]; [reflexivity|]. destruct R as [|[| |] R]; try discriminate H. reflexivity.
    - rewrite IH. reflexivity.
  Qed.
  Lemma dashes_args l R : fin R -> dashes (map TA l ++ R) = ([], map TA l ++ R).
  Proof.
    intros F. destruct l as [|a l]; [|reflexivity]. destruct F as [->|H]; [reflexivity|]. destruct R as [|[| |] R]; try discriminate H. reflexivity.
  Qed.
  Lemma match_one_args a l R : fin R -> match_one (TA a :: map TA l ++ R) = Some ([TA a], map TA l ++ R).
  Proof. intros F. unfold match_one. cbn [dashes]. rewrite dashes_args by exact F. reflexivity. Qed.
  Lemma match_one_fin R : fin R -> match_one R = None.
  Proof. intros [->|H]; [reflexivity|]. destruct R as [|[| |] R]; try discriminate H. reflexivity. Qed.
  Lemma texts_args l : texts (map TA l) = l.
  Proof. induction l as [|a l IH]; [reflexivity|]. unfold texts in *. cbn [map flat_map app]. rewrite IH. reflexivity. Qed.
  Lemma remove_first_id l : ~ In "--"%string l -> remove_first l = l.
  Proof.
    induction l as [|a l IH]; intros N; [reflexivity|]. cbn [remove_first]. destruct (String.eqb_spec a "--") as [->|]; [exfalso; apply N; left; reflexivity|].
    rewrite IH; [reflexivity|]. intros H; apply N; right; exact H.
  Qed.
  Lemma existsb_TD l : existsb (fun t => match t with TD => true | _ => false end) (map TA l) = false.
  Proof. induction l as [|a l IH]; [reflexivity|exact IH]. Qed.
  (* the values of words: what the releases do not agree on is a second "--" *)
  Definition fine (l : list string) : Prop := strip_all = true -> ~ In "--"%string l.
  Lemma values_args l : fine l -> values_of strip_all (map TA l) = l.
  Proof.
    intros N. unfold values_of. rewrite existsb_TD, texts_args, orb_false_r. destruct strip_all eqn:E; [|reflexivity]. apply remove_first_id. apply N. exact E.
  Qed.
  Lemma fine_cons a l : fine (a :: l) -> fine [a] /\ fine l.
  Proof. intros H. split; intros E X; apply (H E); [destruct X as [->|[]]; left; reflexivity | right; exact X]. Qed.

  Lemma loop_A0 fuel n a l R : fin R -> loop fuel n [] (map TA (a :: l) ++ R) = None.
  Proof.
    intros F. destruct fuel as [|fuel]; [reflexivity|].
    assert (consume n [] (map TA (a :: l) ++ R) = Some (n, [], map TA (a :: l) ++ R)) as C.
    { unfold consume_positionals, match_args. cbn [List.length match_partial].
      match goal with |- context [if ?b then _ else _] => destruct b end; reflexivity. }
    cbn [parse_loop]. rewrite C. cbn [map app]. rewrite Nat.ltb_irrefl.
    match goal with |- context [if ?b then _ else _] => destruct b end; reflexivity.
  Qed.
  Lemma loop_consume fuel n ps a l R n' ps' : fin R ->
    (List.length (map TA (a :: l) ++ R) < fuel)%nat ->
    consume n ps (map TA (a :: l) ++ R) = Some (n', ps', R) ->
    loop fuel n ps (map TA (a :: l) ++ R) = if headO R then loop fuel n' ps' R else match ps' with [] => Some n' | _ => None end.
  Proof.
    intros F L C. destruct fuel as [|fuel]; [lia|].
    match goal with |- _ = ?x => set (X := x) end. cbn [parse_loop]. subst X. rewrite C. rewrite existsb_args, existsb_fin by exact F.
    destruct (headO R) eqn:H.
    - cbn [map app]. assert (Nat.ltb (List.length R) (List.length (TA a :: map TA l ++ R)) = true) as G.
      { apply Nat.ltb_lt. cbn [List.length]. rewrite app_length. lia. }
      rewrite G. rewrite app_length in L. cbn [map List.length] in L. apply loop_fuel; lia.
    - rewrite (fin_nil R F H). cbn [map app]. destruct ps'; reflexivity.
  Qed.
  Lemma loop_nil fuel n : (0 < fuel)%nat -> loop fuel n [] [] = Some n.
  Proof. intros L. destruct fuel; [lia|]. cbn. unfold consume_positionals, match_args. cbn. rewrite andb_false_r. reflexivity. Qed.

  Lemma loop_A1 fuel n a l R : fin R -> fine (a :: l) -> (List.length (map TA (a :: l) ++ R) < fuel)%nat ->
    loop fuel n [PExtra] (map TA (a :: l) ++ R) = loop fuel (with_extra n (a :: l)) [] R.
  Proof.
    intros F FL L.
    assert (consume n [PExtra] (map TA (a :: l) ++ R) = Some (with_extra n (a :: l), [], R)) as C.
    { unfold consume_positionals, match_args. cbn [List.length match_partial firstn match_pos]. rewrite match_run_args by exact F.
      cbn [option_map fst snd].
      assert (forall b : bool, (if b then drop_empty [map TA (a :: l)] else [map TA (a :: l)]) = [map TA (a :: l)]) as G by (intros []; reflexivity).
      rewrite G. cbn [List.length skipn n_poss n_pos]. rewrite values_args by exact FL. reflexivity. }
    rewrite (loop_consume _ _ _ _ _ _ _ _ F L C). destruct (headO R) eqn:H; [reflexivity|].
    rewrite (fin_nil R F H). rewrite loop_nil; [reflexivity|]. lia.
  Qed.
  Lemma loop_A2 fuel n a l R : fin R -> fine (a :: l) -> (List.length (map TA (a :: l) ++ R) < fuel)%nat ->
    loop fuel n [PChan; PExtra] (map TA (a :: l) ++ R) =
    if defer && headO R && match l with [] => true | _ => false end
    then loop fuel (with_chan n a) [PExtra] R
    else loop fuel (with_extra (with_chan n a) l) [] R.
  Proof.
    intros F FL L. apply fine_cons in FL. destruct FL as [Fa Fl].
    assert (consume n [PChan; PExtra] (map TA (a :: l) ++ R) =
      Some (if defer && headO R && match l with [] => true | _ => false end
            then (with_chan n a, [PExtra], R) else (with_extra (with_chan n a) l, [], R))) as C.
    { unfold consume_positionals, match_args. cbn [List.length match_partial firstn match_pos map app]. rewrite match_one_args by exact F.
      rewrite match_run_args by exact F. cbn [option_map fst snd]. change (match R with TO _ _ _ _ :: _ => true | _ => false end) with (headO R).
      destruct (defer && headO R); destruct l as [|b l]; cbn [drop_empty map List.length skipn n_poss n_pos andb];
        change (values_of strip_all [TA a]) with (values_of strip_all (map TA [a])); rewrite values_args by exact Fa;
        cbv iota; try reflexivity.
      - change (TA b :: map TA l) with (map TA (b :: l)). rewrite values_args by exact Fl. reflexivity.
      - change (values_of strip_all []) with (values_of strip_all (map TA [])). rewrite values_args by exact Fl. reflexivity.
      - change (TA b :: map TA l) with (map TA (b :: l)). rewrite values_args by exact Fl. reflexivity. }
    destruct (defer && headO R && match l with [] => true | _ => false end) eqn:D;
      rewrite (loop_consume _ _ _ _ _ _ _ _ F L C); destruct (headO R) eqn:H; try reflexivity.
    - rewrite andb_false_r in D. discriminate D.
    - rewrite (fin_nil R F H). rewrite loop_nil; [reflexivity|]. lia.
  Qed.
  Lemma loop_A3 fuel n a l R : fin R -> fine (a :: l) -> (List.length (map TA (a :: l) ++ R) < fuel)%nat ->
    loop fuel n [PVerb; PChan; PExtra] (map TA (a :: l) ++ R) =
    match verb_of a with
    | Some v => loop fuel (with_verb n v) [PChan; PExtra] (map TA l ++ R)
    | None => None
    end.
  Proof.
    intros F FL L. pose proof (fine_cons _ _ FL) as [Fa Fl].
    destruct l as [|b l].
    - assert (consume n [PVerb; PChan; PExtra] (map TA [a] ++ R) =
        option_map (fun v => (with_verb n v, [PChan; PExtra], R)) (verb_of a)) as C.
      { unfold consume_positionals, match_args. cbn [List.length match_partial firstn match_pos].
        change (map TA [a] ++ R) with (TA a :: map TA [] ++ R). rewrite !match_one_args by exact F. cbn [map app].
        rewrite !match_one_fin by exact F. cbn [option_map fst snd].
        assert (forall b : bool, (if b then drop_empty [[TA a]] else [[TA a]]) = [[TA a]]) as G by (intros []; reflexivity).
        rewrite G. cbn [List.length skipn n_poss n_pos]. change (values_of strip_all [TA a]) with (values_of strip_all (map TA [a])). rewrite values_args by exact Fa.
        destruct (verb_of a); reflexivity. }
      destruct (verb_of a) as [v|].
      + rewrite (loop_consume _ _ _ _ _ _ _ _ F L C). cbn [map app]. destruct (headO R) eqn:H; [reflexivity|].
        rewrite (fin_nil R F H). destruct fuel as [|fuel]; [lia|]. cbn. unfold consume_positionals, match_args. cbn. rewrite andb_false_r. reflexivity.
      + destruct fuel as [|fuel]; [lia|]. cbn [parse_loop]. rewrite C. cbn [option_map]. cbn [map app].
        match goal with |- context [if ?b then _ else _] => destruct b end; reflexivity.
    - pose proof (fine_cons _ _ Fl) as [Fb Fl'].
      assert (consume n [PVerb; PChan; PExtra] (map TA (a :: b :: l) ++ R) =
        match verb_of a with
        | None => None
        | Some v => Some (if defer && headO R && match l with [] => true | _ => false end
            then (with_chan (with_verb n v) b, [PExtra], R) else (with_extra (with_chan (with_verb n v) b) l, [], R))
        end) as C.
      { unfold consume_positionals, match_args. cbn [List.length match_partial firstn match_pos].
        change (map TA (a :: b :: l) ++ R) with (TA a :: map TA (b :: l) ++ R).
        rewrite !match_one_args by exact F. cbn [map app]. rewrite !match_one_args by exact F.
        rewrite match_run_args by exact F. cbn [option_map fst snd]. change (match R with TO _ _ _ _ :: _ => true | _ => false end) with (headO R).
        change (TA a) with (TA a). 
        destruct (defer && headO R); destruct l as [|c l]; cbn [drop_empty map List.length skipn n_poss n_pos andb];
          change (values_of strip_all [TA a]) with (values_of strip_all (map TA [a])); rewrite values_args by exact Fa;
          cbv iota; (destruct (verb_of a) as [v|]; [|reflexivity]); cbn [option_map n_poss n_pos];
          change (values_of strip_all [TA b]) with (values_of strip_all (map TA [b])); rewrite values_args by exact Fb;
          cbv iota; try reflexivity.
        - change (TA c :: map TA l) with (map TA (c :: l)). cbn [n_poss n_pos]. rewrite values_args by exact Fl'. reflexivity.
        - change (values_of strip_all []) with (values_of strip_all (map TA [])). rewrite values_args by exact Fl'. reflexivity.
        - change (TA c :: map TA l) with (map TA (c :: l)). rewrite values_args by exact Fl'. reflexivity. }
      destruct (verb_of a) as [v|].
      + rewrite loop_A2; [|exact F|exact Fl|cbn [map app List.length] in L |- *; lia].
        destruct (defer && headO R && match l with [] => true | _ => false end) eqn:D;
          rewrite (loop_consume _ _ _ _ _ _ _ _ F L C); destruct (headO R) eqn:H; try reflexivity.
        * rewrite andb_false_r in D. discriminate D.
        * rewrite (fin_nil R F H). rewrite loop_nil; [reflexivity|]. lia.
      + destruct fuel as [|fuel]; [lia|]. cbn [parse_loop]. rewrite C. cbn [map app].
        match goal with |- context [if ?b then _ else _] => destruct b end; reflexivity.
  Qed.
End S.
