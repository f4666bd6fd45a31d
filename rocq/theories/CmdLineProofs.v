From Coq Require Import Ascii Lia ZifyBool ZifyNat.
From Verif Require Import Base BaseLemmas EnvModel CmdLineModel CmdLineSpec.

Section S.
  Context (neg : string -> bool) (NOK : neg_ok neg).
  Notation classify := (classify neg).
  Notation classify_all := (classify_all neg).
  Notation arg_word := (arg_word neg).
  Notation options := (options neg).
  Notation option_words := (option_words neg).

  Lemma arg_not_sep w : arg_word w -> w <> "--"%string.
  Proof.
    intros [H|[->|H]] E; [eapply H; exact E | discriminate |].
    subst w. destruct (NOK _ H) as (c & r & E & N). injection E as <- <-. apply N. cbn [In]. tauto.
  Qed.

  Lemma short_opt_none c : ~ In c ["h"; "f"; "r"; "e"; "-"]%char -> short_opt c = None.
  Proof.
    intros N. unfold short_opt.
    repeat match goal with |- context [Ascii.eqb ?a ?b] => destruct (Ascii.eqb_spec a b) as [->|?]; [exfalso; apply N; cbn [In]; tauto|] end.
    reflexivity.
  Qed.

  (* the shape of classify *)
  Lemma classify_short c r : c <> "-"%char ->
    classify (String "-" (String c r)) =
    match short_opt c with
    | Some o =>
        match r with
        | EmptyString => TO (Some o) false false None
        | String "=" r' => TO (Some o) false true (Some r')
        | _ => TO (Some o) false false (Some r)
        end
    | None => if neg (String "-" (String c r)) then TA (String "-" (String c r)) else TO None false false None
    end.
  Proof.
    intros N. unfold CmdLineModel.classify.
    destruct c as [[] [] [] [] [] [] [] []]; try reflexivity. exfalso; apply N; reflexivity.
  Qed.
  Lemma classify_long r :
    classify (String "-" (String "-" r)) =
    (let '(a, x) := partition_eq r in
     match long_opt a with
     | Some o => TO (Some o) true (match x with Some _ => true | None => false end) x
     | None => if neg (String "-" (String "-" r)) then TA (String "-" (String "-" r)) else TO None true false None
     end).
  Proof. reflexivity. Qed.
  Lemma classify_other w : (forall r, w <> String "-" r) -> classify w = TA w.
  Proof.
    intros N. destruct w as [|c r]; [reflexivity|].
    assert (c <> "-"%char) as Nc by (intros ->; eapply N; reflexivity).
    unfold CmdLineModel.classify. destruct c as [[] [] [] [] [] [] [] []]; try reflexivity. exfalso; apply Nc; reflexivity.
  Qed.

  Lemma classify_arg w : arg_word w -> classify w = TA w.
  Proof.
    intros [H|[->|H]]; [apply classify_other; exact H | reflexivity |].
    destruct (NOK _ H) as (c & r & -> & N).
    rewrite classify_short by (intros ->; apply N; cbn [In]; tauto).
    rewrite short_opt_none by exact N. rewrite H. reflexivity.
  Qed.
  Lemma classify_TA w s : classify w = TA s -> w = s /\ (w <> "--"%string -> arg_word w).
  Proof.
    destruct w as [|c r].
    - intros E. injection E as <-. split; [reflexivity|]. intros _. left. intros r; discriminate.
    - destruct (Ascii.ascii_dec c "-") as [->|N].
      + destruct r as [|c r].
        * intros E. injection E as <-. split; [reflexivity|]. intros _. right; left; reflexivity.
        * destruct (Ascii.ascii_dec c "-") as [->|N].
          -- rewrite classify_long. destruct (partition_eq r) as [a x]. destruct (long_opt a); [discriminate|].
             destruct (neg _) eqn:G; [|discriminate]. intros E. injection E as <-. split; [reflexivity|]. intros _. right; right; exact G.
          -- rewrite classify_short by exact N. destruct (short_opt c).
             ++ destruct r as [|c' r]; [discriminate|]. destruct c' as [[] [] [] [] [] [] [] []]; discriminate.
             ++ destruct (neg _) eqn:G; [|discriminate]. intros E. injection E as <-. split; [reflexivity|]. intros _. right; right; exact G.
      + rewrite classify_other by (intros r' E; injection E as -> _; apply N; reflexivity).
        intros E. injection E as <-. split; [reflexivity|]. intros _. left. intros r' E. injection E as -> _. apply N; reflexivity.
  Qed.
  Lemma classify_TD w : classify w <> TD.
  Proof.
    destruct w as [|c r]; [discriminate|].
    destruct (Ascii.ascii_dec c "-") as [->|N].
    - destruct r as [|c r]; [discriminate|]. destruct (Ascii.ascii_dec c "-") as [->|N].
      + rewrite classify_long. destruct (partition_eq r) as [a x]. destruct (long_opt a); [discriminate|]. destruct (neg _); discriminate.
      + rewrite classify_short by exact N. destruct (short_opt c); [|destruct (neg _); discriminate].
        destruct r as [|c' r]; [discriminate|]. destruct c' as [[] [] [] [] [] [] [] []]; discriminate.
    - rewrite classify_other by (intros r' E; injection E as -> _; apply N; reflexivity). discriminate.
  Qed.

  Lemma classify_all_cons w r : w <> "--"%string -> classify_all (w :: r) = classify w :: classify_all r.
  Proof. intros N. cbn [CmdLineModel.classify_all]. destruct (String.eqb_spec w "--"); [contradiction|reflexivity]. Qed.
  Lemma classify_all_args l r : Forall arg_word l -> classify_all (l ++ r) = map TA l ++ classify_all r.
  Proof.
    induction 1 as [|w l W H IH]; [reflexivity|]. cbn [app map].
    rewrite classify_all_cons by (apply arg_not_sep; exact W). rewrite IH, classify_arg by exact W. reflexivity.
  Qed.
  Lemma classify_all_length ws : List.length (classify_all ws) = List.length ws.
  Proof.
    induction ws as [|w r IH]; [reflexivity|]. cbn [CmdLineModel.classify_all].
    destruct (String.eqb w "--"); cbn [List.length]; [rewrite map_length|rewrite IH]; reflexivity.
  Qed.

  (* abbreviations *)
  Definition o_setting (o : oname) : setting := flag o.
  Lemma prefix_iff p n : String.prefix p n = true <-> exists q, n = (p ++ q)%string.
  Proof.
    revert n. induction p as [|c p IH]; intros n; cbn [String.prefix String.append].
    - split; [intros _; exists n; reflexivity | intros _; destruct n; reflexivity].
    - destruct n as [|d n]; [split; [discriminate | intros (q & E); discriminate]|]. cbn [String.prefix].
      destruct (ascii_dec c d) as [->|N].
      + rewrite IH. split; intros (q & E); exists q; [rewrite E; reflexivity | injection E as ->; reflexivity].
      + split; [discriminate|]. intros (q & E). injection E as -> _. exfalso; apply N; reflexivity.
  Qed.
  Lemma prefix_cons c p d n : String.prefix (String c p) (String d n) = if Ascii.eqb c d then String.prefix p n else false.
  Proof. cbn [String.prefix]. destruct (ascii_dec c d) as [->|N]; [rewrite Ascii.eqb_refl; reflexivity|]. destruct (Ascii.eqb_spec c d); [contradiction|reflexivity]. Qed.
  Lemma long_opt_iff p o : long_opt p = Some o <-> abbreviates p (name (flag o)).
  Proof.
    unfold abbreviates. rewrite <- prefix_iff. unfold long_opt, long_opts. cbn [filter fst].
    destruct p as [|c p]; [split; [discriminate | intros [E _]; contradiction E; reflexivity]|].
    assert (forall t, String.prefix (String c p) t = match t with EmptyString => false | String d n => if Ascii.eqb c d then String.prefix p n else false end) as PC.
    { intros [|d n]; [reflexivity | apply prefix_cons]. }
    rewrite !PC.
    destruct (Ascii.eqb_spec c "h") as [->|N1]; [|destruct (Ascii.eqb_spec c "f") as [->|N2]; [|destruct (Ascii.eqb_spec c "r") as [->|N3]; [|destruct (Ascii.eqb_spec c "e") as [->|N4]]]];
      repeat match goal with |- context [Ascii.eqb ?a ?b] => change (Ascii.eqb a b) with false end; cbv beta iota;
      destruct o; cbn [flag name]; cbv beta iota;
      repeat match goal with |- context [Ascii.eqb ?a ?b] => first [change (Ascii.eqb a b) with false | change (Ascii.eqb a b) with true | destruct (Ascii.eqb_spec a b); [congruence|]] end; cbv beta iota;
      try match goal with |- context [String.prefix p ?t] => destruct (String.prefix p t) end;
      split; try discriminate; try (intros [_ H]; discriminate H); try (intros _; split; [discriminate|reflexivity]); try (intros _; reflexivity).
  Qed.
  Lemma partition_none s a : partition_eq s = (a, None) -> s = a.
  Proof.
    revert a. induction s as [|c s IH]; intros a; cbn [partition_eq]; [congruence|].
    destruct (Ascii.eqb c "="); [discriminate|]. destruct (partition_eq s) as [b x]. intros E. injection E as <- ->.
    rewrite (IH b eq_refl). reflexivity.
  Qed.
  Lemma partition_some s a x : partition_eq s = (a, Some x) -> s = (a ++ "=" ++ x)%string.
  Proof.
    revert a. induction s as [|c s IH]; intros a; cbn [partition_eq]; [discriminate|].
    destruct (Ascii.eqb_spec c "=") as [->|N].
    - intros E. injection E as <- <-. reflexivity.
    - destruct (partition_eq s) as [b y]. intros E. injection E as <- ->. cbn [String.append]. rewrite (IH b eq_refl). reflexivity.
  Qed.
  Fixpoint no_eq (s : string) : bool := match s with EmptyString => true | String c r => negb (Ascii.eqb c "=") && no_eq r end.
  Lemma partition_no_eq s : no_eq s = true -> partition_eq s = (s, None).
  Proof.
    induction s as [|c s IH]; cbn [no_eq partition_eq]; [reflexivity|]. destruct (Ascii.eqb c "="); [discriminate|]. intros H. rewrite IH by exact H. reflexivity.
  Qed.
  Lemma partition_eq_app s x : no_eq s = true -> partition_eq (s ++ String "=" x)%string = (s, Some x).
  Proof.
    induction s as [|c s IH]; cbn [no_eq partition_eq String.append]; [reflexivity|]. destruct (Ascii.eqb c "="); [discriminate|]. intros H. rewrite IH by exact H. reflexivity.
  Qed.
  Lemma no_eq_app a b : no_eq (a ++ b)%string = no_eq a && no_eq b.
  Proof. induction a as [|c a IH]; cbn [no_eq String.append]; [reflexivity|]. rewrite IH, andb_assoc. reflexivity. Qed.
  Lemma abbrev_no_eq p s : abbreviates p (name s) -> no_eq p = true.
  Proof.
    intros [_ (q & E)]. assert (no_eq (name s) = true) as H by (destruct s; reflexivity).
    rewrite E, no_eq_app in H. apply andb_true_iff in H. tauto.
  Qed.

  (* the letters of a one-dash word *)
  Definition chain (o : oname) (r : string) (rest : list tok) : option (list setting * list tok) :=
    match r with
    | EmptyString => opt_plain o rest
    | String c r' => if Ascii.eqb c "=" then opt_short o true r' rest else opt_short o false r rest
    end.
  Lemma match_eq {T} c (x y : T) :
    match c with "="%char => x | _ => y end = if Ascii.eqb c "=" then x else y.
  Proof. destruct c as [[] [] [] [] [] [] [] []]; reflexivity. Qed.
  Lemma classify_chain c o r : short_opt c = Some o ->
    exists sep x, classify (String "-" (String c r)) = TO (Some o) false sep x /\
      forall rest, consume_optional (Some o) false sep x rest = chain o r rest.
  Proof.
    intros E. assert (c <> "-"%char) as N by (intros ->; discriminate E).
    rewrite classify_short by exact N. rewrite E. destruct r as [|d r].
    - eexists _, _. split; [reflexivity|]. reflexivity.
    - rewrite match_eq. unfold chain. destruct (Ascii.eqb d "=");
        eexists _, _; (split; [reflexivity|]); reflexivity.
  Qed.
  Lemma opt_short_step o c r rest : o <> OEnv -> 
    opt_short o false (String c r) rest =
    match short_opt c with
    | None => None
    | Some o' => option_map (fun sr => (flag o :: fst sr, snd sr)) (chain o' r rest)
    end.
  Proof.
    intros N. destruct o; try contradiction; cbn [opt_short orb];
      (destruct (Ascii.eqb_spec c "-") as [->|]; [reflexivity|]; destruct (short_opt c); [|reflexivity]; unfold chain;
       destruct r as [|d r]; [reflexivity|]; rewrite match_eq; destruct (Ascii.eqb d "="); reflexivity).
  Qed.
  Lemma opt_short_sep o x rest : o <> OEnv -> opt_short o true x rest = None.
  Proof. intros N. destruct o; try contradiction; destruct x; reflexivity. Qed.
  Lemma chain_step o c r rest : o <> OEnv ->
    chain o (String c r) rest =
    match short_opt c with
    | None => None
    | Some o' => option_map (fun sr => (flag o :: fst sr, snd sr)) (chain o' r rest)
    end.
  Proof.
    intros N. unfold chain at 1. destruct (Ascii.eqb_spec c "=") as [->|].
    - rewrite opt_short_sep by exact N. reflexivity.
    - apply opt_short_step. exact N.
  Qed.

  Definition letter1 (s : setting) : ascii := match s with SHelp => "h" | SForce => "f" | SRemote => "r" | SEnv _ => "e" end.
  Definition oname_of (s : setting) : oname := match s with SHelp => OHelp | SForce => OForce | SRemote => ORemote | SEnv _ => OEnv end.
  Lemma append_nil_r a : (a ++ "")%string = a.
  Proof. induction a as [|c a IH]; [reflexivity|]. cbn [String.append]. rewrite IH. reflexivity. Qed.
  Lemma concat_empty l : String.concat "" l = fold_right String.append ""%string l.
  Proof.
    induction l as [|a l IH]; [reflexivity|]. cbn [String.concat fold_right]. destruct l as [|b l].
    - cbn [fold_right]. rewrite append_nil_r. reflexivity.
    - rewrite IH. reflexivity.
  Qed.
  Lemma letters_cons s ss : letters (s :: ss) = String (letter1 s) (letters ss).
  Proof. unfold letters. rewrite !concat_empty. cbn [map fold_right]. destruct s; reflexivity. Qed.
  Lemma letters_nil : letters [] = ""%string.
  Proof. reflexivity. Qed.
  Lemma short_letter s : short_opt (letter1 s) = Some (oname_of s).
  Proof. destruct s; reflexivity. Qed.
  Lemma flag_oname s : is_flag s -> flag (oname_of s) = s.
  Proof. destruct s; [reflexivity..|contradiction]. Qed.
  Lemma flag_not_env s : is_flag s -> oname_of s <> OEnv.
  Proof. destruct s; try discriminate. contradiction. Qed.
  Lemma short_opt_flag c o : short_opt c = Some o -> o <> OEnv -> exists s, is_flag s /\ c = letter1 s /\ o = oname_of s /\ flag o = s.
  Proof.
    unfold short_opt.
    destruct (Ascii.eqb_spec c "h") as [->|]; [intros E _; injection E as <-; exists SHelp; cbn; tauto|].
    destruct (Ascii.eqb_spec c "f") as [->|]; [intros E _; injection E as <-; exists SForce; cbn; tauto|].
    destruct (Ascii.eqb_spec c "r") as [->|]; [intros E _; injection E as <-; exists SRemote; cbn; tauto|].
    destruct (Ascii.eqb_spec c "e") as [->|]; [intros E N; injection E as <-; contradiction|discriminate].
  Qed.
  Lemma short_opt_env c : short_opt c = Some OEnv -> c = "e"%char.
  Proof.
    unfold short_opt.
    destruct (Ascii.eqb_spec c "h") as [->|]; [discriminate|].
    destruct (Ascii.eqb_spec c "f") as [->|]; [discriminate|].
    destruct (Ascii.eqb_spec c "r") as [->|]; [discriminate|].
    destruct (Ascii.eqb_spec c "e") as [->|]; [reflexivity|discriminate].
  Qed.

  Lemma chain_flags ss : forall s rest, is_flag s -> Forall is_flag ss ->
    chain (oname_of s) (letters ss) rest = Some (s :: ss, rest).
  Proof.
    induction ss as [|a ss IH]; intros s rest F H.
    - destruct s; [reflexivity..|contradiction].
    - inversion H as [|x y Fa H']; subst. rewrite letters_cons, chain_step, short_letter by (apply flag_not_env; exact F).
      rewrite IH by assumption. cbn [option_map fst snd]. rewrite flag_oname by exact F. reflexivity.
  Qed.
  Lemma chain_env ss : forall s t rest, is_flag s -> Forall is_flag ss ->
    chain (oname_of s) (letters ss ++ String "e" t)%string rest =
    option_map (fun sr => (s :: ss ++ fst sr, snd sr)) (chain OEnv t rest).
  Proof.
    induction ss as [|a ss IH]; intros s t rest F H.
    - rewrite letters_nil. cbn [String.append]. rewrite chain_step by (apply flag_not_env; exact F).
      change (short_opt "e") with (Some OEnv). cbv iota. rewrite flag_oname by exact F. destruct (chain OEnv t rest) as [[]|]; reflexivity.
    - inversion H as [|x y Fa H']; subst. rewrite letters_cons. cbn [String.append].
      rewrite chain_step, short_letter by (apply flag_not_env; exact F).
      rewrite IH by assumption. destruct (chain OEnv t rest) as [[]|]; cbn [option_map fst snd]; [|reflexivity]. rewrite flag_oname by exact F. reflexivity.
  Qed.

  (* all options are understood *)
  Definition starts (ws : list string) (ss : list setting) (r : list string) : Prop :=
    exists o l sep x ts, classify_all (ws ++ r) = TO (Some o) l sep x :: ts /\
      consume_optional (Some o) l sep x ts = Some (ss, classify_all r).
  Lemma starts_short c o t vs ss r : short_opt c = Some o ->
    (chain o t (classify_all (vs ++ r)) = Some (ss, classify_all r)) ->
    starts (String "-" (String c t) :: vs) ss r.
  Proof.
    intros E H. destruct (classify_chain c o t E) as (sep & x & C1 & C2).
    exists o, false, sep, x, (classify_all (vs ++ r)). split.
    - cbn [app]. rewrite classify_all_cons, C1; [reflexivity|]. intros X. injection X as -> _. discriminate E.
    - rewrite C2. exact H.
  Qed.
  Lemma starts_env_words ss v vs t r : Forall is_flag ss ->
    chain OEnv t (classify_all (vs ++ r)) = Some ([SEnv v], classify_all r) ->
    starts (("-" ++ letters ss ++ String "e" t)%string :: vs) (ss ++ [SEnv v]) r.
  Proof.
    intros F H. destruct ss as [|s ss].
    - rewrite letters_nil. cbn [String.append app]. eapply starts_short; [reflexivity|]. exact H.
    - inversion F as [|a b Fs F']; subst. rewrite letters_cons. cbn [String.append app].
      eapply starts_short; [apply short_letter|]. rewrite chain_env by assumption. rewrite H. reflexivity.
  Qed.
  Lemma classify_all_arg v r : arg_word v -> classify_all (v :: r) = TA v :: classify_all r.
  Proof. intros W. apply (classify_all_args [v] r). constructor; [exact W|constructor]. Qed.
  Lemma option_complete ws ss r : option_words ws ss -> starts ws ss r.
  Proof.
    intros H. destruct H as [ss N F|ss v F W|ss v F N1 N2|ss v F|s p F A|p v A W|p v A].
    - destruct ss as [|s ss]; [contradiction N; reflexivity|]. inversion F as [|a b Fs F']; subst.
      rewrite letters_cons. cbn [String.append]. eapply starts_short; [apply short_letter|]. apply chain_flags; assumption.
    - apply (starts_env_words ss v [v] ""); [exact F|]. cbn [app chain]. rewrite classify_all_arg by exact W. reflexivity.
    - apply (starts_env_words ss v [] v); [exact F|]. destruct v as [|c v]; [contradiction N1; reflexivity|].
      cbn [app chain]. destruct (Ascii.eqb_spec c "=") as [->|]; [exfalso; eapply N2; reflexivity|]. reflexivity.
    - apply (starts_env_words ss v [] (String "=" v)); [exact F|]. destruct v; reflexivity.
    - assert (long_opt p = Some (oname_of s)) as L by (apply long_opt_iff; rewrite flag_oname by exact F; exact A).
      exists (oname_of s), true, false, None, (classify_all r). split.
      + cbn [app String.append]. rewrite classify_all_cons.
        * rewrite classify_long. rewrite (partition_no_eq p (abbrev_no_eq p s A)). rewrite L. reflexivity.
        * intros X. injection X as ->. destruct A as [A _]. apply A; reflexivity.
      + destruct s; [reflexivity..|contradiction].
    - assert (long_opt p = Some OEnv) as L by (apply long_opt_iff; exact A).
      exists OEnv, true, false, None, (TA v :: classify_all r). split.
      + cbn [app String.append]. rewrite classify_all_cons.
        * rewrite classify_long. rewrite (partition_no_eq p (abbrev_no_eq p (SEnv "") A)). rewrite L, classify_all_arg by exact W. reflexivity.
        * intros X. injection X as ->. destruct A as [A _]. apply A; reflexivity.
      + reflexivity.
    - assert (long_opt p = Some OEnv) as L by (apply long_opt_iff; exact A).
      exists OEnv, true, true, (Some v), (classify_all r). split.
      + cbn [app String.append]. rewrite classify_all_cons.
        * rewrite classify_long. rewrite (partition_eq_app p v (abbrev_no_eq p (SEnv "") A)). rewrite L. reflexivity.
        * intros X. destruct p; discriminate X.
      + reflexivity.
  Qed.

  (* nothing else is *)
  Lemma chain_inv : forall n r c o rest ss rest', (String.length r < n)%nat -> short_opt c = Some o ->
    chain o r rest = Some (ss, rest') ->
    (ss <> [] /\ Forall is_flag ss /\ String c r = letters ss /\ rest' = rest) \/
    (exists fs v t, Forall is_flag fs /\ ss = fs ++ [SEnv v] /\ String c r = (letters fs ++ String "e" t)%string /\
       ((t = ""%string /\ rest = TA v :: rest') \/ (rest' = rest /\ t = String "=" v) \/
        (rest' = rest /\ t = v /\ v <> ""%string /\ forall q, v <> String "=" q))).
  Proof.
    induction n as [|n IH]; intros r c o rest ss rest' L E H; [lia|].
    destruct o.
    4: { right. exists []. rewrite letters_nil. cbn [app String.append]. rewrite (short_opt_env c E).
      unfold chain in H. destruct r as [|d r].
      - cbn [opt_plain] in H. destruct rest as [|[v| |] rest]; try discriminate H. injection H as <- <-.
        exists v, ""%string. split; [constructor|]. split; [reflexivity|]. split; [reflexivity|]. left; split; reflexivity.
      - destruct (Ascii.eqb_spec d "=") as [->|N].
        + cbn [opt_short] in H. destruct r; injection H as <- <-; eexists _, _; (split; [constructor|]); (split; [reflexivity|]); (split; [reflexivity|]); right; left; split; reflexivity.
        + cbn [opt_short] in H. injection H as <- <-. exists (String d r), (String d r).
          split; [constructor|]. split; [reflexivity|]. split; [reflexivity|]. right; right.
          split; [reflexivity|]. split; [reflexivity|]. split; [discriminate|]. intros q X. injection X as -> _. apply N; reflexivity. }
    all: destruct (short_opt_flag c _ E ltac:(discriminate)) as (s & Fs & Ec & Eo & Ef); rewrite Ec.
    all: destruct r as [|d r];
      [ cbn [chain opt_plain] in H; injection H as <- <-; left; split; [discriminate|];
        split; [constructor; [exact I|constructor]|]; split; [|reflexivity]; rewrite letters_cons; 
        destruct s; try discriminate Eo; reflexivity |].
    all: rewrite chain_step in H by discriminate; destruct (short_opt d) as [o'|] eqn:D; [|discriminate H].
    all: destruct (chain o' r rest) as [[ss2 r2]|] eqn:C; [|discriminate H]; cbn [option_map fst snd] in H;
      rewrite Ef in H; injection H as <- <-.
    all: cbn [String.length] in L; destruct (IH r d o' rest ss2 r2 ltac:(lia) D C) as [(A & B & G & K)|(fs & v & t & A & B & G & K)];
      [ left; split; [discriminate|]; split; [constructor; assumption|]; split; [rewrite letters_cons, <- G; reflexivity | exact K]
      | right; exists (s :: fs), v, t; split; [constructor; assumption|]; split; [rewrite B; reflexivity|];
        split; [rewrite letters_cons; cbn [String.append]; rewrite <- G; reflexivity | exact K]].
  Qed.
  Lemma classify_all_TA_inv r v ts : classify_all r = TA v :: ts ->
    exists r', r = v :: r' /\ arg_word v /\ ts = classify_all r'.
  Proof.
    destruct r as [|w r]; [discriminate|]. cbn [CmdLineModel.classify_all]. destruct (String.eqb_spec w "--") as [->|N]; [discriminate|].
    intros E. injection E as E <-. destruct (classify_TA w v E) as [<- A]. exists r. split; [reflexivity|]. split; [apply A; exact N|reflexivity].
  Qed.
  Lemma classify_TO_inv w o l sep x : w <> "--"%string -> classify w = TO (Some o) l sep x ->
    (exists c r, w = String "-" (String c r) /\ short_opt c = Some o /\ l = false) \/
    (exists a, l = true /\ abbreviates a (name (flag o)) /\
       ((x = None /\ w = ("--" ++ a)%string) \/ (exists y, x = Some y /\ w = ("--" ++ a ++ "=" ++ y)%string))).
  Proof.
    intros NS E. destruct w as [|c w]; [discriminate|].
    destruct (Ascii.ascii_dec c "-") as [->|N].
    2:{ rewrite classify_other in E by (intros r X; injection X as -> _; apply N; reflexivity). discriminate. }
    destruct w as [|c w]; [discriminate|]. destruct (Ascii.ascii_dec c "-") as [->|N].
    - right. rewrite classify_long in E. destruct (partition_eq w) as [a y] eqn:P.
      destruct (long_opt a) as [o'|] eqn:G; [|destruct (neg _); discriminate]. injection E as -> <- <- <-.
      exists a. split; [reflexivity|]. split; [apply long_opt_iff; exact G|].
      destruct y as [y|].
      + right. exists y. split; [reflexivity|]. rewrite (partition_some _ _ _ P). reflexivity.
      + left. split; [reflexivity|]. rewrite (partition_none _ _ P). reflexivity.
    - left. exists c, w. split; [reflexivity|]. rewrite classify_short in E by exact N.
      destruct (short_opt c) as [o'|]; [|destruct (neg _); discriminate].
      destruct w as [|d w]; [injection E as -> <- _ _; tauto|]. rewrite match_eq in E.
      destruct (Ascii.eqb d "="); injection E as -> <- _ _; tauto.
  Qed.
  Lemma option_sound w r o l sep x ts ss ts' :
    classify_all (w :: r) = TO o l sep x :: ts -> consume_optional o l sep x ts = Some (ss, ts') ->
    exists vs r', r = vs ++ r' /\ option_words (w :: vs) ss /\ ts' = classify_all r'.
  Proof.
    cbn [CmdLineModel.classify_all]. destruct (String.eqb_spec w "--") as [->|N]; [discriminate|].
    intros E H. injection E as E <-. destruct o as [o|]; [|discriminate H].
    destruct (classify_TO_inv w o l sep x N E) as [(c & t & -> & S & ->)|(a & -> & A & K)].
    - destruct (classify_chain c o t S) as (sep' & x' & C1 & C2). rewrite E in C1. injection C1 as <- <-.
      rewrite C2 in H. destruct (chain_inv (Datatypes.S (String.length t)) t c o _ _ _ ltac:(lia) S H) as [(B1 & B2 & B3 & ->)|(fs & v & u & B1 & -> & B3 & K)].
      + exists [], r. split; [reflexivity|]. split; [|reflexivity]. rewrite B3. apply (ow_flags neg ss B1 B2).
      + rewrite B3. destruct K as [[-> K]|[[-> ->]|(-> & <- & K1 & K2)]].
        * destruct (classify_all_TA_inv _ _ _ K) as (r' & -> & W & ->). exists [v], r'. split; [reflexivity|].
          split; [|reflexivity]. apply (ow_env neg fs v B1 W).
        * exists [], r. split; [reflexivity|]. split; [|reflexivity]. apply (ow_env_equals neg fs v B1).
        * exists [], r. split; [reflexivity|]. split; [|reflexivity]. apply (ow_env_joined neg fs u B1 K1 K2).
    - destruct K as [[-> ->]|(y & -> & ->)].
      + cbn [consume_optional] in H. destruct o; cbn [opt_plain] in H;
          try (injection H as <- <-; exists [], r; split; [reflexivity|]; split; [|reflexivity]; apply ow_long; [exact I|exact A]).
        destruct (classify_all r) as [|[v| |] ts2] eqn:K; try discriminate H. injection H as <- <-.
        destruct (classify_all_TA_inv _ _ _ K) as (r' & -> & W & ->). exists [v], r'. split; [reflexivity|].
        split; [|reflexivity]. apply ow_long_env; [exact A|exact W].
      + cbn [consume_optional] in H. destruct o; try discriminate H. injection H as <- <-. exists [], r. split; [reflexivity|]. split; [|reflexivity].
        apply ow_long_env_equals. exact A.
  Qed.
End S.
