(** Lemmas about commands sent as POST requests. *)
From Coq Require Import Ascii Lia ZifyBool ZifyNat.
From Verif Require Import Base BaseLemmas PyStrModel PyStrProofs HttpModel HttpProofs ServeModel ServeProofs EnvModel CmdLineModel CmdLineSpec CmdLineMore PostModel PostSpec.
Open Scope list_scope.
Open Scope Z_scope.

Lemma find_In n l i : find_name n l = Some i -> In (n, i) l.
Proof.
  induction l as [|[m j] l IH]; cbn [find_name]; [discriminate|]. destruct (str_eqb n m) eqn:E.
  - apply str_eqb_eq in E. subst. intros [= ->]. left. reflexivity.
  - intros H. right. apply IH, H.
Qed.
Lemma find_none n l : find_name n l = None -> forall i, ~ In (n, i) l.
Proof.
  induction l as [|[m j] l IH]; cbn [find_name]; intros H i [].
  - injection H0 as -> ->. rewrite str_eqb_refl in H. discriminate.
  - destruct (str_eqb n m); [discriminate|]. apply (IH H i H0).
Qed.
Lemma In_find n l i : NoDup (map fst l) -> In (n, i) l -> find_name n l = Some i.
Proof.
  induction l as [|[m j] l IH]; cbn [map fst find_name]; intros N []; inversion N as [|? ? N1 N2]; subst.
  - injection H as -> ->. rewrite str_eqb_refl. reflexivity.
  - destruct (str_eqb n m) eqn:E.
    + apply str_eqb_eq in E. subst. exfalso. apply N1. apply (in_map fst) in H. exact H.
    + apply IH; assumption.
Qed.
Lemma set_nth_spec {A} (x : A) l : forall i j,
  nth_error (set_nth i x l) j = if Nat.eqb j i then option_map (fun _ => x) (nth_error l j) else nth_error l j.
Proof.
  induction l as [|y l IH]; intros i j.
  - destruct i, j; cbn [set_nth nth_error option_map]; try (destruct (Nat.eqb _ _)); reflexivity.
  - destruct i as [|i], j as [|j]; cbn [set_nth nth_error Nat.eqb option_map]; try reflexivity. apply IH.
Qed.
Lemma set_nth_length {A} (x : A) l : forall i, List.length (set_nth i x l) = List.length l.
Proof. induction l as [|y l IH]; intros [|i]; cbn [set_nth List.length]; auto. Qed.

Section P.
  Context (neg : string -> bool) (space : ascii -> bool) (defer strip_all : bool).
  Context (int_of : string -> option Z) (float_of : string -> option flo)
    (bool_of : string -> option bool) (fround : PrimModel.kind -> flo -> flo).
  Notation command := (command neg space defer strip_all int_of float_of bool_of fround).
  Notation hc := (handle_command neg space defer strip_all int_of float_of bool_of fround).
  Notation serve := (serve_lines neg space defer strip_all int_of float_of bool_of fround).

  Lemma hc_ran w n i ws : sound w -> registered w n i ->
    did (fun h e => command h e (String.concat " " (map text ws))) w i (n :: ws) (hc w (n :: ws)).
  Proof.
    intros [N B] R. unfold did, handle_command. rewrite (In_find _ _ _ N R).
    destruct (nth_error (w_procs w) i) as [p|] eqn:P; [|apply nth_error_None in P; specialize (B _ _ R); lia].
    destruct (command (pr_hooks p) (pr_env p) (String.concat " " (map text ws))) as [[e r] calls] eqn:C.
    exists p, e, r, calls. split; [reflexivity|]. split; [exact C|]. cbn [fst snd]. split; [|split; [|reflexivity]].
    - split; [reflexivity|]. intros j. cbn [w_procs]. rewrite set_nth_spec. destruct (Nat.eqb_spec j i) as [->|Ne]; [|reflexivity].
      rewrite P. reflexivity.
    - destruct r; constructor.
  Qed.
  Lemma hc_refused w args : (forall n ws, args = n :: ws -> ~ known w n) -> refused w args (hc w args).
  Proof.
    intros H. unfold refused, handle_command. destruct args as [|n ws]; [reflexivity|].
    destruct (find_name n (w_names w)) as [i|] eqn:E; [|reflexivity].
    exfalso. apply (H n ws eq_refl). exists i. apply find_In, E.
  Qed.

  Lemma split_three a b c : ~ In 32 a -> ~ In 32 b -> ~ In 32 c -> split_on 32 (a ++ 32 :: b ++ 32 :: c) = [a; b; c].
  Proof. intros A B C. rewrite split_on_app by exact A. rewrite split_on_app by exact B. rewrite split_on_none by exact C. reflexivity. Qed.

  (** A POST request for a path with or without a query. *)
  Lemma serve_post w p q hs : ~ In 63 p -> ~ In 32 p -> query q -> headers_ok hs ->
    serve w ((lit "POST /" ++ p ++ q ++ lit " HTTP/1.1") :: hs) = hc w (parts_of p).
  Proof.
    intros P1 P2 Q [h H]. unfold serve_lines, req_parse.
    replace (lit "POST /" ++ p ++ q ++ lit " HTTP/1.1") with (lit "POST" ++ 32 :: (47 :: p ++ q) ++ 32 :: lit "HTTP/1.1")
      by (cbn [lit app]; rewrite <- app_assoc; reflexivity).
    rewrite split_three; [| cbn; lia | | cbn; lia].
    2:{ intros [E|E]; [lia|]. apply in_app_or in E. destruct E as [E|E]; [apply P2, E|]. destruct Q as [->|[_ Q]]; [destruct E|apply Q, E]. }
    change (method_ok (lit "POST")) with true. cbn [negb]. cbv iota.
    assert (exists f, target_parse (lit "POST") (47 :: p ++ q) = Some f /\ exists qq, f = FOrigin (47 :: p) qq) as (f & F & qq & ->).
    { unfold target_parse. change (str_eqb (lit "POST") (lit "CONNECT")) with false. cbv iota.
      change (str_eqb (47 :: p ++ q) (lit "*")) with false. cbn [starts_with]. change (47 =? 47) with true. cbv iota.
      destruct Q as [->|[[r ->] _]].
      - rewrite app_nil_r. rewrite split_on_none by (intros [E|E]; [lia|apply P1, E]). eauto.
      - change (47 :: p ++ 63 :: r) with ((47 :: p) ++ 63 :: r). rewrite split_on_app by (intros [E|E]; [lia|apply P1, E]).
        destruct (split_on 63 r) as [|x l] eqn:S; [exfalso; revert S; clear; destruct r as [|y r]; cbn [split_on]; [discriminate|]; destruct (y =? 63); [discriminate|]; destruct (split_on 63 r); discriminate|]. eauto. }
    rewrite F. change (lit "HTTP/1.1") with (ver_str (mkVersion 1 1)). rewrite ver_roundtrip, H.
    unfold process_request. cbn [r_method r_form]. change (str_eqb (lit "POST") (lit "GET")) with false. change (str_eqb (lit "POST") (lit "POST")) with true. cbv iota.
    cbn [post_handler]. rewrite parts_slash. reflexivity.
  Qed.

  Lemma join_In x l : In x (join 47 l) -> x = 47 \/ exists p, In p l /\ In x p.
  Proof.
    induction l as [|a l IH]; [intros []|]. destruct l as [|b l].
    - cbn [join]. intros H. right. exists a. split; [left; reflexivity|exact H].
    - change (join 47 (a :: b :: l)) with (a ++ 47 :: join 47 (b :: l)). intros H. apply in_app_or in H. destruct H as [H|[<-|H]].
      + right. exists a. split; [left; reflexivity|exact H].
      + left. reflexivity.
      + destruct (IH H) as [->|(p & P & X)]; [left; reflexivity|]. right. exists p. split; [right; exact P|exact X].
  Qed.
  Lemma join_free c l : c <> 47 -> Forall (fun x => ~ In c x) l -> ~ In c (join 47 l).
  Proof.
    intros Ne F H. apply join_In in H. destruct H as [->|(p & P & X)]; [congruence|]. rewrite Forall_forall in F. apply (F _ P X).
  Qed.
  Lemma parts_join_any l : Forall (fun x => ~ In 47 x) l -> parts_of (join 47 l) = filter meaningful l.
  Proof.
    intros F. destruct l as [|a l]; [reflexivity|]. unfold parts_of, slash. rewrite split_join; [reflexivity|exact F|discriminate].
  Qed.
  Lemma plain_meaningful l : Forall plain l -> filter meaningful l = l.
  Proof.
    induction 1 as [|x l (A & B & _) F IH]; [reflexivity|]. cbn [filter].
    assert (meaningful x = true) as ->.
    { unfold meaningful. destruct (str_eqb x []) eqn:E1; [apply str_eqb_eq in E1; contradiction|]. destruct (str_eqb x (lit ".")) eqn:E2; [apply str_eqb_eq in E2; contradiction|]. reflexivity. }
    f_equal. exact IH.
  Qed.
  Lemma serve_parts w l q hs : Forall (fun x => ~ In 47 x /\ ~ In 63 x /\ ~ In 32 x) l -> query q -> headers_ok hs ->
    serve w (post_line l q :: hs) = hc w (filter meaningful l).
  Proof.
    intros F Q H. unfold post_line. rewrite serve_post; [rewrite parts_join_any; [reflexivity|]| | |exact Q|exact H].
    - eapply Forall_impl; [|exact F]. cbv beta. tauto.
    - apply join_free; [lia|]. eapply Forall_impl; [|exact F]. cbv beta. tauto.
    - apply join_free; [lia|]. eapply Forall_impl; [|exact F]. cbv beta. tauto.
  Qed.
  Lemma serve_plain w l q hs : Forall plain l -> query q -> headers_ok hs -> serve w (post_line l q :: hs) = hc w l.
  Proof.
    intros F Q H. rewrite serve_parts; [rewrite plain_meaningful by exact F; reflexivity| |exact Q|exact H].
    eapply Forall_impl; [|exact F]. unfold plain. cbv beta. tauto.
  Qed.

  (** ** What can be said at all *)
  Lemma text_lit s : text (lit s) = s.
  Proof. induction s as [|c s IH]; [reflexivity|]. cbn [lit text]. rewrite IH, Nat2Z.id, ascii_nat_embedding. reflexivity. Qed.
  Lemma text_In c s : Forall (fun x => 0 <= x < 256) s -> In c (list_ascii_of_string (text s)) -> In (Z.of_nat (nat_of_ascii c)) s.
  Proof.
    induction 1 as [|x s X F IH]; [intros []|]. cbn [text list_ascii_of_string]. intros [<-|H]; [left|right; apply IH, H].
    rewrite nat_ascii_embedding by lia. lia.
  Qed.
  Lemma split_chars s : forall cur w c, In w (split_words space s cur) -> In c (list_ascii_of_string w) ->
    In c (list_ascii_of_string s) \/ In c (list_ascii_of_string cur).
  Proof.
    induction s as [|d s IH]; intros cur w c H C; cbn [split_words] in H.
    - destruct cur; [destruct H|]. destruct H as [<-|[]]. right. exact C.
    - cbn [list_ascii_of_string]. destruct (space d).
      + destruct cur as [|x cur].
        * destruct (IH _ _ _ H C) as [X|[]]. left. right. exact X.
        * destruct H as [<-|H]; [right; exact C|]. destruct (IH _ _ _ H C) as [X|[]]. left. right. exact X.
      + destruct (IH _ _ _ H C) as [X|X]; [left; right; exact X|].
        assert (forall a, list_ascii_of_string (a ++ String d "")%string = list_ascii_of_string a ++ [d]) as LA.
        { induction a as [|y a IHa]; [reflexivity|]. cbn [String.append list_ascii_of_string app]. rewrite IHa. reflexivity. }
        rewrite LA in X. apply in_app_or in X. destruct X as [X|[<-|[]]]; [right; exact X|left; left; reflexivity].
  Qed.
  Lemma concat_chars l c : In c (list_ascii_of_string (String.concat " " l)) -> c = " "%char \/ exists x, In x l /\ In c (list_ascii_of_string x).
  Proof.
    assert (forall a b, list_ascii_of_string (a ++ b)%string = list_ascii_of_string a ++ list_ascii_of_string b) as LA.
    { induction a as [|y a IHa]; intros b; [reflexivity|]. cbn [String.append list_ascii_of_string app]. rewrite IHa. reflexivity. }
    induction l as [|a l IH]; [intros []|]. destruct l as [|b l].
    - cbn [String.concat]. intros H. right. exists a. split; [left; reflexivity|exact H].
    - change (String.concat " " (a :: b :: l)) with (a ++ " " ++ String.concat " " (b :: l))%string. rewrite !LA. intros H.
      apply in_app_or in H. destruct H as [H|H]; [right; exists a; split; [left; reflexivity|exact H]|].
      apply in_app_or in H. destruct H as [[<-|[]]|H]; [left; reflexivity|].
      destruct (IH H) as [->|(x & X & C)]; [left; reflexivity|]. right. exists x. split; [right; exact X|exact C].
  Qed.
  Lemma split_on_free c s x : In x (split_on c s) -> ~ In c x.
  Proof.
    revert x. induction s as [|d s IH]; intros x; cbn [split_on].
    - intros [<-|[]] [].
    - destruct (Z.eqb_spec d c) as [->|Ne].
      + intros [<-|H]; [intros []|apply IH, H].
      + destruct (split_on c s) as [|p ps] eqn:S.
        * intros [<-|[]] [->|[]]. apply Ne. reflexivity.
        * intros [<-|H] C.
          -- destruct C as [->|C]; [apply Ne; reflexivity|]. apply (IH p (or_introl eq_refl) C).
          -- apply (IH x (or_intror H) C).
  Qed.
  Lemma split_on_sub c s x : In x (split_on c s) -> forall d, In d x -> In d s.
  Proof.
    revert x. induction s as [|e s IH]; intros x; cbn [split_on].
    - intros [<-|[]] d [].
    - destruct (e =? c).
      + intros [<-|H] d D; [destruct D|right; apply (IH x H d D)].
      + destruct (split_on c s) as [|p ps] eqn:S.
        * intros [<-|[]] d [->|[]]. left. reflexivity.
        * intros [<-|H] d D; [destruct D as [->|D]; [left; reflexivity|right; apply (IH p (or_introl eq_refl) d D)]|].
          right. apply (IH x (or_intror H) d D).
  Qed.
  Lemma parts_free path x : In x (parts_of path) -> ~ In 47 x /\ (forall d, In d x -> In d path).
  Proof.
    unfold parts_of, slash. intros H. apply filter_In in H. destruct H as [H _]. split; [apply (split_on_free _ _ _ H)|apply (split_on_sub _ _ _ H)].
  Qed.

  Lemma split_on_join c s : s = join c (split_on c s).
  Proof.
    induction s as [|d s IH]; [reflexivity|]. cbn [split_on]. destruct (Z.eqb_spec d c) as [->|Ne].
    - destruct (split_on c s) as [|p ps] eqn:S; [exfalso; revert S; destruct s as [|y s]; cbn [split_on]; [discriminate|]; destruct (y =? c); [discriminate|]; destruct (split_on c s); discriminate|].
      cbn [join app]. rewrite IH at 1. reflexivity.
    - destruct (split_on c s) as [|p ps] eqn:S; [exfalso; revert S; destruct s as [|y s]; cbn [split_on]; [discriminate|]; destruct (y =? c); [discriminate|]; destruct (split_on c s); discriminate|].
      rewrite IH at 1. destruct ps; reflexivity.
  Qed.

  (** Whatever is requested: a refusal, an exception or a command of sayable words. *)
  Lemma serve_cases w lines : sound w -> bytes_only lines ->
    (fst (fst (serve w lines)) = w /\ snd (serve w lines) = []) \/
    exists n i ws args, registered w n i /\ Forall sayable ws /\ Forall (word space) ws /\
      (exists path v hs, lines = (lit "POST /" ++ path ++ 32 :: v) :: hs) /\
      (exists line, words space line = ws /\ did (fun h e => command h e line) w i (n :: args) (serve w lines)).
  Proof.
    intros S B. unfold serve_lines. destruct (req_parse lines) as [r|] eqn:P; [|left; split; reflexivity].
    unfold process_request. destruct (str_eqb (r_method r) (lit "GET")); [left; split; reflexivity|].
    destruct (str_eqb (r_method r) (lit "POST")) eqn:M; [|left; split; reflexivity].
    destruct (r_form r) as [|h p|path q|raw] eqn:F; try (left; split; reflexivity). cbn [post_handler].
    destruct (parts_of path) as [|n args] eqn:PA; [left; split; reflexivity|].
    destruct (find_name n (w_names w)) as [i|] eqn:N.
    2:{ left. unfold handle_command. rewrite N. split; reflexivity. }
    right. exists n, i, (words space (String.concat " " (map text args))), args.
    split; [apply find_In, N|]. split; [|split; [apply words_words|split]].
    2:{ unfold req_parse in P. destruct lines as [|l ls]; [discriminate|].
      destruct (split_on 32 l) as [|m [|t [|v [|]]]] eqn:SL; try discriminate.
      pose proof (split_on_join 32 l) as L. rewrite SL in L. cbn [join] in L.
      destruct (method_ok m); [|discriminate]. destruct (target_parse m t) as [f|] eqn:T; [|discriminate].
      destruct (ver_parse v); [|discriminate]. destruct (hd_parse [] ls); [|discriminate]. injection P as <-. cbn [r_form r_method] in F, M. subst f.
      apply str_eqb_eq in M. subst m. unfold target_parse in T. destruct (str_eqb t (lit "*")); [discriminate|]. change (str_eqb (lit "POST") (lit "CONNECT")) with false in T. cbv iota in T.
      destruct t as [|c t]; [discriminate|]. cbn [starts_with] in T. destruct (Z.eqb_spec c 47) as [->|]; [|discriminate].
      exists t, v, ls. rewrite L. reflexivity. }
    2:{ exists (String.concat " " (map text args)). split; [reflexivity|]. apply hc_ran; [exact S|apply find_In, N]. }
    (* the characters of the path *)
    assert (~ In 63 path /\ Forall (fun c => 0 <= c < 256) path) as [P63 PB].
    { unfold req_parse in P. destruct lines as [|l ls]; [discriminate|]. inversion B as [|? ? Bl _]; subst.
      destruct (split_on 32 l) as [|m [|t [|v [|]]]] eqn:SL; try discriminate.
      assert (Forall (fun c => 0 <= c < 256) t) as Bt.
      { apply Forall_forall. intros c C. rewrite Forall_forall in Bl. apply Bl. apply (split_on_sub 32 l t); [rewrite SL; right; left; reflexivity|exact C]. }
      destruct (method_ok m); [|discriminate]. destruct (target_parse m t) as [f|] eqn:T; [|discriminate].
      destruct (ver_parse v); [|discriminate]. destruct (hd_parse [] ls); [|discriminate]. injection P as <-. cbn [r_form] in F. subst f.
      unfold target_parse in T. destruct (str_eqb t (lit "*")); [discriminate|]. destruct (str_eqb m (lit "CONNECT")).
      - destruct (split_on 58 t) as [|a [|b [|]]]; try discriminate. destruct (py_int b); discriminate.
      - destruct (starts_with 47 t); [|discriminate].
        destruct (split_on 63 t) as [|x xs] eqn:ST; [discriminate|].
        assert (x = path) as -> by (destruct xs; injection T; congruence).
        assert (In path (split_on 63 t)) as IP by (rewrite ST; left; reflexivity).
        split; [apply (split_on_free _ _ _ IP)|]. apply Forall_forall. intros c C. rewrite Forall_forall in Bt. apply Bt, (split_on_sub _ _ _ IP), C. }
    assert (forall c, In c (list_ascii_of_string (String.concat " " (map text args))) -> c <> "/"%char /\ c <> "?"%char) as CH.
    { intros c C. apply concat_chars in C. destruct C as [->|(x & X & C)]; [split; discriminate|].
      apply in_map_iff in X. destruct X as (y & <- & Y).
      assert (In y (parts_of path)) as IY by (rewrite PA; right; exact Y). apply parts_free in IY. destruct IY as [Y1 Y2].
      apply text_In in C; [|apply Forall_forall; intros d D; rewrite Forall_forall in PB; apply PB, Y2, D].
      split; intros ->; [apply Y1, C|apply P63, Y2, C]. }
    apply Forall_forall. intros x X. split; intros C; destruct (split_chars _ _ _ _ X C) as [D|[]]; destruct (CH _ D) as [D1 D2]; congruence.
  Qed.

  (** The words, each behind a tab. *)
  Definition tabbed (ws : list string) : str := List.concat (map (fun x => 9 :: lit x) ws).
  Lemma text_app a b : text (a ++ b) = (text a ++ text b)%string.
  Proof. induction a as [|c a IH]; [reflexivity|]. cbn [app text String.append]. rewrite IH. reflexivity. Qed.
  Lemma words_tabbed ws : space "009" = true -> Forall (word space) ws -> words space (text (tabbed ws)) = ws.
  Proof.
    intros T. unfold words. induction 1 as [|x ws W F IH]; [reflexivity|].
    unfold tabbed. cbn [map List.concat]. change (9 :: lit x) with ([9] ++ lit x). rewrite <- app_assoc, !text_app, text_lit. fold (tabbed ws).
    change (text [9]) with (String "009" ""). cbn [String.append split_words]. rewrite T. rewrite split_word0 by exact W.
    destruct ws as [|y ws].
    - cbn [tabbed map List.concat text split_words]. destruct W as [W _]. destruct x; [contradiction W; reflexivity|reflexivity].
    - unfold tabbed in *. cbn [map List.concat app text] in *. change (ascii_of_nat (Z.to_nat 9)) with "009"%char in *. cbn [split_words] in *. rewrite T in *.
      destruct W as [W _]. destruct x as [|c x]; [contradiction W; reflexivity|]. f_equal. exact IH.
  Qed.
  Lemma lit_In c s : In c (lit s) -> exists a, In a (list_ascii_of_string s) /\ c = Z.of_nat (nat_of_ascii a).
  Proof. induction s as [|d s IH]; [intros []|]. cbn [lit list_ascii_of_string]. intros [<-|H]; [exists d; split; [left|]; reflexivity|]. destruct (IH H) as (a & A & E). exists a. split; [right; exact A|exact E]. Qed.
  Lemma tabbed_free ws c : c <> 9 -> (forall x a, In x ws -> In a (list_ascii_of_string x) -> c <> Z.of_nat (nat_of_ascii a)) -> ~ In c (tabbed ws).
  Proof.
    intros N H I. unfold tabbed in I. apply in_concat in I. destruct I as (y & Y & C). apply in_map_iff in Y. destruct Y as (x & <- & X).
    destruct C as [C|C]; [congruence|]. apply lit_In in C. destruct C as (a & A & E). apply (H x a X A E).
  Qed.
  Lemma nat_char a b : Z.of_nat (nat_of_ascii b) = Z.of_nat (nat_of_ascii a) -> a = b.
  Proof. intros H. apply Nat2Z.inj in H. rewrite <- (ascii_nat_embedding a), <- (ascii_nat_embedding b), H. reflexivity. Qed.

  Lemma serve_say w n i ws : sound w -> registered w n i -> plain n ->
    space " " = true -> space "009" = true -> Forall sayable ws -> Forall (word space) ws ->
    exists line args, words space line = ws /\
      did (fun h e => command h e line) w i (n :: args) (serve w [post_line [n; tabbed ws] []]).
  Proof.
    intros S R (P1 & P2 & P3 & P4 & P5) Sp St F W.
    rewrite Forall_forall in F. rewrite Forall_forall in W.
    assert (serve w [post_line [n; tabbed ws] []] = hc w (filter meaningful [n; tabbed ws])) as ->.
    { apply serve_parts; [|left; reflexivity|exists []; reflexivity]. constructor; [auto|]. constructor; [|constructor].
      repeat split; apply tabbed_free; try lia.
      - intros x a X A E. change 47 with (Z.of_nat (nat_of_ascii "/")) in E. apply nat_char in E. subst. apply (proj1 (F x X) A).
      - intros x a X A E. change 63 with (Z.of_nat (nat_of_ascii "?")) in E. apply nat_char in E. subst. apply (proj2 (F x X) A).
      - intros x a X A E. change 32 with (Z.of_nat (nat_of_ascii " ")) in E. apply nat_char in E. subst. destruct (W x X) as [_ WX]. rewrite (WX _ A) in Sp. discriminate. }
    assert (meaningful n = true) as Mn.
    { unfold meaningful. destruct (str_eqb n []) eqn:E1; [apply str_eqb_eq in E1; contradiction|]. destruct (str_eqb n (lit ".")) eqn:E2; [apply str_eqb_eq in E2; contradiction|]. reflexivity. }
    cbn [filter]. rewrite Mn. destruct ws as [|x ws].
    - cbn [tabbed map List.concat]. change (meaningful []) with false. cbv iota. exists (String.concat " " (map text [])), []. split; [reflexivity|]. apply hc_ran; assumption.
    - assert (meaningful (tabbed (x :: ws)) = true) as -> by (unfold tabbed; cbn [map List.concat app]; reflexivity).
      exists (String.concat " " (map text [tabbed (x :: ws)])), [tabbed (x :: ws)]. split; [|apply hc_ran; assumption].
      cbn [map String.concat]. apply words_tabbed; [exact St|]. apply Forall_forall. exact W.
  Qed.

  (** ** Registering *)
  Lemma serve_names w lines : w_names (fst (fst (serve w lines))) = w_names w /\ List.length (w_procs (fst (fst (serve w lines)))) = List.length (w_procs w).
  Proof.
    unfold serve_lines. destruct (req_parse lines) as [r|]; [|split; reflexivity]. unfold process_request.
    destruct (str_eqb (r_method r) (lit "GET")); [split; reflexivity|]. destruct (str_eqb (r_method r) (lit "POST")); [|split; reflexivity].
    destruct (r_form r); try (split; reflexivity). cbn [post_handler]. unfold handle_command. destruct (parts_of path) as [|n ws]; [split; reflexivity|].
    destruct (find_name n (w_names w)) as [i|]; [|split; reflexivity]. destruct (nth_error (w_procs w) i) as [p|]; [|split; reflexivity].
    destruct (command (pr_hooks p) (pr_env p) (String.concat " " (map text ws))) as [[e r'] calls]. cbn [fst w_names w_procs]. split; [reflexivity|apply set_nth_length].
  Qed.

  Notation step := (step neg space defer strip_all int_of float_of bool_of fround).
  Notation run := (run neg space defer strip_all int_of float_of bool_of fround).
  Lemma step_reg w o n i : o <> Clear -> (registered (step w o) n i <-> registered w n i \/ (o = Register n i /\ ~ known w n)).
  Proof.
    intros NC. unfold registered. destruct o as [m j| |lines]; [|congruence|].
    - cbn [PostModel.step]. unfold register. destruct (find_name m (w_names w)) as [k|] eqn:E; cbn [fst w_names].
      + split; [auto|]. intros [H|[[= -> ->] H]]; [exact H|]. exfalso. apply H. exists k. apply find_In, E.
      + rewrite in_app_iff. cbn [In]. split.
        * intros [H|[[= -> ->]|[]]]; [auto|]. right. split; [reflexivity|]. intros [k K]. apply (find_none _ _ E k K).
        * intros [H|[[= -> ->] H]]; auto.
    - cbn [PostModel.step]. rewrite (proj1 (serve_names w lines)). split; [auto|]. intros [H|[H _]]; [exact H|discriminate].
  Qed.
  Lemma In_first (n : str) os j : In (Register n j) os -> exists k, first_reg os n k.
  Proof.
    induction os as [|o os IH]; [intros []|]. intros H.
    assert ({k | o = Register n k} + {forall k, o <> Register n k}) as [[k ->]|No].
    { destruct o as [m k| |l]; try (right; discriminate). destruct (str_eqb n m) eqn:E.
      - apply str_eqb_eq in E. subst. left. exists k. reflexivity.
      - right. intros k' [= -> _]. rewrite str_eqb_refl in E. discriminate. }
    - exists k, [], os. split; [reflexivity|]. intros j' [].
    - destruct H as [H|H]; [exfalso; apply (No j H)|]. destruct (IH H) as (k & a & b & -> & F). exists k, (o :: a), b. split; [reflexivity|].
      intros j' [E|E]; [apply (No j' E)|apply (F j' E)].
  Qed.
  Lemma first_snoc os o (n : str) i : first_reg (os ++ [o]) n i <-> first_reg os n i \/ (o = Register n i /\ forall j, ~ In (Register n j) os).
  Proof.
    split.
    - intros (a & b & E & F). destruct b as [|x b] using rev_ind.
      + apply app_inj_tail in E. destruct E as [-> ->]. auto.
      + rewrite app_comm_cons, app_assoc in E. apply app_inj_tail in E. destruct E as [-> _]. left. exists a, b. auto.
    - intros [(a & b & -> & F)|[-> F]].
      + exists a, (b ++ [o]). split; [rewrite <- app_assoc; reflexivity|exact F].
      + exists os, []. auto.
  Qed.
  Lemma run_first post : forall w n i, w_names w = [] -> ~ In Clear post -> (registered (run w post) n i <-> first_reg post n i).
  Proof.
    induction post as [|o post IH] using rev_ind; intros w n i E NC.
    - unfold registered. cbn [PostModel.run fold_left]. rewrite E. split; [intros []|]. intros (a & b & X & _). destruct a; discriminate.
    - unfold PostModel.run. rewrite fold_left_app. fold (run w post). cbn [fold_left].
      assert (~ In Clear post) as NP by (intros H; apply NC, in_or_app; auto).
      assert (o <> Clear) as NO by (intros ->; apply NC, in_or_app; right; left; reflexivity).
      rewrite step_reg by exact NO. rewrite first_snoc, (IH w n i E NP).
      assert (~ known (run w post) n <-> forall j, ~ In (Register n j) post) as ->; [|reflexivity]. split.
      + intros H j J. apply H. destruct (In_first _ _ _ J) as [k K]. exists k. apply (IH w n k E NP), K.
      + intros H [j J]. apply (IH w n j E NP) in J. destruct J as (a & b & -> & _). apply (H j). apply in_or_app. right. left. reflexivity.
  Qed.
  Lemma run_reset w pre post n i : w_names w = [] -> (pre = [] \/ exists a, pre = a ++ [Clear]) -> ~ In Clear post ->
    (registered (run w (pre ++ post)) n i <-> first_reg post n i).
  Proof.
    intros E P NC. unfold PostModel.run. rewrite fold_left_app. fold (run w pre). fold (run (run w pre) post). apply run_first; [|exact NC].
    destruct P as [->|[a ->]]; [exact E|]. unfold PostModel.run. rewrite fold_left_app. reflexivity.
  Qed.
  Lemma step_sound w o : sound w -> (forall n i, o = Register n i -> (i < List.length (w_procs w))%nat) ->
    sound (step w o) /\ List.length (w_procs (step w o)) = List.length (w_procs w).
  Proof.
    intros [N B] I. destruct o as [m j| |lines].
    - specialize (I m j eq_refl). cbn [PostModel.step]. unfold register. destruct (find_name m (w_names w)) as [k|] eqn:E; cbn [fst].
      + split; [split; assumption|reflexivity].
      + split; [|reflexivity]. split; cbn [w_names w_procs].
        * rewrite map_app. cbn [map fst]. assert (~ In m (map fst (w_names w))) as NM.
          { intros H. apply in_map_iff in H. destruct H as ([m' k] & <- & K). apply (find_none _ _ E k K). }
          clear - N NM. induction (map fst (w_names w)) as [|x l IH]; cbn [app]; [constructor; [intros []|constructor]|].
          inversion N as [|? ? N1 N2]; subst. constructor.
          -- rewrite in_app_iff. intros [H|[<-|[]]]; [apply N1, H|apply NM; left; reflexivity].
          -- apply IH; [exact N2|]. intros H. apply NM. right. exact H.
        * intros n i R. unfold registered in R. cbn [w_names] in R. apply in_app_or in R. destruct R as [R|[[= <- <-]|[]]]; [apply (B _ _ R)|exact I].
    - cbn [PostModel.step]. split; [|reflexivity]. split; [constructor|]. intros n i [].
    - cbn [PostModel.step]. destruct (serve_names w lines) as [E1 E2]. split; [|exact E2]. split; [rewrite E1; exact N|].
      intros n i R. unfold registered in R. rewrite E1 in R. rewrite E2. apply (B _ _ R).
  Qed.
  Lemma run_sound os : forall w, sound w -> (forall n i, In (Register n i) os -> (i < List.length (w_procs w))%nat) -> sound (run w os).
  Proof.
    induction os as [|o os IH]; intros w S I; [exact S|]. unfold PostModel.run. cbn [fold_left]. fold (run (step w o) os).
    destruct (step_sound w o S) as [S' L]; [intros n i ->; apply (I n i); left; reflexivity|].
    apply IH; [exact S'|]. intros n i H. rewrite L. apply (I n i). right. exact H.
  Qed.
End P.
