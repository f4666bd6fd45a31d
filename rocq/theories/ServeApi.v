(** What a GET request is answered with when it names no file, and which markdown
    file belongs to a name. *)
From Verif Require Import Base BaseLemmas PyStrModel PyStrProofs ServeModel ServeSpec ServeProofs ServeProps.
From Coq Require Import ZifyBool ZifyNat Lia.
Open Scope list_scope.
Open Scope Z_scope.

(** A path with one slash in front. *)
Definition plain_path (p : str) : Prop := exists rest, p = lit "/" ++ rest /\ forall r, rest <> lit "/" ++ r.
(** The answer came out of a file (or is the icon, or the attempt raised). *)
Definition from_file (a : answer) : Prop :=
  match a with Favicon | Served _ _ | Rendered _ _ | Raises => True | _ => False end.
(** Two paths name the same thing. *)
Definition same_thing (p q : str) : Prop := components p = components q.
(** The configured redirects: from, to. *)
Definition with_redirects (sv : server) (table : list (str * str)) : Prop :=
  sv_redirects sv = map (fun e => (path_of (fst e), snd e)) table /\ Forall (fun e => plain_path (fst e)) table.

Lemma components_parts s : components s = parts_of s.
Proof. reflexivity. Qed.
Lemma plain_root p : plain_path p -> root_of p = 1%nat.
Proof.
  intros (rest & -> & H). change (lit "/" ++ rest) with (47 :: rest). destruct rest as [|b rest]; [reflexivity|].
  assert (B : (b =? slash) = false). { destruct (b =? slash) eqn:Q; [|reflexivity]. apply Z.eqb_eq in Q. destruct (H rest). rewrite Q. reflexivity. }
  destruct rest as [|c rest]; cbn [root_of]; change (47 =? slash) with true; cbn iota; rewrite B; reflexivity.
Qed.
Lemma path_eqb_iff a b : path_eqb a b = true <-> a = b.
Proof.
  destruct a as [ra pa], b as [rb pb]. unfold path_eqb. cbn [p_root p_parts]. rewrite andb_true_iff, Nat.eqb_eq.
  assert (L : forall l m : list str, (fix eqb (l m : list str) := match l, m with [], [] => true | x :: l, y :: m => str_eqb x y && eqb l m | _, _ => false end) l m = true <-> l = m).
  { induction l as [|x l IH]; intros [|y m]; try (split; [discriminate|discriminate]); [split; reflexivity|].
    rewrite andb_true_iff, IH. split; [intros [E ->]; apply str_eqb_eq in E; congruence|intros E; injection E as -> ->; split; [apply str_eqb_refl|reflexivity]]. }
  rewrite L. split; [intros [-> ->]; reflexivity|intros E; injection E; auto].
Qed.
Lemma same_path p q : plain_path p -> plain_path q -> (same_thing p q <-> path_of p = path_of q).
Proof.
  intros P Q. unfold same_thing, path_of. rewrite !components_parts, (plain_root p P), (plain_root q Q). split; [intros ->; reflexivity|intros E; injection E; auto].
Qed.
Lemma lookup_first table p : match lookup (path_of p) (map (fun e => (path_of (fst e), snd e)) table) with
  | Some d => exists pre s post, table = pre ++ (s, d) :: post /\ path_of p = path_of s /\ forall e, In e pre -> path_of p <> path_of (fst e)
  | None => forall e, In e table -> path_of p <> path_of (fst e)
  end.
Proof.
  induction table as [|[s d] table IH]; [intros e []|]. cbn [map lookup fst snd]. destruct (path_eqb (path_of p) (path_of s)) eqn:E.
  - apply path_eqb_iff in E. exists [], s, table. split; [reflexivity|]. split; [exact E|]. intros e [].
  - assert (N : path_of p <> path_of s) by (intros X; apply path_eqb_iff in X; congruence). destruct (lookup _ _) as [d'|].
    + destruct IH as (pre & s' & post & -> & E1 & E2). exists ((s, d) :: pre), s', post. split; [reflexivity|]. split; [exact E1|]. intros e [<-|H]; auto.
    + intros e [<-|H]; auto.
Qed.
Lemma tl_components p : plain_path p -> forall x, meaningful x = true -> (In x (tl (split_on slash p)) <-> In x (components p)).
Proof.
  intros (rest & -> & _) x M. change (split_on slash (lit "/" ++ rest)) with ([] :: split_on slash rest). cbn [tl].
  change (components (lit "/" ++ rest)) with (filter meaningful (split_on slash rest)). rewrite filter_In. tauto.
Qed.
Lemma try_file_kind fs encoded paths p : match try_file fs encoded paths p with Some a => from_file a | None => True end.
Proof.
  induction paths as [|d paths IH]; [exact I|]. cbn [try_file].
  destruct (if match p_parts _ with [] => true | _ => false end then None else _) as [[loc c]|]; [exact I|].
  destruct (file_at fs (joinpath d (tl p))) as [[loc c]|]; [destruct (encoded _); exact I|exact IH].
Qed.

Section Answers.
Context (fs : fsys) (encoded : str -> bool).

(** C90.  The first configured redirect from the same path decides, unless there is
    a file. *)
Theorem C90_redirect : forall sv table p pre s d post, with_redirects sv table -> plain_path p ->
  table = pre ++ (s, d) :: post -> same_thing p s -> (forall e, In e pre -> ~ same_thing p (fst e)) ->
  from_file (get_handler fs encoded sv p) \/ get_handler fs encoded sv p = Redirected d.
Proof.
  intros sv table p pre s d post [R F] P T Sm Fi. unfold get_handler. destruct (prefix _ _); [left; exact I|].
  pose proof (try_file_kind fs encoded (sv_paths sv) p) as K. destruct (try_file _ _ _ _) as [a|]; [left; exact K|]. right.
  unfold try_redirect. rewrite R. pose proof (lookup_first table p) as L.
  assert (Q : forall e, In e table -> (same_thing p (fst e) <-> path_of p = path_of (fst e))).
  { intros e He. apply same_path; [exact P|]. rewrite Forall_forall in F. apply F, He. }
  destruct (lookup _ _) as [d'|].
  - destruct L as (pre' & s' & post' & T' & E1 & E2). cbn [option_map]. f_equal.
    assert (X : forall (l1 l1' : list (str * str)) x x' l2 l2', l1 ++ x :: l2 = l1' ++ x' :: l2' ->
      (forall e, In e l1 -> path_of p <> path_of (fst e)) -> (forall e, In e l1' -> path_of p <> path_of (fst e)) ->
      path_of p = path_of (fst x) -> path_of p = path_of (fst x') -> x = x').
    { induction l1 as [|y l1 IH]; intros [|y' l1'] x x' l2 l2' E A A' B B'; cbn [app] in E; injection E as E0 E.
      - exact E0.
      - subst y'. destruct (A' x (or_introl eq_refl) B).
      - subst y. destruct (A x' (or_introl eq_refl) B').
      - apply (IH l1' x x' l2 l2' E); auto; intros e He; [apply A|apply A']; right; exact He. }
    assert (Y : (s, d) = (s', d')). { apply (X pre pre' _ _ post post'); [congruence| | |apply (Q (s, d)); [rewrite T; apply in_elt|exact Sm]|exact E1].
      - intros e He E. apply (Fi e He), Q; [rewrite T; apply in_app_iff; left; exact He|exact E].
      - exact E2. }
    congruence.
  - destruct (L (s, d)); [rewrite T; apply in_elt|]. apply (Q (s, d)); [rewrite T; apply in_elt|exact Sm].
Qed.

(** C90.  With neither file nor redirect: data if "json" is a component, the
    application if there is one of exactly that path or a default one, and otherwise
    the page that says there is nothing. *)
Theorem C90_otherwise : forall sv table p, with_redirects sv table -> plain_path p ->
  (forall e, In e table -> ~ same_thing p (fst e)) ->
  let a := get_handler fs encoded sv p in
  from_file a \/
  (In (lit "json") (components p) /\ exists keys, a = Json keys) \/
  (~ In (lit "json") (components p) /\ (In p (sv_apps sv) \/ sv_default sv = true) /\ a = AppPage p) \/
  (~ In (lit "json") (components p) /\ ~ In p (sv_apps sv) /\ sv_default sv = false /\ a = Redirected (lit "/404.html")).
Proof.
  intros sv table p [R F] P N. unfold get_handler. destruct (prefix _ _); [left; exact I|].
  pose proof (try_file_kind fs encoded (sv_paths sv) p) as K. destruct (try_file _ _ _ _) as [a|]; [left; exact K|]. right.
  unfold try_redirect. rewrite R. pose proof (lookup_first table p) as L. destruct (lookup _ _) as [d'|].
  - exfalso. destruct L as (pre & s & post & T & E & _). assert (In (s, d') table) by (rewrite T; apply in_elt). apply (N _ H). apply same_path; [exact P| |exact E].
    rewrite Forall_forall in F. apply (F _ H).
  - cbn [option_map]. unfold path_has_part. destruct (existsb (str_eqb (lit "json")) (tl (split_on slash p))) eqn:J.
    + left. apply existsb_exists in J. destruct J as (x & J & E). apply str_eqb_eq in E. subst x. split; [apply (tl_components p P); [reflexivity|exact J]|eauto].
    + right. assert (NJ : ~ In (lit "json") (components p)).
      { intros X. apply (tl_components p P) in X; [|reflexivity]. assert (Y : existsb (str_eqb (lit "json")) (tl (split_on slash p)) = true) by (apply existsb_exists; eauto using str_eqb_refl). congruence. }
      destruct (existsb (str_eqb p) (sv_apps sv)) eqn:A; cbn [orb].
      * left. apply existsb_exists in A. destruct A as (x & A & E). apply str_eqb_eq in E. subst x. auto.
      * assert (NA : ~ In p (sv_apps sv)). { intros X. assert (Y : existsb (str_eqb p) (sv_apps sv) = true) by (apply existsb_exists; eauto using str_eqb_refl). congruence. }
        destruct (sv_default sv) eqn:D; [left; auto|right; auto].
Qed.

(** C90.  There is no file for a list of names when no directory has one of that
    name, nor the markdown file that belongs to it. *)
Theorem C90_no_file : forall sv names, Forall resolved (sv_paths sv) -> names <> [] -> Forall is_name names ->
  (forall r, hd [] names <> lit "favicon" ++ r) ->
  (forall d, In d (sv_paths sv) -> (forall x, fs (p_parts d ++ names) <> Some (File x)) /\ (forall x, fs (markdown_of (p_parts d ++ names)) <> Some (File x))) ->
  plain_path (request names) /\ ~ from_file (get_handler fs encoded sv (request names)).
Proof.
  intros sv names R Ne N Fv H. split.
  { exists (join 47 names). split; [reflexivity|]. intros r E. destruct (join_head names Ne N) as (a & s & E' & Ha). rewrite E' in E. injection E as E _. congruence. }
  unfold get_handler.
  assert (X : prefix (lit "/favicon") (request names) = false).
  { change (prefix (lit "/favicon") (request names)) with (prefix (lit "favicon") (join 47 names)).
    destruct names as [|x names]; [congruence|]. cbn [hd] in Fv.
    assert (G : forall a y t, ~ In 47 a -> (forall r, y <> a ++ r) -> prefix a (y ++ t) = true -> (t = [] \/ exists u, t = 47 :: u) -> False).
    { clear. induction a as [|z a IH]; intros y t Na Hy Pf Ht; [apply (Hy y); reflexivity|]. destruct y as [|w y].
      - cbn [app] in Pf. destruct Ht as [->|[u ->]]; [discriminate|]. cbn [prefix] in Pf. apply andb_prop in Pf. destruct Pf as [Q _]. apply Z.eqb_eq in Q. apply Na. left. exact Q.
      - cbn [app prefix] in Pf. apply andb_prop in Pf. destruct Pf as [Q Pf]. apply Z.eqb_eq in Q. subst w. apply (IH y t); auto; [intros K; apply Na; right; exact K|].
        intros r E. apply (Hy r). rewrite E. reflexivity. }
    destruct (prefix (lit "favicon") (join 47 (x :: names))) eqn:Pf; [|reflexivity]. exfalso.
    assert (D : ~ In 47 (lit "favicon")) by (cbn; intuition discriminate).
    destruct names as [|y names].
    - apply (G (lit "favicon") x [] D Fv); [rewrite app_nil_r; exact Pf|left; reflexivity].
    - apply (G (lit "favicon") x (47 :: join 47 (y :: names)) D Fv); [exact Pf|right; eauto]. }
  rewrite X. rewrite <- (app_nil_r (sv_paths sv)), try_file_skip.
  - cbn [try_file]. intros K. destruct (try_redirect _ _) as [a|] eqn:T; [unfold try_redirect in T; destruct (lookup _ _); [injection T as <-; exact K|discriminate]|].
    destruct (path_has_part _ _); [exact K|]. destruct (_ || _); exact K.
  - intros d Hd. destruct (H d Hd) as [H1 H2]. rewrite Forall_forall in R. destruct (R d Hd) as [_ Nd].
    change (tl (request names)) with (join 47 names). rewrite join_names by assumption. rewrite with_suffix_md. split.
    + apply file_at_none; [apply Forall_app; auto|exact H1].
    + apply file_at_none; [apply md_names; [intros K; apply app_eq_nil in K; tauto|apply Forall_app; auto]|exact H2].
Qed.
End Answers.
Print Assumptions C90_redirect.
Print Assumptions C90_otherwise.
Print Assumptions C90_no_file.

Lemma last_dot_none s : ~ In 46 s -> last_dot s = None.
Proof. induction s as [|c s IH]; intros H; [reflexivity|]. cbn [last_dot]. rewrite IH by (intros K; apply H; right; exact K). destruct (c =? 46) eqn:E; [|reflexivity]. destruct H. left. lia. Qed.
Lemma last_dot_app a ext : ~ In 46 ext -> last_dot (a ++ 46 :: ext) = Some (List.length a).
Proof. intros H. induction a as [|c a IH]; cbn [app last_dot List.length]; [rewrite last_dot_none by exact H; reflexivity|rewrite IH; reflexivity]. Qed.

(** C60.  Which markdown file hides a file: the one with the last suffix replaced;
    a name without suffix (no dot, only one in front, or one at the end) gets one. *)
Theorem C60_markdown_name : forall dir base ext name,
  (base <> [] -> ext <> [] -> ~ In 46 ext -> markdown_of (dir ++ [base ++ lit "." ++ ext]) = dir ++ [base ++ lit ".md"]) /\
  (~ In 46 name -> markdown_of (dir ++ [name]) = dir ++ [name ++ lit ".md"] /\
     markdown_of (dir ++ [lit "." ++ name]) = dir ++ [lit "." ++ name ++ lit ".md"]) /\
  markdown_of (dir ++ [base ++ lit "."]) = dir ++ [base ++ lit "..md"].
Proof.
  assert (G : forall dir x, markdown_of (dir ++ [x]) = dir ++ [stem x ++ lit ".md"]) by (intros dir x; unfold markdown_of; rewrite removelast_last, last_last; reflexivity).
  intros dir base ext name. rewrite !G. unfold stem. split; [|split].
  - intros Nb Ne Nd. change (lit "." ++ ext) with (46 :: ext). rewrite last_dot_app by exact Nd. rewrite app_length. cbn [List.length].
    replace (Nat.ltb 0 (List.length base) && Nat.ltb (List.length base) (List.length base + S (List.length ext) - 1)) with true by (destruct base; [congruence|]; destruct ext; [congruence|]; cbn [List.length]; lia).
    rewrite firstn_app, firstn_all, Nat.sub_diag. cbn [firstn]. rewrite app_nil_r. reflexivity.
  - intros Nd. rewrite last_dot_none by exact Nd. split; [reflexivity|]. change (lit "." ++ name) with ([] ++ 46 :: name). rewrite last_dot_app by exact Nd. reflexivity.
  - change (base ++ lit ".") with (base ++ 46 :: []). rewrite last_dot_app by (intros []). rewrite app_length. cbn [List.length].
    replace (Nat.ltb (List.length base) (List.length base + 1 - 1)) with false by lia. rewrite andb_false_r, <- app_assoc. reflexivity.
Qed.
Print Assumptions C60_markdown_name.

(** The small machine of C47_case again. *)
Example C90_case : with_redirects site [(lit "/old", lit "/new")] /\ plain_path (lit "/old/.") /\ same_thing (lit "/old/.") (lit "/old") /\
  get_handler disk gz site (lit "/old/.") = Redirected (lit "/new") /\
  get_handler disk gz site (lit "/x/json/a") = Json [lit "a"] /\ In (lit "json") (components (lit "/x/json/a")) /\
  get_handler disk gz site (lit "/app") = AppPage (lit "/app") /\ get_handler disk gz site (lit "/app/") = Redirected (lit "/404.html").
Proof.
  split; [split; [reflexivity|]|].
  - constructor; [|constructor]. exists (lit "old"). split; [reflexivity|]. intros r. discriminate.
  - split; [exists (lit "old/."); split; [reflexivity|intros r; discriminate]|]. split; [reflexivity|]. vm_compute. repeat split. right. left. reflexivity.
Qed.
