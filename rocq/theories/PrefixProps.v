(** C102: prefixes of web applications. *)
From Verif Require Import Base BaseLemmas PyStrModel PyStrProofs HttpProofs ServeModel ServeSpec ServeProofs ServeProps ServeApi SrvCmdModel SrvCmdProps SetupModel SetupSpec SetupProps PrefixModel PrefixSpec.
From Coq Require Import ZifyBool ZifyNat Lia.
Open Scope list_scope.

Lemma slash_address p : (if prefix (lit "/") p then p else lit "/" ++ p) = address_of p.
Proof. unfold address_of. destruct p as [|x p]; [reflexivity|]. change (lit "/") with [47]. cbn [prefix app]. destruct (Z.eqb_spec x 47) as [->|N].
  - reflexivity.
  - destruct (Z.eqb_spec 47 x) as [E|_]; [congruence|]. cbn [andb]. destruct x as [|q|q]; try reflexivity. do 6 (destruct q; try reflexivity). exfalso. apply N. reflexivity.
Qed.
Lemma ends_iff p : ends_slash p = true <-> exists q, p = q ++ lit "/".
Proof.
  unfold ends_slash. change (lit "/") with [47]. split.
  - destruct (rev p) as [|x l] eqn:E; [discriminate|]. intros H. exists (rev l). rewrite <- (rev_involutive p), E. cbn [rev]. f_equal. f_equal.
    destruct x as [|q|q]; try discriminate. do 6 (destruct q; try discriminate). reflexivity.
  - intros (q & ->). rewrite rev_app_distr. reflexivity.
Qed.
Lemma usable_iff p : ends_slash (address_of p) = false <-> usable p.
Proof.
  assert (A : address_of p = p \/ address_of p = 47 :: p) by (unfold address_of; destruct p as [|[|q|q] p]; auto; do 6 (destruct q; auto)).
  assert (E0 : p = [] -> address_of p = [47]) by (intros ->; reflexivity).
  split.
  - intros H. split; [intros E; rewrite (E0 E) in H; discriminate H|]. intros q E. assert (X : ends_slash (address_of p) = true); [|congruence]. apply ends_iff.
    destruct A as [->| ->]; [exists q; exact E|exists (47 :: q); rewrite E; reflexivity].
  - intros (N & U). destruct (ends_slash (address_of p)) eqn:H; [|reflexivity]. exfalso. apply ends_iff in H. destruct H as (q & H). destruct A as [A|A].
    + apply (U q). congruence.
    + rewrite A in H. destruct q as [|x q]; [|injection H as _ H; apply (U q H)]. change (lit "/") with [47] in H. injection H as H. contradiction.
Qed.
Lemma setdefault_get k v d k' : dget k' (setdefault k v d) = dget k' (d ++ [(k, v)]).
Proof.
  assert (A : forall (d : list (str * str)) x, dget k' (d ++ x) = match dget k' d with Some y => Some y | None => dget k' x end).
  { induction d0 as [|[a b] d0 IH]; intros x; [reflexivity|]. cbn [app dget]. destruct (eq_dec k' a); [reflexivity|apply IH]. }
  rewrite A. unfold setdefault, dmem. cbn [dget]. destruct (dget k d) as [y|] eqn:E.
  - destruct (dget k' d) eqn:E'; [reflexivity|]. destruct (eq_dec k' k) as [->|]; [congruence|reflexivity].
  - destruct (eq_dec k' k) as [->|N]; [rewrite dget_dset_eq, E; reflexivity|]. rewrite dget_dset_ne by exact N. destruct (dget k' d); reflexivity.
Qed.
Lemma dget_app (d x : list (str * str)) k : dget k (d ++ x) = match dget k d with Some y => Some y | None => dget k x end.
Proof. induction d as [|[a b] d IH]; [reflexivity|]. cbn [app dget]. destruct (eq_dec k a); [reflexivity|apply IH]. Qed.
Lemma setdefault_keys k v d : NoDup (dkeys d) -> NoDup (dkeys (setdefault k v d)).
Proof. intros N. unfold setdefault. destruct (dmem k d); [exact N|apply NoDup_dset; exact N]. Qed.
Lemma setdefault_more k v d : exists new, setdefault k v d = d ++ new.
Proof.
  unfold setdefault, dmem. destruct (dget k d) eqn:E; [exists []; rewrite app_nil_r; reflexivity|]. exists [(k, v)]. revert E. induction d as [|[a b] d IH]; [reflexivity|]. cbn [dget dset app]. destruct (eq_dec k a); [discriminate|]. intros E. rewrite (IH E). reflexivity.
Qed.
Lemma NoDup_snoc (a : list str) x : NoDup (a ++ [x]) <-> NoDup a /\ ~ In x a.
Proof.
  split.
  - intros N. pose proof (NoDup_remove a [] x N) as R. rewrite app_nil_r in R. exact R.
  - intros (N & I). induction a as [|y a IH]; cbn [app]; [constructor; [intros []|constructor]|]. inversion N; subst. constructor.
    + rewrite in_app_iff. cbn [In]. intros [X|[->|[]]]; [contradiction|]. apply I. left. reflexivity.
    + apply IH; [assumption|]. intros X. apply I. right. exact X.
Qed.
Lemma add_prefixes_spec : forall ps r a, let '(r', a', ok) := add_prefixes ps r a in
  (ok = true <-> Forall usable ps) /\
  (NoDup (dkeys r) -> NoDup (dkeys r')) /\
  (ok = true -> (forall k, dget k r' = dget k (r ++ stand_for ps)) /\
     (forall x, In x a' <-> In x a \/ In x (map page_of ps)) /\ (exists new, a' = a ++ new) /\ (NoDup a -> NoDup a') /\ (exists new, r' = r ++ new)).
Proof.
  induction ps as [|p ps IH]; intros r a; cbn [add_prefixes].
  - split; [split; [constructor|reflexivity]|]. split; [auto|]. intros _. unfold stand_for. cbn [map List.concat]. rewrite app_nil_r. split; [reflexivity|]. split; [cbn; tauto|]. split; [exists []; rewrite app_nil_r; reflexivity|]. split; [auto|exists []; rewrite app_nil_r; reflexivity].
  - cbv zeta. rewrite slash_address. destruct (ends_slash (address_of p)) eqn:E.
    + split; [split; [discriminate|]|split; [auto|discriminate]]. intros F. inversion F as [|? ? U _]; subst. apply usable_iff in U. congruence.
    + apply usable_iff in E. fold (index_of p). fold (page_of p).
      specialize (IH (setdefault (index_of p) (page_of p) (setdefault (address_of p) (index_of p) r)) (if existsb (str_eqb (page_of p)) a then a else a ++ [page_of p])).
      destruct (add_prefixes ps _ _) as [[r' a'] ok]. destruct IH as (I1 & I2 & I3). split; [|split].
      * rewrite I1. split; [intros F; constructor; assumption|intros F; inversion F; assumption].
      * intros N. apply I2. apply setdefault_keys, setdefault_keys. exact N.
      * intros Ok. destruct (I3 Ok) as (J1 & J2 & (new & J3) & J4 & (newr & J5)). split; [|split; [|split; [|split]]].
        -- intros k. rewrite J1. unfold stand_for. cbn [map List.concat]. fold (stand_for ps). rewrite !dget_app, !setdefault_get, !dget_app, setdefault_get, dget_app.
           destruct (dget k r); [reflexivity|]. cbn [dget]. destruct (eq_dec k (address_of p)); [reflexivity|]. destruct (eq_dec k (index_of p)); reflexivity.
        -- intros x. rewrite J2. cbn [map In]. destruct (existsb (str_eqb (page_of p)) a) eqn:X.
           ++ apply existsb_exists in X. destruct X as (y & Iy & X). apply str_eqb_eq in X. subst y. split; [tauto|]. intros [H|[<-|H]]; tauto.
           ++ rewrite in_app_iff. cbn [In]. tauto.
        -- destruct (existsb (str_eqb (page_of p)) a); [exists new; exact J3|]. exists (page_of p :: new). rewrite J3, <- app_assoc. reflexivity.
        -- intros N. apply J4. destruct (existsb (str_eqb (page_of p)) a) eqn:X; [exact N|]. apply (proj2 (NoDup_snoc a (page_of p))). split; [exact N|]. intros I. assert (Y : existsb (str_eqb (page_of p)) a = true); [|congruence]. apply existsb_exists. exists (page_of p). split; [exact I|apply str_eqb_eq; reflexivity].
        -- destruct (setdefault_more (address_of p) (index_of p) r) as (n1 & E1). destruct (setdefault_more (index_of p) (page_of p) (setdefault (address_of p) (index_of p) r)) as (n2 & E2).
           exists (n1 ++ n2 ++ newr). rewrite J5, E2, E1, <- !app_assoc. reflexivity.
Qed.

(** The builder fails exactly if a prefix is empty or ends with a slash.  Otherwise what
    was configured stays as it is, every prefix without a redirect of its own leads to its
    index, every index to its page, the pages are added to the paths once, and nothing
    else changes. *)
Theorem C102_config : forall ps c, let '(c', ok) := web_app_paths ps c in
  (ok = true <-> Forall usable ps) /\ rest_same c c' /\
  (NoDup (dkeys (redirects c)) -> NoDup (dkeys (redirects c'))) /\
  (ok = true -> (forall k, dget k (redirects c') = dget k (redirects c ++ stand_for ps)) /\
     (forall x, In x (app_paths c') <-> In x (app_paths c) \/ In x (map page_of ps)) /\
     (exists new, app_paths c' = app_paths c ++ new) /\ (NoDup (app_paths c) -> NoDup (app_paths c')) /\ (exists new, redirects c' = redirects c ++ new)).
Proof.
  intros ps c. unfold web_app_paths. change (param (c_redirects c) []) with (redirects c). change (param (c_app_paths c) []) with (app_paths c).
  pose proof (add_prefixes_spec ps (redirects c) (app_paths c)) as H. destruct (add_prefixes ps (redirects c) (app_paths c)) as [[r a] ok]. destruct H as (A & B & C). split; [exact A|]. split; [repeat split|]. split; [exact B|exact C].
Qed.
Lemma add_prefixes_done : forall ps r a, Forall usable ps -> (forall p, In p ps -> dget (address_of p) r <> None /\ dget (index_of p) r <> None /\ In (page_of p) a) ->
  add_prefixes ps r a = (r, a, true).
Proof.
  induction ps as [|p ps IH]; intros r a F H; [reflexivity|]. inversion F as [|? ? U F']; subst. cbn [add_prefixes]. cbv zeta. rewrite slash_address. rewrite (proj2 (usable_iff p) U). fold (index_of p). fold (page_of p).
  destruct (H p (or_introl eq_refl)) as (A & B & C). assert (Sd : forall k v, dget k r <> None -> setdefault k v r = r) by (intros k v N; unfold setdefault, dmem; destruct (dget k r); [reflexivity|contradiction]).
  rewrite (Sd _ _ A), (Sd _ _ B). assert (X : existsb (str_eqb (page_of p)) a = true) by (apply existsb_exists; exists (page_of p); split; [exact C|apply str_eqb_eq; reflexivity]). rewrite X. apply IH; [exact F'|]. intros q I. apply H. right. exact I.
Qed.
Lemma dget_not_none (d : list (str * str)) k v : In (k, v) d -> dget k d <> None.
Proof. intros I N. apply dget_None_notin in N. apply N. apply (in_map fst) in I. exact I. Qed.
Lemma stand_for_in ps p : In p ps -> In (address_of p, index_of p) (stand_for ps) /\ In (index_of p, page_of p) (stand_for ps).
Proof. intros I. unfold stand_for. split; apply in_concat; exists [(address_of p, index_of p); (index_of p, page_of p)]; (split; [apply in_map_iff; exists p; auto|cbn; auto]). Qed.
(** Doing it again changes nothing. *)
Theorem C102_again : forall ps c c', web_app_paths ps c = (c', true) -> web_app_paths ps c' = (c', true).
Proof.
  intros ps c c' H. pose proof (C102_config ps c) as X. rewrite H in X. destruct X as (U & _ & _ & X). destruct (X eq_refl) as (R & A & _). pose proof (proj1 U eq_refl) as U'.
  assert (D : add_prefixes ps (redirects c') (app_paths c') = (redirects c', app_paths c', true)).
  { apply add_prefixes_done; [exact U'|]. intros p I. destruct (stand_for_in ps p I) as (I1 & I2). split; [|split].
    - rewrite R. apply (dget_not_none _ _ (index_of p)). apply in_or_app. right. exact I1.
    - rewrite R. apply (dget_not_none _ _ (page_of p)). apply in_or_app. right. exact I2.
    - apply A. right. apply in_map. exact I. }
  unfold web_app_paths at 1. change (param (c_redirects c') []) with (redirects c'). change (param (c_app_paths c') []) with (app_paths c'). rewrite D. f_equal.
  unfold web_app_paths in H. destruct (add_prefixes ps _ _) as [[r a] ok]. injection H as H _. rewrite <- H. reflexivity.
Qed.

Section Served.
  Context (resolves : str -> bool) (have : bool).
  Lemma keys_of ps c c' : web_app_paths ps c = (c', true) -> forall k, In k (map fst (redirects c')) <-> In k (map fst (redirects c ++ stand_for ps)).
  Proof.
    intros H k. pose proof (C102_config ps c) as X. rewrite H in X. destruct X as (_ & _ & _ & X). destruct (X eq_refl) as (R & _). specialize (R k).
    change (map fst (redirects c')) with (dkeys (redirects c')). change (map fst (redirects c ++ stand_for ps)) with (dkeys (redirects c ++ stand_for ps)).
    split; intros I; (destruct (in_dec (list_eq_dec Z.eq_dec) k (dkeys (redirects c' ))) as [J|J]; destruct (in_dec (list_eq_dec Z.eq_dec) k (dkeys (redirects c ++ stand_for ps))) as [J'|J']; try assumption; try contradiction; exfalso).
    - assert (N : dget k (redirects c ++ stand_for ps) = None) by (destruct (dget k (redirects c ++ stand_for ps)) eqn:E; [apply dget_Some_in in E; contradiction|reflexivity]). rewrite N in R. apply dget_None_notin in R. contradiction.
    - assert (N : dget k (redirects c') = None) by (destruct (dget k (redirects c')) eqn:E; [apply dget_Some_in in E; contradiction|reflexivity]). rewrite N in R. symmetry in R. apply dget_None_notin in R. contradiction.
  Qed.
  Lemma distinct_iff keys : NoDup keys -> (distinct_keys keys <-> one_spelling keys).
  Proof.
    unfold distinct_keys, one_spelling. induction keys as [|x l IH]; intros N; [split; [intros _ ? ? []|constructor]|]. inversion N as [|? ? N1 N2]; subst. specialize (IH N2). split.
    - intros D. inversion D as [|? ? D1 D2]; subst. rewrite Forall_forall in D1. intros a b [<-|A] [<-|B] S1; [reflexivity| | |apply IH; assumption].
      + exfalso. apply (D1 b B S1).
      + exfalso. apply (D1 a A). unfold same_key in *. destruct S1. split; [congruence|tauto].
    - intros O. constructor.
      + apply Forall_forall. intros b B S1. assert (x = b) by (apply O; [left; reflexivity|right; exact B|exact S1]). subst. contradiction.
      + apply IH. intros a b A B. apply O; right; assumption.
  Qed.
  (** With what the builder made, the server can be set up exactly if the same redirect
      is always written the same way. *)
  Theorem C102_setup : forall ps c c', web_app_paths ps c = (c', true) -> NoDup (map fst (redirects c)) ->
    (snd (setup resolves have c' (mkTable [] [])) = true <-> sound resolves c /\ one_spelling (map fst (redirects c ++ stand_for ps))).
  Proof.
    intros ps c c' H N. pose proof (C102_config ps c) as X. rewrite H in X. destruct X as (_ & (M & _ & O1 & O2 & _ & _ & Po) & Nd & _). pose proof (keys_of ps c c' H) as K.
    pose proof (C100_setup resolves have c' (mkTable [] [])) as Q. destruct (setup resolves have c' (mkTable [] [])) as [[t u] ok]. cbn [snd]. destruct Q as (Q & _). rewrite Q.
    assert (So : sound resolves c' <-> sound resolves c) by (unfold sound, method; rewrite M, O1, O2, Po; tauto). rewrite So, (distinct_iff _ (Nd N)). unfold one_spelling. cbn [tb_redirects map].
    split; [intros (A & B & _)|intros (A & B)]; (split; [exact A|]).
    - intros a b I J. apply K in I. apply K in J. apply B; assumption.
    - split; [|intros k _ []]. intros a b I J. apply K in I. apply K in J. apply B; assumption.
  Qed.
  (** So a redirect and a prefix that are the same but written differently, or two such
      prefixes, make the setup fail. *)
  Theorem C102_spelling_refuted : forall ps c c' p k, web_app_paths ps c = (c', true) -> NoDup (map fst (redirects c)) ->
    In p ps -> In k (map fst (redirects c ++ stand_for ps)) -> same_key k (address_of p) -> k <> address_of p ->
    snd (setup resolves have c' (mkTable [] [])) = false.
  Proof.
    intros ps c c' p k H N I J S1 Ne. destruct (snd (setup _ _ _ _)) eqn:E; [|reflexivity]. exfalso. apply (C102_setup ps c c' H N) in E. destruct E as (_ & O). apply Ne. apply O; [exact J| |exact S1].
    rewrite map_app. apply in_or_app. right. destruct (stand_for_in ps p I) as (X & _). apply (in_map fst) in X. exact X.
  Qed.
  (** After a setup the prefix leads to its index, its index to its page, and the page is
      the application, unless there are files with these names, the configuration says
      otherwise, or the page is data. *)
  Theorem C102_served : forall fs encoded paths ps c c' t u p, web_app_paths ps c = (c', true) ->
    setup resolves have c' (mkTable [] []) = (t, u, true) -> In p ps ->
    let answer := get_handler fs encoded (serving paths t) in
    (plain_path (address_of p) -> dget (address_of p) (redirects c ++ stand_for ps) = Some (index_of p) ->
       from_file (answer (address_of p)) \/ answer (address_of p) = Redirected (index_of p)) /\
    (plain_path (index_of p) -> dget (index_of p) (redirects c ++ stand_for ps) = Some (page_of p) ->
       from_file (answer (index_of p)) \/ answer (index_of p) = Redirected (page_of p)) /\
    (plain_path (page_of p) -> (forall k, In k (map fst (redirects c ++ stand_for ps)) -> ~ same_thing (page_of p) k) ->
       from_file (answer (page_of p)) \/
       (In (lit "json") (components (page_of p)) /\ exists keys, answer (page_of p) = Json keys) \/
       (answer (page_of p) = AppPage (page_of p) /\
        dget (page_of p) (tb_apps t) = Some (if dec_in (page_of p) (landing_paths c) then LandingPage else HtmlApp (method c)))).
  Proof.
    intros fs encoded paths ps c c' t u p H E I answer. pose proof (C102_config ps c) as X. rewrite H in X. destruct X as (_ & (M & La & _) & _ & X). destruct (X eq_refl) as (R & A & _).
    assert (Es : setups resolves have [c'] (mkTable [] []) = (t, [(u, true)])) by (cbn [setups]; rewrite E; reflexivity).
    assert (Al : all_redirects [c'] = redirects c') by (unfold all_redirects; cbn [map List.concat]; apply app_nil_r).
    assert (G : forall k d, plain_path k -> dget k (redirects c ++ stand_for ps) = Some d -> from_file (answer k) \/ answer k = Redirected d).
    { intros k d P D. rewrite <- R in D. assert (Ik : In (k, d) (redirects c')).
      { clear -D. revert D. induction (redirects c') as [|[a b] l IH]; cbn [dget]; [discriminate|]. destruct (eq_dec k a) as [->|]; [intros X; injection X as ->; left; reflexivity|intros X; right; apply IH; exact X]. }
      apply (C100_redirected resolves have fs encoded paths [c'] t _ k k d Es eq_refl P); [rewrite Al; exact Ik|reflexivity|]. apply plain_not_two. exact P. }
    split; [apply G|]. split; [apply G|]. intros P No.
    assert (No' : forall k d, In (k, d) (all_redirects [c']) -> same_thing (page_of p) k -> two_slashes k).
    { rewrite Al. intros k d Ik S1. exfalso. apply (No k); [|exact S1]. apply (keys_of ps c c' H). apply (in_map fst) in Ik. exact Ik. }
    assert (Ap : app_after [c'] (page_of p) None = Some (if dec_in (page_of p) (landing_paths c) then LandingPage else HtmlApp (method c))).
    { unfold app_after. cbn [fold_left]. unfold app_of. assert (L : landing_paths c' = landing_paths c) by (unfold landing_paths; rewrite La; reflexivity). rewrite L. destruct (dec_in (page_of p) (landing_paths c)); [reflexivity|].
      destruct (dec_in (page_of p) (app_paths c')) as [_|N]; [unfold method; rewrite M; reflexivity|]. exfalso. apply N. apply A. right. apply in_map. exact I. }
    destruct (C100_otherwise resolves have fs encoded paths [c'] t _ (page_of p) Es eq_refl P No') as [F|[J|[(_ & _ & D & F)|(_ & N & _)]]].
    - left. exact F.
    - right. left. exact J.
    - right. right. split; [exact F|]. rewrite D. exact Ap.
    - rewrite Ap in N. discriminate N.
  Qed.
End Served.

(** ** Cases *)
Definition ex_base : config := mkConfig None (Some [lit "/app.html"]) (Some [(lit "/", lit "/index.html"); (lit "/index.html", lit "/app.html"); (lit "/b", lit "/elsewhere")]) None None None None None None.
Definition ex_prefixes : list str := [lit "a"; lit "/b"; lit "a"].
Example C102_case : web_app_paths ex_prefixes ex_base =
  (mkConfig None (Some [lit "/app.html"; lit "/a/app.html"; lit "/b/app.html"])
     (Some [(lit "/", lit "/index.html"); (lit "/index.html", lit "/app.html"); (lit "/b", lit "/elsewhere"); (lit "/a", lit "/a/index.html"); (lit "/a/index.html", lit "/a/app.html"); (lit "/b/index.html", lit "/b/app.html")])
     None None None None None None, true).
Proof. vm_compute. reflexivity. Qed.
Example C102_served_case : let c' := fst (web_app_paths ex_prefixes ex_base) in let t := fst (fst (setup ex_resolves true c' (mkTable [] []))) in
  snd (setup ex_resolves true c' (mkTable [] [])) = true /\
  map (get_handler (fun _ => None) (fun _ => false) (serving [] t)) [lit "/a"; lit "/a/index.html"; lit "/a/app.html"; lit "/b"] =
  [Redirected (lit "/a/index.html"); Redirected (lit "/a/app.html"); AppPage (lit "/a/app.html"); Redirected (lit "/elsewhere")] /\
  plain_path (lit "/a") /\ dget (address_of (lit "a")) (redirects ex_base ++ stand_for ex_prefixes) = Some (index_of (lit "a")).
Proof.
  split; [vm_compute; reflexivity|]. split; [vm_compute; reflexivity|]. split; [|vm_compute; reflexivity].
  exists (lit "a"). split; [reflexivity|]. intros r X. vm_compute in X. discriminate X.
Qed.
Example C102_spelling_case : same_key (lit "b") (address_of (lit "/b")) /\
  snd (setup ex_resolves true (fst (web_app_paths [lit "/b"] (mkConfig None None (Some [(lit "b", lit "/x")]) None None None None None None))) (mkTable [] [])) = false.
Proof.
  split; [|vm_compute; reflexivity]. split; [vm_compute; reflexivity|]. split; intros (r & X & _); vm_compute in X; discriminate X.
Qed.
Example C102_fails : snd (web_app_paths [lit "a"; lit "b/"] ex_base) = false /\ snd (web_app_paths [[]] ex_base) = false.
Proof. split; reflexivity. Qed.
Print Assumptions C102_config.
Print Assumptions C102_again.
Print Assumptions C102_setup.
Print Assumptions C102_spelling_refuted.
Print Assumptions C102_served.
