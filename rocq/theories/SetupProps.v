(** C100: the setup of the web server. *)
From Verif Require Import Base BaseLemmas PyStrModel PyStrProofs HttpProofs ServeModel ServeSpec ServeProofs ServeProps ServeApi SrvCmdModel SrvCmdProps SetupModel SetupSpec.
From Coq Require Import ZifyBool ZifyNat Lia.
Open Scope list_scope.

Lemma root_two s : root_of s = 2%nat <-> two_slashes s.
Proof.
  unfold two_slashes. split.
  - destruct s as [|a [|b [|c s]]]; cbn [root_of]; unfold slash; intros H.
    + discriminate.
    + destruct (a =? 47); discriminate.
    + destruct (a =? 47) eqn:A; [|discriminate]. destruct (b =? 47) eqn:B; [|discriminate]. exists []. assert (a = 47) by lia. assert (b = 47) by lia. subst. split; [reflexivity|]. intros r' X. discriminate X.
    + destruct (a =? 47) eqn:A; [|discriminate]. destruct (b =? 47) eqn:B; [|discriminate]. destruct (c =? 47) eqn:C; [discriminate|].
      assert (a = 47) by lia. assert (b = 47) by lia. subst. exists (c :: s). split; [reflexivity|]. intros r' X. change (lit "/") with [47] in X. cbn [app] in X. injection X as X _. lia.
  - intros (r & -> & H). change (lit "//") with [47; 47]. cbn [app]. destruct r as [|c r]; [reflexivity|]. cbn [root_of]. unfold slash. change (47 =? 47) with true.
    destruct (c =? 47) eqn:C; [|reflexivity]. exfalso. apply (H r). change (lit "/") with [47]. cbn [app]. f_equal. lia.
Qed.
Lemma root_range s : root_of s = 0%nat \/ root_of s = 1%nat \/ root_of s = 2%nat.
Proof.
  destruct s as [|a [|b [|c s]]]; cbn [root_of]; auto; destruct (a =? slash); auto; destruct (b =? slash); auto. cbn [andb]. destruct (c =? slash); auto.
Qed.
Lemma normalize_eq a b : normalize_root a = normalize_root b <-> same_key a b.
Proof.
  unfold same_key. rewrite <- !root_two, !components_parts. unfold normalize_root, path_of. cbn [p_root p_parts].
  destruct (root_range a) as [A|[A|A]], (root_range b) as [B|[B|B]]; rewrite A, B; split;
    try (intros H; injection H as H; split; [exact H|split; intros; congruence]); try (intros (H & _); rewrite H; reflexivity);
    try (intros H; discriminate H); intros (_ & H); exfalso; destruct H as (H1 & H2); first [discriminate (H1 eq_refl)|discriminate (H2 eq_refl)].
Qed.
Lemma lookup_none p l : lookup p l = None <-> ~ In p (map fst l).
Proof.
  induction l as [|[q d] l IH]; cbn [lookup map fst]; [split; [intros _ []|reflexivity]|].
  destruct (path_eqb p q) eqn:E.
  - apply path_eqb_iff in E. subst. split; [discriminate|]. intros H. exfalso. apply H. left. reflexivity.
  - rewrite IH. split; intros H; [intros [X|X]; [|tauto]|intros X; apply H; right; exact X].
    subst. assert (path_eqb p p = true) by (apply path_eqb_iff; reflexivity). congruence.
Qed.
Notation entry e := (normalize_root (fst e), snd e) (only parsing).
Definition entries (l : list (str * str)) : list (path * str) := map (fun e => (normalize_root (fst e), snd e)) l.
Lemma add_redirects_spec : forall l t, let r := add_redirects l t in
  tb_apps (fst r) = tb_apps t /\
  (snd r = true <-> distinct_keys (map fst l) /\ Forall (fun k => ~ In (normalize_root k) (map fst (tb_redirects t))) (map fst l)) /\
  (snd r = true -> tb_redirects (fst r) = tb_redirects t ++ entries l).
Proof.
  induction l as [|[k d] l IH]; intros t; cbv zeta; cbn [add_redirects].
  - cbn. repeat split; try constructor. intros _. rewrite app_nil_r. reflexivity.
  - unfold add_redirect. destruct (lookup (normalize_root k) (tb_redirects t)) as [x|] eqn:L.
    + cbn [fst snd]. split; [reflexivity|]. split; [|discriminate]. split; [discriminate|]. intros (_ & H). cbn [map fst] in H. apply Forall_inv in H. apply lookup_none in H. congruence.
    + apply lookup_none in L. specialize (IH (mkTable (tb_apps t) (tb_redirects t ++ [(normalize_root k, d)]))). cbv zeta in IH. cbn [tb_apps tb_redirects] in IH.
      destruct IH as (A & B & C). split; [exact A|]. split.
      * rewrite B. cbn [map fst]. unfold distinct_keys. split.
        -- intros (D & F). split; [constructor; [|exact D]|constructor; [exact L|]]; (eapply Forall_impl; [|exact F]); intros k' H; rewrite map_app, in_app_iff in H; cbn [map fst In] in H.
           ++ intros S1. apply normalize_eq in S1. apply H. auto.
           ++ intros X. apply H. auto.
        -- intros (D & F). inversion D as [|? ? D1 D2]; subst. inversion F as [|? ? F1 F2]; subst. split; [exact D2|].
           rewrite Forall_forall in *. intros k' I. rewrite map_app, in_app_iff. cbn [map fst In]. intros [X|[X|[]]]; [exact (F2 k' I X)|]. apply (D1 k' I). apply normalize_eq. congruence.
      * intros H. rewrite (C H). rewrite <- app_assoc. reflexivity.
Qed.
Lemma add_apps_get a paths : forall t p, dget p (tb_apps (add_apps a paths t)) = if dec_in p paths then Some a else dget p (tb_apps t).
Proof.
  unfold add_apps. cbn [tb_apps]. intros t p. generalize (tb_apps t). induction paths as [|q paths IH]; intros d; cbn [fold_left]; [destruct (dec_in p []) as [[]|]; reflexivity|].
  rewrite IH. destruct (dec_in p paths) as [I|I], (dec_in p (q :: paths)) as [J|J]; try reflexivity.
  - exfalso. apply J. right. exact I.
  - destruct J as [->|J]; [apply dget_dset_eq|contradiction].
  - apply dget_dset_ne. intros ->. apply J. left. reflexivity.
Qed.

Section Setup.
  Context (resolves : str -> bool) (have : bool).
  Lemma launch_ok c : snd (launch_browser have c) = true <-> (c_ports c = None -> c_open_http c <> Some true /\ c_open_https c <> Some true).
  Proof.
    unfold launch_browser, launch1, param. destruct (c_ports c) as [ports|]; destruct (c_open_http c) as [[]|], (c_open_https c) as [[]|]; cbn [snd];
      split; try discriminate; try reflexivity; try (intros _ X; discriminate X); try (intros H; destruct (H eq_refl) as (H1 & H2); congruence); intros _ _; split; congruence.
  Qed.
  (** One setup: what it needs, and what it registers. *)
  Theorem C100_setup : forall c t, let '(t', uris, ok) := setup resolves have c t in
    (ok = true <-> sound resolves c /\ distinct_keys (map fst (redirects c)) /\
       forall k, In k (map fst (redirects c)) -> ~ In (normalize_root k) (map fst (tb_redirects t))) /\
    (ok = true -> (forall p, dget p (tb_apps t') = app_of c p (dget p (tb_apps t))) /\
       tb_redirects t' = tb_redirects t ++ map (fun e => (normalize_root (fst e), snd e)) (redirects c)).
  Proof.
    intros c t. unfold setup. change (param (c_method c) DEFAULT_METHOD) with (method c). change (param (c_app_paths c) []) with (app_paths c).
    change (param (c_redirects c) []) with (redirects c).
    destruct (resolves (method c)) eqn:R.
    2:{ split; [|discriminate]. split; [discriminate|]. intros ((X & _) & _). congruence. }
    destruct (add_redirects_spec (redirects c) (add_apps (HtmlApp (method c)) (app_paths c) t)) as (A & B & C).
    destruct (add_redirects _ _) as [t2 ok]. cbn [fst snd] in *. rewrite Forall_forall in B. destruct ok.
    - pose proof (launch_ok c) as L. destruct (launch_browser have c) as [uris ok]. cbn [snd] in L. split.
      + rewrite L. unfold sound. rewrite R. destruct B as (B & _). specialize (B eq_refl). cbn [tb_redirects add_apps] in B. tauto.
      + intros _. split.
        * intros p. rewrite add_apps_get. rewrite A, add_apps_get. unfold app_of.
          replace (param (param (c_landing c) None) []) with (landing_paths c) by (unfold landing_paths, param; destruct (c_landing c) as [[l|]|]; reflexivity). reflexivity.
        * cbn [tb_redirects add_apps]. apply C. reflexivity.
    - split; [|discriminate]. split; [discriminate|]. intros (_ & H). apply B. exact H.
  Qed.
  (** Any number of setups in one process: all return exactly if each is sound and no
      redirect is configured twice, and then every path has the application that was
      configured last and every redirect is kept. *)
  Theorem C100_history : forall cs, let '(t, outs) := setups resolves have cs (mkTable [] []) in
    (forallb snd outs = true <-> Forall (sound resolves) cs /\ distinct_keys (map fst (all_redirects cs))) /\
    (forallb snd outs = true -> (forall p, dget p (tb_apps t) = app_after cs p None) /\
       tb_redirects t = map (fun e => (normalize_root (fst e), snd e)) (all_redirects cs)).
  Proof.
    assert (G : forall cs t done, tb_redirects t = entries done -> let '(t', outs) := setups resolves have cs t in
      (forallb snd outs = true <-> Forall (sound resolves) cs /\ distinct_keys (map fst (all_redirects cs)) /\
         forall k k', In k (map fst (all_redirects cs)) -> In k' (map fst done) -> ~ same_key k k') /\
      (forallb snd outs = true -> (forall p, dget p (tb_apps t') = app_after cs p (dget p (tb_apps t))) /\
         tb_redirects t' = entries (done ++ all_redirects cs))).
    { induction cs as [|c cs IH]; intros t done E; cbn [setups].
      - split; [|intros _; split; [reflexivity|rewrite app_nil_r; exact E]]. cbn. split; [|reflexivity]. intros _. repeat split; try constructor. intros ? ? [].
      - pose proof (C100_setup c t) as H. destruct (setup resolves have c t) as [[t1 uris] ok]. destruct H as (H1 & H2).
        unfold all_redirects. cbn [map List.concat]. fold (all_redirects cs).
        assert (Old : (forall k, In k (map fst (redirects c)) -> ~ In (normalize_root k) (map fst (tb_redirects t))) <->
          (forall k k', In k (map fst (redirects c)) -> In k' (map fst done) -> ~ same_key k k')).
        { rewrite E. unfold entries. rewrite map_map. cbn [fst]. split.
          - intros H k k' I I' S1. apply (H k I). apply in_map_iff in I'. destruct I' as (e & <- & I'). apply in_map_iff. exists e. split; [|exact I']. symmetry. apply normalize_eq. exact S1.
          - intros H k I X. apply in_map_iff in X. destruct X as (e & X & I'). apply (H k (fst e) I); [apply in_map; exact I'|]. apply normalize_eq. congruence. }
        destruct ok.
        + destruct H1 as (H1 & _). specialize (H1 eq_refl). destruct (H2 eq_refl) as (Ap & Re). specialize (IH t1 (done ++ redirects c)).
          assert (E1 : tb_redirects t1 = entries (done ++ redirects c)) by (rewrite Re, E; unfold entries; rewrite map_app; reflexivity).
          specialize (IH E1). destruct (setups resolves have cs t1) as [t2 outs]. destruct IH as (I1 & I2). cbn [forallb snd andb]. destruct H1 as (S1 & D1 & O1). pose proof (proj1 Old O1) as O2. clear O1. rename O2 into O1. split.
          * rewrite I1. rewrite (map_app fst (redirects c) (all_redirects cs)). split.
            -- intros (F & D & O). split; [constructor; assumption|]. split.
               ++ assert (Z : forall l m, distinct_keys l -> distinct_keys m -> (forall a b, In a l -> In b m -> ~ same_key a b) -> distinct_keys (l ++ m)).
                  { unfold distinct_keys. induction l as [|x l IHl]; intros m P Q X; [exact Q|]. inversion P; subst. cbn [app]. constructor.
                    - apply Forall_app. split; [assumption|]. apply Forall_forall. intros b B. apply X; [left; reflexivity|exact B].
                    - apply IHl; [assumption|exact Q|]. intros a b A B. apply X; [right; exact A|exact B]. }
                  apply Z; [exact D1|exact D|]. intros a b A B S2. apply (O b a B); [rewrite map_app; apply in_or_app; right; exact A|]. destruct S2 as (X & Y). split; [congruence|tauto].
               ++ intros k k' I I'. apply in_app_or in I. destruct I as [I|I]; [apply (O1 k k' I I')|]. apply (O k k' I). rewrite map_app. apply in_or_app. left. exact I'.
            -- intros (F & D & O). inversion F; subst. split; [assumption|].
               assert (Z : forall l m, distinct_keys (l ++ m) -> distinct_keys m /\ forall a b, In a l -> In b m -> ~ same_key a b).
               { unfold distinct_keys. induction l as [|x l IHl]; intros m P; [split; [exact P|intros ? ? []]|]. cbn [app] in P. inversion P as [|? ? P1 P2]; subst. destruct (IHl m P2) as (Q & X). split; [exact Q|].
                 intros a b [<-|A] B; [|apply X; assumption]. rewrite Forall_forall in P1. apply P1. apply in_or_app. right. exact B. }
               destruct (Z _ _ D) as (Q & X). split; [exact Q|]. intros k k' I I'. rewrite map_app in I'. apply in_app_or in I'. destruct I' as [I'|I'].
               ++ apply O; [apply in_or_app; right; exact I|exact I'].
               ++ intros (Y1 & Y2). apply (X k' k I' I). split; [congruence|tauto].
          * intros H. destruct (I2 H) as (J1 & J2). split.
            -- intros p. rewrite J1, Ap. reflexivity.
            -- rewrite J2, <- app_assoc. reflexivity.
        + destruct (setups resolves have cs t1) as [t2 outs]. cbn [forallb snd andb]. split; [|discriminate]. split; [discriminate|]. intros (F & D & O). apply H1.
          inversion F; subst. split; [assumption|]. rewrite (map_app fst (redirects c) (all_redirects cs)) in D, O. split.
          * clear - D. unfold distinct_keys in *. induction (map fst (redirects c)) as [|x l IHl]; [constructor|]. cbn [app] in D. inversion D as [|? ? D1 D2]; subst. constructor; [|apply IHl; exact D2]. apply Forall_app in D1. tauto.
          * apply (proj2 Old). intros k k' I I'. apply O; [apply in_or_app; left; exact I|exact I']. }
    intros cs. specialize (G cs (mkTable [] []) [] eq_refl). destruct (setups resolves have cs _) as [t outs]. destruct G as (A & B). split.
    - rewrite A. split; [tauto|]. intros (F & D). split; [exact F|]. split; [exact D|]. intros ? ? _ [].
    - intros H. destruct (B H) as (B1 & B2). split; [exact B1|exact B2].
  Qed.

  (** A redirect that is configured twice, in one configuration or in two: what was
      before it is registered, the landing page is not, and no browser is started. *)
  Theorem C100_clash : forall c t pre k d post, resolves (method c) = true -> redirects c = pre ++ (k, d) :: post ->
    distinct_keys (map fst pre) -> (forall k', In k' (map fst pre) -> ~ In (normalize_root k') (map fst (tb_redirects t))) ->
    (exists k', In k' (map fst pre) /\ same_key k k') \/ In (normalize_root k) (map fst (tb_redirects t)) ->
    exists t', setup resolves have c t = (t', [], false) /\
      (forall p, dget p (tb_apps t') = if dec_in p (app_paths c) then Some (HtmlApp (method c)) else dget p (tb_apps t)) /\
      tb_redirects t' = tb_redirects t ++ map (fun e => (normalize_root (fst e), snd e)) pre.
  Proof.
    intros c t pre k d post R E D O Cl. unfold setup. change (param (c_method c) DEFAULT_METHOD) with (method c). change (param (c_app_paths c) []) with (app_paths c).
    change (param (c_redirects c) []) with (redirects c). rewrite R, E.
    set (t1 := add_apps (HtmlApp (method c)) (app_paths c) t).
    assert (App : forall l t m, add_redirects (l ++ m) t = let '(t', ok) := add_redirects l t in if ok then add_redirects m t' else (t', false)).
    { induction l as [|[k0 d0] l IH]; intros t0 m; cbn [add_redirects app]; [reflexivity|]. destruct (add_redirect d0 k0 t0) as [t' ok]. destruct ok; [apply IH|reflexivity]. }
    rewrite App. destruct (add_redirects_spec pre t1) as (A & B & C). destruct (add_redirects pre t1) as [t2 ok]. cbn [fst snd] in *.
    assert (ok = true) as ->. { apply B. split; [exact D|]. apply Forall_forall. exact O. }
    specialize (C eq_refl). cbn [add_redirects]. unfold add_redirect.
    destruct (lookup (normalize_root k) (tb_redirects t2)) as [x|] eqn:L.
    - exists t2. split; [reflexivity|]. split; [|exact C]. intros p. rewrite A. unfold t1. apply add_apps_get.
    - exfalso. apply lookup_none in L. apply L. rewrite C, map_app. apply in_or_app. destruct Cl as [(k' & I & S1)|I]; [right|left; exact I].
      apply in_map_iff in I. destruct I as (e & <- & I). unfold entries. rewrite map_map. cbn [fst]. apply in_map_iff. exists e. split; [|exact I]. symmetry. apply normalize_eq. exact S1.
  Qed.
  (** A method that cannot be imported: nothing is registered. *)
  Theorem C100_missing : forall c t, resolves (method c) = false -> setup resolves have c t = (t, [], false).
  Proof. intros c t R. unfold setup. change (param (c_method c) DEFAULT_METHOD) with (method c). rewrite R. reflexivity. Qed.
  (** So the same configuration cannot be set up twice in a process if it has a
      redirect. *)
  Theorem C100_again_refuted : forall c t, redirects c <> [] ->
    let '(t', _, ok) := setup resolves have c t in ok = true -> snd (setup resolves have c t') = false.
  Proof.
    intros c t Ne. pose proof (C100_setup c t) as H. destruct (setup resolves have c t) as [[t' uris] ok]. destruct H as (_ & H). intros ->. destruct (H eq_refl) as (_ & Re).
    pose proof (C100_setup c t') as H'. destruct (setup resolves have c t') as [[t2 u2] ok2]. cbn [snd]. destruct H' as (H' & _). destruct ok2; [|reflexivity]. exfalso.
    destruct H' as (H' & _). destruct (H' eq_refl) as (_ & _ & O). destruct (redirects c) as [|[k d] l]; [contradiction|]. apply (O k (or_introl eq_refl)). rewrite Re, map_app. apply in_or_app. right. left. reflexivity.
  Qed.

  Lemma lookup_entries : forall l p, match lookup (normalize_root p) (entries l) with
    | Some d => exists k, In (k, d) l /\ same_key p k
    | None => forall k d, In (k, d) l -> ~ same_key p k
    end.
  Proof.
    induction l as [|[k d] l IH]; intros p; cbn [entries map lookup fst snd]; [intros ? ? []|]. destruct (path_eqb (normalize_root p) (normalize_root k)) eqn:E.
    - exists k. split; [left; reflexivity|]. apply normalize_eq. apply path_eqb_iff. exact E.
    - specialize (IH p). fold (entries l). destruct (lookup (normalize_root p) (entries l)) as [d'|].
      + destruct IH as (k' & I & S1). exists k'. split; [right; exact I|exact S1].
      + intros k' d' [X|I]; [|apply (IH _ _ I)]. injection X as <- <-. intros S1. apply normalize_eq in S1. apply path_eqb_iff in S1. congruence.
  Qed.
  Lemma distinct_unique : forall (l : list (str * str)) k d k' d' p, distinct_keys (map fst l) -> In (k, d) l -> In (k', d') l -> same_key p k -> same_key p k' -> d = d'.
  Proof.
    assert (Sy : forall a b c, same_key a b -> same_key a c -> same_key b c) by (unfold same_key; intros a b c (A & B) (C & D); split; [congruence|tauto]).
    assert (Sc : forall a b, same_key a b -> same_key b a) by (unfold same_key; intros a b (A & B); split; [congruence|tauto]).
    unfold distinct_keys. induction l as [|e l IH]; intros k d k' d' p D I I' S1 S2; [destruct I|]. inversion D as [|? ? D1 D2]; subst. rewrite Forall_forall in D1.
    destruct I as [->|I], I' as [E|I'].
    - congruence.
    - exfalso. apply (D1 k'); [apply (in_map fst) in I'; exact I'|]. cbn [fst]. apply (Sy p); assumption.
    - subst. exfalso. apply (D1 k); [apply (in_map fst) in I; exact I|]. cbn [fst]. apply (Sy p); assumption.
    - apply (IH k d k' d' p D2 I I' S1 S2).
  Qed.
  Lemma plain_normal p : plain_path p -> path_of p = normalize_root p.
  Proof. intros P. unfold normalize_root. cbn [path_of p_root]. rewrite (plain_root p P). reflexivity. Qed.
  Lemma plain_not_two p : plain_path p -> ~ two_slashes p.
  Proof. intros P T. apply root_two in T. rewrite (plain_root p P) in T. discriminate. Qed.

  (** What requests are answered with after setups that returned: a configured redirect
      from that path, with or without a slash in front in the configuration ... *)
  Theorem C100_redirected : forall fs encoded paths cs t outs p k d,
    setups resolves have cs (mkTable [] []) = (t, outs) -> forallb snd outs = true ->
    plain_path p -> In (k, d) (all_redirects cs) -> same_thing p k -> ~ two_slashes k ->
    from_file (get_handler fs encoded (serving paths t) p) \/ get_handler fs encoded (serving paths t) p = Redirected d.
  Proof.
    intros fs encoded paths cs t outs p k d E Ok P I S1 T. pose proof (C100_history cs) as H. rewrite E in H. destruct H as (H1 & H2). destruct (proj1 H1 Ok) as (_ & D). destruct (H2 Ok) as (_ & Re).
    unfold get_handler, serving. cbn [ServeModel.sv_paths ServeModel.sv_redirects]. destruct (prefix (lit "/favicon") p); [left; exact Logic.I|].
    pose proof (try_file_kind fs encoded paths p) as K. destruct (try_file fs encoded paths p) as [a|]; [left; exact K|]. right.
    unfold try_redirect. rewrite Re, (plain_normal p P). fold (entries (all_redirects cs)).
    assert (Sk : same_key p k) by (split; [exact S1|pose proof (plain_not_two p P); tauto]).
    pose proof (lookup_entries (all_redirects cs) p) as L. destruct (lookup _ _) as [d'|].
    - destruct L as (k' & I' & S2). cbn [option_map]. rewrite (distinct_unique _ k d k' d' p D I I' Sk S2). reflexivity.
    - exfalso. exact (L k d I Sk).
  Qed.
  (** ... and otherwise data, the application of exactly this path, or the page that
      says there is nothing. *)
  Theorem C100_otherwise : forall fs encoded paths cs t outs p,
    setups resolves have cs (mkTable [] []) = (t, outs) -> forallb snd outs = true ->
    plain_path p -> (forall k d, In (k, d) (all_redirects cs) -> same_thing p k -> two_slashes k) ->
    let a := get_handler fs encoded (serving paths t) p in
    from_file a \/
    (In (lit "json") (components p) /\ exists keys, a = Json keys) \/
    (~ In (lit "json") (components p) /\ app_after cs p None <> None /\ dget p (tb_apps t) = app_after cs p None /\ a = AppPage p) \/
    (~ In (lit "json") (components p) /\ app_after cs p None = None /\ a = Redirected (lit "/404.html")).
  Proof.
    intros fs encoded paths cs t outs p E Ok P No. pose proof (C100_history cs) as H. rewrite E in H. destruct H as (H1 & H2). destruct (H2 Ok) as (Ap & Re). specialize (Ap p).
    assert (J : path_has_part p (lit "json") = true <-> In (lit "json") (components p)).
    { unfold path_has_part. rewrite existsb_exists, <- (tl_components p P) by reflexivity. split.
      - intros (x & I & X). apply str_eqb_eq in X. subst. exact I.
      - intros I. exists (lit "json"). split; [exact I|]. apply str_eqb_eq. reflexivity. }
    assert (M : existsb (str_eqb p) (map fst (tb_apps t)) = true <-> app_after cs p None <> None).
    { rewrite <- Ap. rewrite existsb_exists. change (map fst (tb_apps t)) with (dkeys (tb_apps t)). split.
      - intros (x & I & X) N. apply str_eqb_eq in X. subst. apply dget_None_notin in N. contradiction.
      - intros N. destruct (dget p (tb_apps t)) as [v|] eqn:G; [|contradiction]. apply dget_Some_in in G. exists p. split; [exact G|]. apply str_eqb_eq. reflexivity. }
    cbv zeta. unfold get_handler, serving. cbn [ServeModel.sv_paths ServeModel.sv_redirects ServeModel.sv_apps ServeModel.sv_default]. destruct (prefix (lit "/favicon") p); [left; exact Logic.I|].
    pose proof (try_file_kind fs encoded paths p) as K. destruct (try_file fs encoded paths p) as [a|]; [left; exact K|]. right.
    unfold try_redirect. rewrite Re, (plain_normal p P). fold (entries (all_redirects cs)).
    pose proof (lookup_entries (all_redirects cs) p) as L. destruct (lookup _ _) as [d'|].
    { exfalso. destruct L as (k & I & S1 & S2). apply (plain_not_two p P). apply S2. apply (No k d' I S1). }
    cbn [option_map]. destruct (path_has_part p (lit "json")).
    - left. split; [apply J; reflexivity|]. eexists. reflexivity.
    - right. assert (Nj : ~ In (lit "json") (components p)) by (intros X; apply J in X; discriminate). rewrite orb_false_r. destruct (existsb (str_eqb p) (map fst (tb_apps t))).
      + left. split; [exact Nj|]. split; [apply M; reflexivity|]. split; [exact Ap|reflexivity].
      + right. split; [exact Nj|]. split; [|reflexivity]. destruct (app_after cs p None); [|reflexivity]. assert (X : false = true) by (apply M; discriminate). discriminate X.
  Qed.
  (** Unlike a redirect, a path of an application that is configured without the slash
      is never answered with it. *)
  Theorem C100_relative_app_refuted : forall fs encoded paths c t p q,
    resolves (method c) = true -> c_open_http c = None -> c_open_https c = None -> redirects c = [] ->
    (forall a r, In a (app_paths c) \/ In a (landing_paths c) -> a <> lit "/" ++ r) -> plain_path p ->
    setup resolves have c (mkTable [] []) = (t, [], true) -> get_handler fs encoded (serving paths t) p <> AppPage q.
  Proof.
    intros fs encoded paths c t p q R H1 H2 Rd Rel P E.
    assert (Es : setups resolves have [c] (mkTable [] []) = (t, [([], true)])) by (cbn [setups]; rewrite E; reflexivity).
    assert (Nr : forall k d, In (k, d) (all_redirects [c]) -> same_thing p k -> two_slashes k) by (unfold all_redirects; cbn [map List.concat]; rewrite Rd; intros ? ? []).
    assert (Na : app_after [c] p None = None).
    { unfold app_after. cbn [fold_left]. unfold app_of. destruct P as (r & -> & _).
      destruct (dec_in _ (landing_paths c)) as [I|_]; [exfalso; apply (Rel _ r (or_intror I)); reflexivity|].
      destruct (dec_in _ (app_paths c)) as [I|_]; [exfalso; apply (Rel _ r (or_introl I)); reflexivity|]. reflexivity. }
    destruct (C100_otherwise fs encoded paths [c] t _ p Es eq_refl P Nr) as [F|[(_ & k & ->)|[(_ & N & _)|(_ & _ & ->)]]]; try discriminate; [|contradiction].
    intros X. rewrite X in F. destruct F.
  Qed.

  Lemma launch1_windows c prefix open l ports : c_ports c = Some ports -> launch1 c prefix open = Some l ->
    windows (wanted prefix open) (address c prefix) ports l.
  Proof.
    intros Ep. unfold launch1. rewrite Ep. unfold wanted. destruct open as [[]|]; cbn [param].
    - intros H. apply (f_equal (fun o => match o with Some x => x | None => [] end)) in H. cbv beta iota in H. subst l. clear Ep. induction ports as [|[n p] ports IH]; cbn [filter map fst]; [constructor|].
      destruct (contains (prefix ++ lit "_server") n) eqn:C.
      + cbn [map snd].
        match goal with |- windows _ _ _ (?u :: _) => replace u with (address c prefix p) end.
        * constructor; [|exact IH]. split; [reflexivity|]. apply contains_app in C. destruct C as (a & b & C). exists a, b. rewrite C, <- app_assoc. reflexivity.
        * unfold address, param. destruct (c_fragment c) as [[|x f]|]; rewrite ?app_nil_r; [reflexivity| |reflexivity]. rewrite <- !app_assoc. reflexivity.
      + constructor; [|exact IH]. intros (_ & a & b & E). assert (X : contains (prefix ++ lit "_server") n = true) by (apply contains_app; exists a, b; rewrite E, <- app_assoc; reflexivity). congruence.
    - intros H. injection H as <-. clear Ep. induction ports as [|[n p] ports IH]; [constructor|]. apply w_skip; [|exact IH]. intros (X & _). discriminate X.
    - intros H. injection H as <-. clear Ep. induction ports as [|[n p] ports IH]; [constructor|]. apply w_skip; [|exact IH]. intros (X & _). discriminate X.
  Qed.
  (** The browser is started once for every port that is wanted, first those of HTTP and
      then those of HTTPS, with its address; without the program nothing happens. *)
  Theorem C100_browser : forall c t t' uris ports, setup resolves have c t = (t', uris, true) -> c_ports c = Some ports ->
    exists a b, windows (wanted (lit "http") (c_open_http c)) (address c (lit "http")) ports a /\
      windows (wanted (lit "https") (c_open_https c)) (address c (lit "https")) ports b /\
      uris = if have then a ++ b else [].
  Proof.
    intros c t t' uris ports E Ep. unfold setup in E. destruct (resolves _); [|discriminate]. destruct (add_redirects _ _) as [t2 ok]. destruct ok; [|discriminate].
    unfold launch_browser in E.
    destruct (launch1 c (lit "http") (c_open_http c)) as [a|] eqn:A; [|discriminate]. destruct (launch1 c (lit "https") (c_open_https c)) as [b|] eqn:B; [|discriminate].
    exists a, b. split; [apply (launch1_windows _ _ _ _ _ Ep A)|]. split; [apply (launch1_windows _ _ _ _ _ Ep B)|]. injection E as _ E. symmetry. exact E.
  Qed.
End Setup.

(** ** Cases *)
Definition ex_config : config :=
  mkConfig None (Some [lit "/app.html"; lit "/x"]) (Some [(lit "/", lit "/index.html"); (lit "old", lit "/x")])
    (Some (Some [lit "/x"; lit "/landing"])) (Some true) None None (Some (lit "tab")) (Some [(lit "my_http_server", 8000); (lit "https_server", 8001); (lit "udp", 5)]).
Definition ex_resolves (m : str) : bool := str_eqb m DEFAULT_METHOD.
Definition ex_after : table := fst (fst (setup ex_resolves true ex_config (mkTable [] []))).
Example C100_case :
  setup ex_resolves true ex_config (mkTable [] []) =
    (mkTable [(lit "/app.html", HtmlApp DEFAULT_METHOD); (lit "/x", LandingPage); (lit "/landing", LandingPage)]
       [(mkPath 1 [], lit "/index.html"); (mkPath 1 [lit "old"], lit "/x")], [lit "http://localhost:8000/#tab"], true) /\
  snd (setup ex_resolves true ex_config ex_after) = false /\
  get_handler (fun _ => None) (fun _ => false) (serving [] ex_after) (lit "/old/") = Redirected (lit "/x") /\
  get_handler (fun _ => None) (fun _ => false) (serving [] ex_after) (lit "/x") = AppPage (lit "/x") /\
  get_handler (fun _ => None) (fun _ => false) (serving [] ex_after) (lit "/y") = Redirected (lit "/404.html") /\
  plain_path (lit "/old/") /\ same_thing (lit "/old/") (lit "old") /\ ~ two_slashes (lit "old").
Proof.
  repeat split; try (vm_compute; reflexivity).
  - exists (lit "old/"). split; [reflexivity|]. intros r X. vm_compute in X. discriminate X.
  - intros (r & X & _). vm_compute in X. discriminate X.
Qed.
Example C100_clash_case :
  setup ex_resolves true (mkConfig None (Some [lit "/a"]) (Some [(lit "/b", lit "/c"); (lit "b/", lit "/d")]) (Some (Some [lit "/l"])) None None None None None) (mkTable [] []) =
    (mkTable [(lit "/a", HtmlApp DEFAULT_METHOD)] [(mkPath 1 [lit "b"], lit "/c")], [], false) /\
  same_key (lit "b/") (lit "/b").
Proof.
  split; [vm_compute; reflexivity|]. split; [reflexivity|]. split; intros (r & X & _); vm_compute in X; discriminate X.
Qed.
Example C100_relative_case :
  setup ex_resolves true (mkConfig None (Some [lit "app.html"]) None None None None None None None) (mkTable [] []) =
    (mkTable [(lit "app.html", HtmlApp DEFAULT_METHOD)] [], [], true).
Proof. vm_compute. reflexivity. Qed.
Print Assumptions C100_setup.
Print Assumptions C100_history.
Print Assumptions C100_clash.
Print Assumptions C100_again_refuted.
Print Assumptions C100_redirected.
Print Assumptions C100_otherwise.
Print Assumptions C100_relative_app_refuted.
Print Assumptions C100_browser.
Print Assumptions C100_missing.
