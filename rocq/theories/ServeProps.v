(** C47: served files stay inside the configured directories.  C60: a file is
    served as it is.  C61: data queries return the data at the path. *)
From Verif Require Import Base BaseLemmas PyStrModel PyStrProofs ServeModel ServeSpec ServeProofs.
From Coq Require Import ZifyBool ZifyNat Lia.
Open Scope list_scope.
Open Scope Z_scope.

Section Serve.
(** Any file system without symbolic links, and any idea of what is compressed. *)
Context (fs : fsys) (encoded : str -> bool).

(** C47, for requests that do not try to leave: whatever is read lies beneath one
    of the configured directories, and what is sent is the content of that file. *)
Theorem C47_inside_partial : forall sv p, Forall resolved (sv_paths sv) -> harmless p ->
  forall loc c, get_handler fs encoded sv p = Served loc c \/ get_handler fs encoded sv p = Rendered loc c ->
  exists dir, In dir (sv_paths sv) /\ beneath dir loc /\ fs loc = Some (File c).
Proof.
  intros sv p R (rest & -> & A & S & Ne) loc c H. unfold get_handler in H.
  destruct (prefix _ _); [destruct H; discriminate|].
  destruct (try_file fs encoded (sv_paths sv) (lit "/" ++ rest)) as [a|] eqn:T.
  - apply (try_file_beneath fs encoded (sv_paths sv) rest R A S Ne a T loc c H).
  - exfalso. destruct (try_redirect _ _) as [a|] eqn:D; [unfold try_redirect in D; destruct (lookup _ _); [injection D as <-; destruct H; discriminate|discriminate]|].
    destruct (path_has_part _ _); [destruct H; discriminate|]. destruct (_ || _); destruct H; discriminate.
Qed.

(** C47.  Refuted: every file of the machine is served to a request that begins
    with two slashes (if there is no markdown file of the same name, which would
    be served instead, and it is not a compressed file). *)
Theorem C47_absolute_refuted : forall sv loc c, sv_paths sv <> [] -> loc <> [] -> Forall is_name loc -> is_file fs loc c ->
  (forall m, fs (markdown_of loc) <> Some (File m)) -> encoded (last loc []) = false ->
  get_handler fs encoded sv (lit "/" ++ request loc) = Served loc c.
Proof.
  intros sv loc c P Ne N F M E. unfold get_handler. change (prefix (lit "/favicon") (lit "/" ++ request loc)) with false. cbn iota.
  destruct (sv_paths sv) as [|d ds]; [congruence|]. cbn [try_file]. change (tl (lit "/" ++ request loc)) with (47 :: join 47 loc).
  unfold joinpath. rewrite root_abs by assumption. rewrite parts_slash, parts_join by exact N. cbn [p_parts]. rewrite with_suffix_md.
  rewrite (file_at_none fs 1 (markdown_of loc)) by (try apply md_names; assumption). destruct loc as [|x loc]; [congruence|].
  rewrite (file_at_names fs 1 (x :: loc) c N F), E. reflexivity.
Qed.

(** C47.  Refuted: with as many ".." as the directory is deep, too. *)
Theorem C47_dotdot_refuted : forall sv dir dirs loc c, sv_paths sv = dir :: dirs -> resolved dir -> p_parts dir <> [] ->
  (forall pre post, p_parts dir = pre ++ post -> fs pre = Some Dir) -> loc <> [] -> Forall is_name loc -> is_file fs loc c ->
  (forall m, fs (markdown_of loc) <> Some (File m)) -> encoded (last loc []) = false ->
  get_handler fs encoded sv (lit "/" ++ ups (List.length (p_parts dir)) ++ join 47 loc) = Served loc c.
Proof.
  intros sv dir dirs loc c P [Rd Nd] Nd0 D Ne N F M E. unfold get_handler.
  assert (X : prefix (lit "/favicon") (lit "/" ++ ups (List.length (p_parts dir)) ++ join 47 loc) = false) by (destruct (p_parts dir); [congruence|reflexivity]).
  rewrite X, P. cbn [try_file]. change (tl (lit "/" ++ ups (List.length (p_parts dir)) ++ join 47 loc)) with (ups (List.length (p_parts dir)) ++ join 47 loc).
  set (cand := joinpath dir _).
  assert (C : cand = mkPath 1 (p_parts dir ++ repeat (lit "..") (List.length (p_parts dir)) ++ loc)).
  { unfold cand, joinpath. rewrite parts_ups, parts_join by exact N. rewrite root_rel; [rewrite Rd; reflexivity|]. intros r. destruct (p_parts dir); [congruence|discriminate]. }
  assert (Wk : forall l, walk fs [] (p_parts dir ++ repeat (lit "..") (List.length (p_parts dir)) ++ l) = walk fs [] l).
  { intros l. rewrite walk_app. rewrite (walk_names fs (p_parts dir) Nd []). 2:{ intros pre x post Ep. apply (D pre (x :: post) Ep). }
    cbn [app]. rewrite walk_app, (walk_ups fs (p_parts dir) D). reflexivity. }
  assert (Fc : file_at fs cand = Some (loc, c)).
  { rewrite C. unfold file_at. cbn [p_parts]. rewrite Wk. apply (file_at_names fs 1 loc c N F). }
  assert (Fm : file_at fs (with_suffix cand (lit ".md")) = None).
  { rewrite C, with_suffix_md. rewrite app_assoc, md_app by exact Ne. rewrite <- app_assoc. unfold file_at. cbn [p_parts]. rewrite Wk. apply (file_at_none fs 1 (markdown_of loc)); [apply md_names; assumption|exact M]. }
  rewrite Fc, Fm. assert (L : last (p_parts cand) [] = last loc []) by (rewrite C; cbn [p_parts]; rewrite app_assoc; apply last_app_r, Ne). rewrite L, E.
  destruct (match p_parts cand with [] => true | _ => false end); reflexivity.
Qed.

(** C47.  Refuted: the request "/" is answered with the markdown file beside the
    first directory, such as /srv/www.md for the directory /srv/www. *)
Theorem C47_sibling_refuted : forall sv dir dirs c, sv_paths sv = dir :: dirs -> resolved dir -> p_parts dir <> [] -> fs (p_parts dir) = Some Dir ->
  is_file fs (markdown_of (p_parts dir)) c ->
  get_handler fs encoded sv (lit "/") = Rendered (markdown_of (p_parts dir)) c /\ ~ beneath dir (markdown_of (p_parts dir)).
Proof.
  intros sv dir dirs c P [Rd Nd] Ne Dd F. split.
  - unfold get_handler. change (prefix (lit "/favicon") (lit "/")) with false. cbn iota. rewrite P. cbn [try_file]. change (tl (lit "/")) with (@nil Z).
    unfold joinpath. change (root_of []) with 0%nat. cbn iota. change (parts_of []) with (@nil str). rewrite app_nil_r. rewrite with_suffix_md.
    rewrite (file_at_names fs _ (markdown_of (p_parts dir)) c (md_names _ Ne Nd) F). cbn [p_parts]. destruct (p_parts dir); [congruence|reflexivity].
  - intros [rest E]. pose proof E as E0. apply (f_equal (@List.length str)) in E. unfold markdown_of in E. rewrite !app_length in E. rewrite (removelast_firstn_len (p_parts dir)), firstn_length in E. cbn [List.length] in E.
    assert (L : (0 < List.length (p_parts dir))%nat) by (destruct (p_parts dir); [congruence|cbn; lia]).
    destruct rest; [|cbn in E; lia]. rewrite app_nil_r in E0. destruct F as [F _]. rewrite E0, Dd in F. discriminate.
Qed.

(** C60, for a file in a configured directory: if the directories before have
    nothing of that name and there is no markdown file of the same name, the
    request for its path (relative to the directory) is answered with its
    content, unless the path begins with "favicon" or the file is compressed. *)
Theorem C60_served_partial : forall sv before dir after names c, sv_paths sv = before ++ dir :: after ->
  Forall resolved (sv_paths sv) -> names <> [] -> Forall is_name names -> is_file fs (p_parts dir ++ names) c ->
  (forall d, In d before -> (forall x, fs (p_parts d ++ names) <> Some (File x)) /\ (forall x, fs (markdown_of (p_parts d ++ names)) <> Some (File x))) ->
  (forall x, fs (markdown_of (p_parts dir ++ names)) <> Some (File x)) ->
  prefix (lit "favicon") (hd [] names) = false -> encoded (last names []) = false ->
  get_handler fs encoded sv (request names) = Served (p_parts dir ++ names) c.
Proof.
  intros sv before dir after names c P R Ne N F B M Fv E. unfold get_handler.
  assert (X : prefix (lit "/favicon") (request names) = false).
  { clear - Ne N Fv. destruct names as [|x names]; [congruence|]. cbn [hd] in Fv. inversion N as [|? ? (_ & _ & _ & Nx) _]; subst. unfold request.
    change (prefix (lit "/favicon") (lit "/" ++ join 47 (x :: names))) with (prefix (lit "favicon") (join 47 (x :: names))).
    assert (G : forall a y t, ~ In 47 a -> prefix a y = false -> prefix a (y ++ 47 :: t) = false).
    { clear. induction a as [|z a IH]; intros y t Na H; [destruct y; discriminate|]. destruct y as [|w y]; cbn [prefix app] in *.
      - destruct (z =? 47) eqn:Q; [|reflexivity]. apply Z.eqb_eq in Q. destruct Na. left. exact Q.
      - destruct (z =? w); [|reflexivity]. cbn [andb] in *. apply IH; [intros K; apply Na; right; exact K|exact H]. }
    destruct names as [|y names]; [exact Fv|]. change (join 47 (x :: y :: names)) with (x ++ 47 :: join 47 (y :: names)). apply G; [|exact Fv].
    cbn. intros K. repeat (destruct K as [K|K]; [discriminate|]). destruct K. }
  rewrite X, P. change (request names) with (lit "/" ++ join 47 names).
  rewrite P in R. apply Forall_app in R. destruct R as [Rb Rd]. inversion Rd as [|? ? [Rd1 Nd] _]; subst.
  rewrite try_file_skip.
  - cbn [try_file]. change (tl (lit "/" ++ join 47 names)) with (join 47 names). rewrite join_names by assumption. cbn [p_parts]. rewrite with_suffix_md.
    rewrite (file_at_none fs _ (markdown_of (p_parts dir ++ names))). 2:{ apply md_names; [|apply Forall_app; auto]. intros K. apply app_eq_nil in K. tauto. } 2:{ exact M. }
    rewrite (file_at_names fs _ (p_parts dir ++ names) c); [|apply Forall_app; auto|exact F]. rewrite last_app_r by exact Ne. rewrite E.
    destruct (match p_parts dir ++ names with [] => true | _ => false end); reflexivity.
  - intros d Hd. change (tl (lit "/" ++ join 47 names)) with (join 47 names). rewrite join_names by assumption. rewrite with_suffix_md. destruct (B d Hd) as [B1 B2].
    rewrite Forall_forall in Rb. destruct (Rb d Hd) as [_ Nb]. split; apply file_at_none.
    + apply Forall_app. auto.
    + exact B1.
    + apply md_names; [intros K; apply app_eq_nil in K; tauto|apply Forall_app; auto].
    + exact B2.
Qed.

(** C60.  Refuted: a markdown file hides every file of the same name with another
    suffix: the request for a.png is answered with a.md as HTML. *)
Theorem C60_markdown_refuted : forall sv dir after names c, sv_paths sv = dir :: after -> resolved dir -> names <> [] -> Forall is_name names ->
  prefix (lit "/favicon") (request names) = false -> is_file fs (markdown_of (p_parts dir ++ names)) c ->
  get_handler fs encoded sv (request names) = Rendered (markdown_of (p_parts dir ++ names)) c.
Proof.
  intros sv dir after names c P [Rd Nd] Ne N X F. unfold get_handler. rewrite X, P. change (request names) with (lit "/" ++ join 47 names).
  cbn [try_file]. change (tl (lit "/" ++ join 47 names)) with (join 47 names). rewrite join_names by assumption. cbn [p_parts]. rewrite with_suffix_md.
  rewrite (file_at_names fs _ (markdown_of (p_parts dir ++ names)) c); [|apply md_names; [intros K; apply app_eq_nil in K; tauto|apply Forall_app; auto]|exact F].
  destruct (p_parts dir ++ names) as [|? ?] eqn:K; [apply app_eq_nil in K; tauto|reflexivity].
Qed.
(** C60.  Refuted: the request for a compressed file raises an assertion. *)
Theorem C60_encoded_refuted : forall sv dir after names c, sv_paths sv = dir :: after -> resolved dir -> names <> [] -> Forall is_name names ->
  prefix (lit "/favicon") (request names) = false -> is_file fs (p_parts dir ++ names) c -> (forall x, fs (markdown_of (p_parts dir ++ names)) <> Some (File x)) ->
  encoded (last names []) = true ->
  get_handler fs encoded sv (request names) = Raises.
Proof.
  intros sv dir after names c P [Rd Nd] Ne N X F M E. unfold get_handler. rewrite X, P. change (request names) with (lit "/" ++ join 47 names).
  cbn [try_file]. change (tl (lit "/" ++ join 47 names)) with (join 47 names). rewrite join_names by assumption. cbn [p_parts]. rewrite with_suffix_md.
  rewrite (file_at_none fs _ (markdown_of (p_parts dir ++ names))). 2:{ apply md_names; [intros K; apply app_eq_nil in K; tauto|apply Forall_app; auto]. } 2:{ exact M. }
  rewrite (file_at_names fs _ (p_parts dir ++ names) c); [|apply Forall_app; auto|exact F]. rewrite last_app_r by exact Ne. rewrite E.
  destruct (match p_parts dir ++ names with [] => true | _ => false end); reflexivity.
Qed.
(** C60.  Refuted: a file whose path begins with "favicon" is never served. *)
Theorem C60_favicon_refuted : forall sv rest, get_handler fs encoded sv (lit "/favicon" ++ rest) = Favicon.
Proof. intros sv rest. unfold get_handler. reflexivity. Qed.
End Serve.
Print Assumptions C47_inside_partial.
Print Assumptions C47_absolute_refuted.
Print Assumptions C47_dotdot_refuted.
Print Assumptions C47_sibling_refuted.
Print Assumptions C60_served_partial.
Print Assumptions C60_markdown_refuted.
Print Assumptions C60_encoded_refuted.
Print Assumptions C60_favicon_refuted.

(** C61.  The path /json/a/b/c asks for the keys a, b, c, with any query. *)
Theorem C61_request : forall keys, keys <> [] -> Forall (fun k => ~ In 47 k /\ ~ In 63 k) keys -> forall query,
  let p := target_path (lit "/json/" ++ join 47 keys ++ query) in
  query = [] \/ (exists q, query = lit "?" ++ q) ->
  path_has_part p (lit "json") = true /\ parse_path_parts p (lit "json") = keys.
Proof.
  intros keys Ne F query p Q.
  assert (F1 : Forall (fun k => ~ In 47 k) keys) by (eapply Forall_impl; [|exact F]; cbn; tauto).
  assert (P : p = lit "/json/" ++ join 47 keys).
  { unfold p, target_path. assert (N : ~ In 63 (lit "/json/" ++ join 47 keys)).
    { intros H. apply in_app_iff in H. destruct H as [H|H]; [cbn in H; repeat (destruct H as [H|H]; [discriminate|]); destruct H|].
      clear - F H. induction F as [|x l [_ Fx] F IH]; [destruct H|]. destruct l as [|y l]; [apply Fx, H|]. change (join 47 (x :: y :: l)) with (x ++ 47 :: join 47 (y :: l)) in H.
      apply in_app_iff in H. destruct H as [H|[H|H]]; [apply Fx, H|discriminate|apply IH, H]. }
    destruct Q as [->|[q ->]].
    - rewrite app_nil_r. rewrite split_on_none by exact N. reflexivity.
    - rewrite app_assoc. change (lit "?" ++ q) with (63 :: q). rewrite split_on_app by exact N. reflexivity. }
  assert (S : tl (split_on slash p) = lit "json" :: keys).
  { rewrite P. change (lit "/json/" ++ join 47 keys) with ([] ++ 47 :: (lit "json" ++ 47 :: join 47 keys)). unfold slash. rewrite split_on_app by (intros []). cbn [tl].
    rewrite split_on_app by (cbn; intros K; repeat (destruct K as [K|K]; [discriminate|]); destruct K). rewrite split_join by assumption. reflexivity. }
  unfold path_has_part, parse_path_parts. rewrite S. split; reflexivity.
Qed.
Print Assumptions C61_request.

(** C61.  The answer is the data the keys lead to (empty keys are skipped), called
    if it can be called ... *)
Theorem C61_found : forall root keys x, sane root -> leads root (filter (fun k => negb (str_eqb k [])) keys) x -> traverse_dict root keys = Found (jcall x).
Proof.
  intros root keys x Sn L. assert (E : filter (fun k => negb (str_eqb k [])) keys = nonempty keys) by (apply filter_ext; intros [|a k]; reflexivity). rewrite E in L.
  pose proof (traverse_ok root Sn keys [] root (leads_here root)) as T. unfold traverse_dict. destruct (traverse root [] keys) as [d|part cur|part cur]; cbn [app] in T.
  - destruct T as (y & Ly & ->). rewrite (leads_fun root Sn _ _ L _ Ly). reflexivity.
  - exfalso. destruct T as (pre & post & y & Ek & Ly & Nd & _). rewrite Ek in L. change (part :: post) with ([part] ++ post) in L. rewrite app_assoc in L. destruct (leads_prefix root _ _ _ L) as [z Lz].
    inversion Lz as [H|ks x2 l k2 y2 L2 J2 I2 H]; [destruct pre; discriminate|]. apply app_inj_tail in H. destruct H as [-> ->]. rewrite (leads_fun root Sn _ _ L2 _ Ly) in J2. apply Nd. exists l. exact J2.
  - exfalso. destruct T as (pre & post & y & l & Ek & Ly & J & Nk & _). rewrite Ek in L. change (part :: post) with ([part] ++ post) in L. rewrite app_assoc in L. destruct (leads_prefix root _ _ _ L) as [z Lz].
    inversion Lz as [H|ks x2 l2 k2 y2 L2 J2 I2 H]; [destruct pre; discriminate|]. apply app_inj_tail in H. destruct H as [-> ->]. rewrite (leads_fun root Sn _ _ L2 _ Ly), J in J2. injection J2 as <-.
    apply Nk. apply in_map_iff. exists (part, z). auto.
Qed.
Print Assumptions C61_found.

(** C61.  ... and otherwise it names the first key that leads nowhere and the path
    up to it, and tells whether there is no such key or nothing to look it up in. *)
Theorem C61_error : forall root keys, sane root ->
  let names := filter (fun k => negb (str_eqb k [])) keys in
  match traverse_dict root keys with
  | Found d => exists x, leads root names x /\ d = jcall x
  | NotDict part cur => exists pre post x, names = pre ++ part :: post /\ leads root pre x /\ ~ is_dict x /\ cur = join 46 (pre ++ [part])
  | NoKey part cur => exists pre post x l, names = pre ++ part :: post /\ leads root pre x /\ jcall x = JDict l /\ ~ In part (map fst l) /\ cur = join 46 (pre ++ [part])
  end.
Proof.
  intros root keys Sn names. assert (E : names = nonempty keys) by (apply filter_ext; intros [|a k]; reflexivity). rewrite E.
  exact (traverse_ok root Sn keys [] root (leads_here root)).
Qed.
Print Assumptions C61_error.

(** A small machine: /srv/www with index.html, a.png and a.md, x.tar.gz; /srv/www.md;
    /etc/passwd. *)
Definition files : list (list str * node) :=
  map (fun x => (map lit (fst x), snd x))
  [([], Dir); (["srv"], Dir); (["srv"; "www"], Dir); (["etc"], Dir); (["etc"; "passwd"], File [1]);
   (["srv"; "www"; "index.html"], File [2]); (["srv"; "www"; "a.png"], File [3]); (["srv"; "www"; "a.md"], File [4]);
   (["srv"; "www"; "x.tar.gz"], File [5]); (["srv"; "www.md"], File [6]); (["srv"; "www"; "faviconx"], File [7])]%string.
Fixpoint locate (l : list (list str * node)) (p : list str) : option node :=
  match l with [] => None | (q, n) :: l => if path_eqb (mkPath 1 p) (mkPath 1 q) then Some n else locate l p end.
Definition disk : fsys := locate files.
Definition gz (name : str) : bool := str_eqb (skipn (List.length name - 3) name) (lit ".gz").
Definition www : path := mkPath 1 [lit "srv"; lit "www"].
Definition site : server := mkServer [www] [(path_of (lit "/old"), lit "/new")] [lit "/app"] false.
Example C47_case :
  map (fun r => get_handler disk gz site (lit r)) ["/index.html"; "/./x/../index.html"; "/a.png"; "/x.tar.gz"; "/faviconx"; "//etc/passwd"; "/../../etc/passwd"; "/"; "/old"; "/old/"; "/json/a//b"; "/app"; "/nope"]%string =
  [Served [lit "srv"; lit "www"; lit "index.html"] [2]; Redirected (lit "/404.html"); Rendered [lit "srv"; lit "www"; lit "a.md"] [4]; Raises; Favicon;
   Served [lit "etc"; lit "passwd"] [1]; Served [lit "etc"; lit "passwd"] [1]; Rendered [lit "srv"; lit "www.md"] [6];
   Redirected (lit "/new"); Redirected (lit "/new"); Json [lit "a"; []; lit "b"]; AppPage (lit "/app"); Redirected (lit "/404.html")].
Proof. vm_compute. reflexivity. Qed.
Lemma name_ok x : (negb (str_eqb x []) && negb (str_eqb x (lit ".")) && negb (str_eqb x (lit "..")) && negb (existsb (Z.eqb 47) x)) = true -> is_name x.
Proof.
  intros H. apply andb_prop in H. destruct H as [H H4]. apply andb_prop in H. destruct H as [H H3]. apply andb_prop in H. destruct H as [H1 H2].
  repeat split; try (intros ->; discriminate). intros K. rewrite (proj2 (existsb_exists _ _)) in H4; [discriminate|]. exists 47. auto.
Qed.
Example C47_case_hypotheses : Forall resolved (sv_paths site) /\ harmless (lit "/./index.html") /\ is_file disk (map lit ["etc"; "passwd"]%string) [1] /\
  is_file disk (markdown_of (p_parts www)) [6] /\ Forall is_name (map lit ["etc"; "passwd"]%string).
Proof.
  split; [|split; [|split; [|split]]].
  - constructor; [|constructor]. split; [reflexivity|]. repeat constructor; apply name_ok; reflexivity.
  - exists (lit "./index.html"). split; [reflexivity|]. split; [intros r; discriminate|]. vm_compute. split; [exact I|discriminate].
  - split; [reflexivity|]. intros [|a [|b [|d pre]]] x post E; try (injection E as <- <- <-); try reflexivity; try (injection E; intros; subst; reflexivity); discriminate.
  - split; [reflexivity|]. intros [|a [|b [|d pre]]] x post E; try (injection E as <- <- <-); try reflexivity; try (injection E; intros; subst; reflexivity); discriminate.
  - repeat constructor; apply name_ok; reflexivity.
Qed.
Definition data : jdata := JDict [(lit "test", JCall (JDict [(lit "a", JLeaf 1); (lit "b", JCall (JLeaf 2))]))].
Example C61_case :
  traverse_dict data [lit "test"; []; lit "b"] = Found (JLeaf 2) /\ traverse_dict data [lit "test"; lit "c"; lit "d"] = NoKey (lit "c") (lit "test.c") /\
  traverse_dict data [lit "test"; lit "a"; lit "x"] = NotDict (lit "x") (lit "test.a.x").
Proof. vm_compute. repeat split. Qed.
Example C61_case_leads : leads data [lit "test"; lit "b"] (JCall (JLeaf 2)).
Proof.
  change [lit "test"; lit "b"] with ([lit "test"] ++ [lit "b"]). eapply leads_key; [change [lit "test"] with ([] ++ [lit "test"]); eapply leads_key; [apply leads_here|reflexivity|left; reflexivity]|reflexivity|right; left; reflexivity].
Qed.
Example C61_case_sane : sane data.
Proof.
  assert (K : forall keys x, leads data keys x -> In x [data; JCall (JDict [(lit "a", JLeaf 1); (lit "b", JCall (JLeaf 2))]); JLeaf 1; JCall (JLeaf 2)]).
  { intros keys x L. induction L as [|keys x l k y L IH J I]; [left; reflexivity|].
    destruct IH as [<-|[<-|[<-|[<-|[]]]]]; try discriminate; injection J as <-; destruct I as [I|I]; [injection I as <- <-; right; left; reflexivity|destruct I|injection I as <- <-; do 2 right; left; reflexivity|].
    destruct I as [I|[]]. injection I as <- <-. do 3 right. left. reflexivity. }
  intros keys x l L J. apply K in L. destruct L as [<-|[<-|[<-|[<-|[]]]]]; try discriminate; injection J as <-; vm_compute; repeat constructor; cbn; intros H; repeat (destruct H as [H|H]; try discriminate); exact H.
Qed.
