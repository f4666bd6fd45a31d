(** Proofs about the HTTP server. *)
From Verif Require Import Base BaseLemmas PyStrModel PyStrProofs ServeModel ServeSpec.
From Coq Require Import ZifyBool ZifyNat Lia.
Open Scope list_scope.
Open Scope Z_scope.

Lemma name_parts x : is_name x -> meaningful x = true.
Proof.
  intros (N1 & N2 & _). unfold meaningful. destruct (str_eqb x []) eqn:A; [apply str_eqb_eq in A; congruence|]. destruct (str_eqb x (lit ".")) eqn:B; [apply str_eqb_eq in B; congruence|]. reflexivity.
Qed.
Lemma name_dots x : is_name x -> str_eqb x (lit "..") = false.
Proof. intros (_ & _ & N & _). destruct (str_eqb x (lit "..")) eqn:A; [apply str_eqb_eq in A; congruence|reflexivity]. Qed.
Lemma parts_join l : Forall is_name l -> parts_of (join 47 l) = l.
Proof.
  unfold parts_of, slash. induction 1 as [|x l H F IH]; [reflexivity|].
  destruct l as [|y l].
  - cbn [join]. rewrite split_on_none by apply H. cbn [filter]. rewrite name_parts by exact H. reflexivity.
  - change (join 47 (x :: y :: l)) with (x ++ 47 :: join 47 (y :: l)). rewrite split_on_app by apply H. cbn [filter]. rewrite name_parts by exact H. f_equal. exact IH.
Qed.
Lemma parts_slash s : parts_of (47 :: s) = parts_of s.
Proof. unfold parts_of. cbn [split_on]. change (47 =? slash) with true. cbn iota. reflexivity. Qed.
Lemma parts_dots s : parts_of (lit "../" ++ s) = lit ".." :: parts_of s.
Proof. unfold parts_of. change (lit "../" ++ s) with ([46; 46] ++ slash :: s). rewrite split_on_app by (cbn; unfold slash; intros [H|[H|[]]]; discriminate). reflexivity. Qed.

(** ** Walking *)
Lemma walk_names fs l : Forall is_name l -> forall cur, (forall pre x post, l = pre ++ x :: post -> fs (cur ++ pre) = Some Dir) -> walk fs cur l = Some (cur ++ l).
Proof.
  induction 1 as [|x l H F IH]; intros cur D; [cbn; rewrite app_nil_r; reflexivity|]. cbn [walk].
  pose proof (D [] x l eq_refl) as D0. rewrite app_nil_r in D0. rewrite D0, name_dots by exact H.
  rewrite IH; [rewrite <- app_assoc; reflexivity|]. intros pre y post E. rewrite <- app_assoc. apply (D (x :: pre) y post). rewrite E. reflexivity.
Qed.
Lemma walk_app fs a : forall cur b, walk fs cur (a ++ b) = match walk fs cur a with Some cur' => walk fs cur' b | None => None end.
Proof. induction a as [|x a IH]; intros cur b; [reflexivity|]. cbn [walk app]. destruct (fs cur) as [[|]|]; try reflexivity. destruct (str_eqb x (lit "..")); apply IH. Qed.
Lemma walk_names_res fs l : Forall is_name l -> forall cur loc, walk fs cur l = Some loc -> loc = cur ++ l.
Proof.
  induction 1 as [|x l H F IH]; intros cur loc W; [cbn in W; injection W as <-; rewrite app_nil_r; reflexivity|]. cbn [walk] in W.
  destruct (fs cur) as [[|]|]; try discriminate. rewrite name_dots in W by exact H. apply IH in W. rewrite W, <- app_assoc. reflexivity.
Qed.
Lemma walk_stays fs base l : forall x loc, stays (List.length x) l -> walk fs (base ++ x) l = Some loc -> exists y, loc = base ++ y.
Proof.
  induction l as [|c l IH]; intros x loc S W; [injection W as <-; exists x; reflexivity|]. cbn [walk stays] in *.
  destruct (fs (base ++ x)) as [[|]|]; try discriminate. destruct (str_eqb c (lit "..")).
  - destruct (List.length x) as [|n] eqn:L; [destruct S|]. destruct x as [|z x]; [discriminate|].
    rewrite removelast_app in W by discriminate. apply (IH (removelast (z :: x)) loc); [|exact W].
    replace (List.length (removelast (z :: x))) with n; [exact S|]. rewrite removelast_firstn_len, firstn_length. lia.
  - rewrite <- app_assoc in W. apply (IH (x ++ [c]) loc); [|exact W]. rewrite app_length. cbn [List.length]. rewrite Nat.add_1_r. exact S.
Qed.

(** ** The markdown candidate *)
Lemma md_not_dots s : str_eqb (s ++ lit ".md") (lit "..") = false.
Proof.
  destruct (str_eqb (s ++ lit ".md") (lit "..")) eqn:E; [|reflexivity]. apply str_eqb_eq in E. apply (f_equal (@List.length Z)) in E. rewrite app_length in E. cbn in E. lia.
Qed.
Lemma stays_last n l x : stays n (removelast l) -> str_eqb x (lit "..") = false -> stays n (removelast l ++ [x]).
Proof.
  generalize (removelast l) as m. intros m. revert n. induction m as [|c m IH]; intros n S X; cbn [stays app] in *; [rewrite X; exact I|].
  destruct (str_eqb c (lit "..")); [destruct n; [destruct S|]|]; apply IH; assumption.
Qed.
Lemma stays_removelast n l : stays n l -> stays n (removelast l).
Proof.
  revert n. induction l as [|c l IH]; intros n S; [exact S|]. destruct l as [|d l]; [exact I|].
  change (removelast (c :: d :: l)) with (c :: removelast (d :: l)). cbn [stays] in *. destruct (str_eqb c (lit "..")); [destruct n; [destruct S|]|]; apply IH; exact S.
Qed.

Lemma removelast_app_r {A} (a b : list A) : b <> [] -> removelast (a ++ b) = a ++ removelast b.
Proof. apply removelast_app. Qed.
Lemma last_app_r {A} (a b : list A) d : b <> [] -> last (a ++ b) d = last b d.
Proof.
  intros N. induction a as [|x a IH]; [reflexivity|]. cbn [app last]. destruct (a ++ b) eqn:E; [apply app_eq_nil in E; destruct E; congruence|]. exact IH.
Qed.
(** What is found for a harmless request is beneath the directory. *)
Lemma found_beneath fs dir rest p : resolved dir -> stays 0 rest ->
  (p = mkPath (p_root dir) (p_parts dir ++ rest) \/ (rest <> [] /\ p = with_suffix (mkPath (p_root dir) (p_parts dir ++ rest)) (lit ".md"))) ->
  forall loc c, file_at fs p = Some (loc, c) -> beneath dir loc /\ fs loc = Some (File c).
Proof.
  intros [_ N] S P loc c F. unfold file_at in F. destruct (walk fs [] (p_parts p)) as [loc'|] eqn:W; [|discriminate].
  destruct (fs loc') as [[c'|]|] eqn:Fl; try discriminate. injection F as -> ->. split; [|exact Fl].
  assert (X : exists r, p_parts p = p_parts dir ++ r /\ stays 0 r).
  { destruct P as [->|[Ne ->]]; [exists rest; auto|]. unfold with_suffix. cbn [p_parts]. rewrite removelast_app by exact Ne. rewrite <- app_assoc. eexists. split; [reflexivity|].
    apply stays_last; [apply stays_removelast, S|apply md_not_dots]. }
  destruct X as (r & E & Sr). rewrite E, walk_app in W. destruct (walk fs [] (p_parts dir)) as [cur|] eqn:Wd; [|discriminate].
  apply (walk_names_res fs _ N) in Wd. subst cur. cbn [app] in W. rewrite <- (app_nil_r (p_parts dir)) in W. apply (walk_stays fs (p_parts dir) r [] loc Sr W).
Qed.
Lemma root_rel s : (forall r, s <> lit "/" ++ r) -> root_of s = 0%nat.
Proof.
  intros H. assert (X : forall a t, s = a :: t -> (a =? slash) = false).
  { intros a t E. destruct (a =? slash) eqn:Q; [|reflexivity]. apply Z.eqb_eq in Q. destruct (H t). rewrite E, Q. reflexivity. }
  destruct s as [|a [|b [|c s]]]; cbn [root_of]; try reflexivity; rewrite (X _ _ eq_refl); reflexivity.
Qed.
Lemma try_file_beneath fs encoded paths rest : Forall resolved paths -> (forall r, rest <> lit "/" ++ r) -> stays 0 (parts_of rest) -> parts_of rest <> [] ->
  forall a, try_file fs encoded paths (lit "/" ++ rest) = Some a -> forall loc c, a = Served loc c \/ a = Rendered loc c ->
  exists dir, In dir paths /\ beneath dir loc /\ fs loc = Some (File c).
Proof.
  intros R A S Ne. induction R as [|dir paths Rd R IH]; intros a T loc c O; [discriminate|]. cbn [try_file] in T. change (tl (lit "/" ++ rest)) with rest in T.
  set (cand := joinpath dir rest) in *.
  assert (C : cand = mkPath (p_root dir) (p_parts dir ++ parts_of rest)) by (unfold cand, joinpath; rewrite root_rel by exact A; reflexivity).
  destruct (match p_parts cand with [] => true | _ => false end) eqn:E.
  - destruct (file_at fs cand) as [[l1 c1]|] eqn:F.
    + injection T as <-. destruct (encoded _); [destruct O; discriminate|]. assert (l1 = loc /\ c1 = c) as [-> ->] by (destruct O as [O|O]; [injection O as -> ->; auto|discriminate]).
      exists dir. split; [left; reflexivity|]. apply (found_beneath fs dir (parts_of rest) cand Rd S (or_introl C) loc c F).
    + destruct (IH a T loc c O) as (d & Hd & K). exists d. split; [right; exact Hd|exact K].
  - destruct (file_at fs (with_suffix cand (lit ".md"))) as [[l1 c1]|] eqn:M.
    + injection T as <-. assert (l1 = loc /\ c1 = c) as [-> ->] by (destruct O as [O|O]; [discriminate|injection O as -> ->; auto]).
      exists dir. split; [left; reflexivity|]. apply (found_beneath fs dir (parts_of rest) (with_suffix cand (lit ".md")) Rd S); [right; split; [exact Ne|rewrite C; reflexivity]|exact M].
    + destruct (file_at fs cand) as [[l1 c1]|] eqn:F.
      * injection T as <-. destruct (encoded _); [destruct O; discriminate|]. assert (l1 = loc /\ c1 = c) as [-> ->] by (destruct O as [O|O]; [injection O as -> ->; auto|discriminate]).
        exists dir. split; [left; reflexivity|]. apply (found_beneath fs dir (parts_of rest) cand Rd S (or_introl C) loc c F).
      * destruct (IH a T loc c O) as (d & Hd & K). exists d. split; [right; exact Hd|exact K].
Qed.

(** ** Finding a file *)
Lemma file_at_names fs r loc c : Forall is_name loc -> is_file fs loc c -> file_at fs (mkPath r loc) = Some (loc, c).
Proof.
  intros N [F D]. unfold file_at. cbn [p_parts]. rewrite (walk_names fs loc N []).
  - cbn [app]. rewrite F. reflexivity.
  - intros pre x post E. apply (D pre x post E).
Qed.
Lemma md_name x : is_name x -> is_name (stem x ++ lit ".md").
Proof.
  intros (N1 & N2 & N3 & N4). repeat split.
  - intros E. apply app_eq_nil in E. destruct E. discriminate.
  - intros E. apply (f_equal (@List.length Z)) in E. rewrite app_length in E. cbn in E. lia.
  - intros E. apply (f_equal (@List.length Z)) in E. rewrite app_length in E. cbn in E. lia.
  - intros H. apply in_app_iff in H. destruct H as [H|H].
    + apply N4. unfold stem in H. destruct (last_dot x) as [n|]; [|exact H]. destruct (_ && _); [|exact H]. rewrite <- (firstn_skipn n x). apply in_app_iff. auto.
    + cbn in H. destruct H as [H|[H|[H|[]]]]; discriminate.
Qed.
Lemma last_In {A} (l : list A) d : l <> [] -> In (last l d) l.
Proof. induction l as [|x l IH]; [congruence|]. intros _. destruct l as [|y l]; [left; reflexivity|]. right. apply IH. discriminate. Qed.
Lemma md_names loc : loc <> [] -> Forall is_name loc -> Forall is_name (markdown_of loc).
Proof.
  intros Ne N. unfold markdown_of. apply Forall_app. split.
  - rewrite Forall_forall in *. intros x Hx. apply N. rewrite (app_removelast_last [] Ne). apply in_app_iff. auto.
  - constructor; [|constructor]. apply md_name. rewrite Forall_forall in N. apply N. apply last_In, Ne.
Qed.
(** If a path of names does not lead to a file there is none. *)
Lemma file_at_none fs r loc : Forall is_name loc -> (forall c, fs loc <> Some (File c)) -> file_at fs (mkPath r loc) = None.
Proof.
  intros N H. unfold file_at. cbn [p_parts]. destruct (walk fs [] loc) as [l|] eqn:W; [|reflexivity]. apply (walk_names_res fs loc N) in W. cbn [app] in W. subst l.
  destruct (fs loc) as [[c|]|] eqn:F; try reflexivity. destruct (H c). reflexivity.
Qed.
Lemma with_suffix_md r loc : with_suffix (mkPath r loc) (lit ".md") = mkPath r (markdown_of loc).
Proof. reflexivity. Qed.
Lemma join_head loc : loc <> [] -> Forall is_name loc -> exists a s, join 47 loc = a :: s /\ a <> 47.
Proof.
  intros Ne N. destruct loc as [|x loc]; [congruence|]. inversion N as [|? ? (N1 & _ & _ & N4) N']; subst. destruct x as [|a x]; [congruence|].
  exists a. destruct loc as [|y loc]; cbn [join app]; eexists; (split; [reflexivity|]); intros ->; apply N4; left; reflexivity.
Qed.
Lemma root_abs loc : loc <> [] -> Forall is_name loc -> root_of (47 :: join 47 loc) = 1%nat.
Proof.
  intros Ne N. destruct (join_head loc Ne N) as (a & s & -> & Ha). apply Z.eqb_neq in Ha. destruct s as [|b s]; cbn [root_of]; unfold slash; rewrite Ha; cbn; reflexivity.
Qed.
Lemma root_join loc : loc <> [] -> Forall is_name loc -> root_of (join 47 loc) = 0%nat.
Proof. intros Ne N. apply root_rel. destruct (join_head loc Ne N) as (a & s & -> & Ha). intros r E. injection E as E _. congruence. Qed.

(** ".." from a directory to the root and down again. *)
Fixpoint ups (n : nat) : str := match n with O => [] | S n => lit "../" ++ ups n end.
Lemma parts_ups n s : parts_of (ups n ++ s) = repeat (lit "..") n ++ parts_of s.
Proof. induction n as [|n IH]; [reflexivity|]. cbn [ups]. rewrite <- app_assoc, parts_dots, IH. reflexivity. Qed.
Lemma walk_ups fs dir : (forall pre post, dir = pre ++ post -> fs pre = Some Dir) -> walk fs dir (repeat (lit "..") (List.length dir)) = Some [].
Proof.
  induction dir as [|x dir IH] using rev_ind; intros D; [reflexivity|]. rewrite app_length. cbn [List.length]. rewrite Nat.add_1_r. cbn [repeat walk].
  rewrite (D (dir ++ [x]) [] (eq_sym (app_nil_r _))). change (str_eqb (lit "..") (lit "..")) with true. cbn iota.
  rewrite removelast_app by discriminate. cbn [removelast]. rewrite app_nil_r. apply IH. intros pre post ->. apply (D pre (post ++ [x])). rewrite app_assoc. reflexivity.
Qed.

(** ** The first directory that has it *)
Lemma try_file_skip fs encoded dirs more p :
  (forall d, In d dirs -> file_at fs (joinpath d (tl p)) = None /\ file_at fs (with_suffix (joinpath d (tl p)) (lit ".md")) = None) ->
  try_file fs encoded (dirs ++ more) p = try_file fs encoded more p.
Proof.
  induction dirs as [|d dirs IH]; intros H; [reflexivity|]. cbn [app try_file]. destruct (H d (or_introl eq_refl)) as [A B]. rewrite A, B.
  destruct (match p_parts _ with [] => true | _ => false end); (apply IH; intros x Hx; apply H; right; exact Hx).
Qed.
Lemma join_names d names : names <> [] -> Forall is_name names -> joinpath d (join 47 names) = mkPath (p_root d) (p_parts d ++ names).
Proof. intros Ne N. unfold joinpath. rewrite root_join, parts_join by assumption. reflexivity. Qed.
Lemma md_app d names : names <> [] -> markdown_of (d ++ names) = d ++ markdown_of names.
Proof. intros Ne. unfold markdown_of. rewrite removelast_app, last_app_r, <- app_assoc by exact Ne. reflexivity. Qed.

(** ** Data *)
Lemma jget_In k d : forall v, jget k d = Some v -> In (k, v) d.
Proof. induction d as [|[k' v'] d IH]; intros v H; [discriminate|]. cbn [jget] in H. destruct (str_eqb k k') eqn:E; [apply str_eqb_eq in E; injection H as ->; left; congruence|right; apply IH, H]. Qed.
Lemma In_jget k d v : NoDup (map fst d) -> In (k, v) d -> jget k d = Some v.
Proof.
  induction d as [|[k' v'] d IH]; intros N H; [destruct H|]. cbn [jget]. inversion N as [|? ? N1 N2]; subst. destruct H as [H|H].
  - injection H as -> ->. rewrite str_eqb_refl. reflexivity.
  - destruct (str_eqb k k') eqn:E; [|apply IH; assumption]. apply str_eqb_eq in E. subst k'. destruct N1. apply in_map_iff. exists (k, v). auto.
Qed.
Definition nonempty (l : list str) : list str := filter (fun x => match x with [] => false | _ => true end) l.
Lemma traverse_ok root : sane root -> forall paths keys data, leads root keys data ->
  match traverse data keys paths with
  | Found d => exists x, leads root (keys ++ nonempty paths) x /\ d = jcall x
  | NotDict part cur => exists pre post x, keys ++ nonempty paths = pre ++ part :: post /\ leads root pre x /\ ~ is_dict x /\ cur = join 46 (pre ++ [part])
  | NoKey part cur => exists pre post x l, keys ++ nonempty paths = pre ++ part :: post /\ leads root pre x /\ jcall x = JDict l /\ ~ In part (map fst l) /\ cur = join 46 (pre ++ [part])
  end.
Proof.
  intros Sn paths. induction paths as [|p paths IH]; intros keys data L; cbn [traverse].
  - exists data. rewrite app_nil_r. auto.
  - destruct p as [|a p]; [apply (IH keys data L)|]. cbn [nonempty filter]. fold (nonempty paths). set (part := a :: p) in *. destruct (jcall data) as [v|d|d] eqn:J.
    + exists keys, (nonempty paths), data. split; [reflexivity|]. split; [exact L|]. split; [intros [l H]; congruence|reflexivity].
    + destruct (jget part d) as [x|] eqn:G.
      * pose proof (leads_key root keys data d part x L J (jget_In _ _ _ G)) as L'. specialize (IH (keys ++ [part]) x L'). rewrite <- app_assoc in IH. exact IH.
      * exists keys, (nonempty paths), data, d. split; [reflexivity|]. split; [exact L|]. split; [exact J|]. split; [|reflexivity].
        intros H. apply in_map_iff in H. destruct H as ([k v] & E & H). cbn in E. subst k. rewrite (In_jget part d v (Sn keys data d L J) H) in G. discriminate.
    + exists keys, (nonempty paths), data. split; [reflexivity|]. split; [exact L|]. split; [intros [l H]; congruence|reflexivity].
Qed.
Lemma leads_fun root : sane root -> forall keys x, leads root keys x -> forall y, leads root keys y -> x = y.
Proof.
  intros Sn keys x L. induction L as [|keys x l k y L IH J I]; intros z Lz.
  - inversion Lz as [|? ? ? ? ? ? ? ? E]; [reflexivity|]. destruct keys; discriminate.
  - inversion Lz as [E|keys2 x2 l2 k2 y2 L2 J2 I2 E]; [destruct keys; discriminate|]. apply app_inj_tail in E. destruct E as [-> ->].
    specialize (IH x2 L2). subst x2. rewrite J in J2. injection J2 as <-. pose proof (In_jget k l y (Sn _ _ _ L J) I) as A. rewrite (In_jget k l z (Sn _ _ _ L J) I2) in A. congruence.
Qed.
Lemma leads_prefix root a : forall b x, leads root (a ++ b) x -> exists y, leads root a y.
Proof.
  intros b. induction b as [|k b IH] using rev_ind; intros x L; [rewrite app_nil_r in L; eauto|]. rewrite app_assoc in L.
  inversion L as [E|keys x2 l k2 y L2 J2 I2 E]; [destruct (a ++ b); discriminate|]. apply app_inj_tail in E. destruct E as [-> _]. apply (IH _ L2).
Qed.
Lemma split_join keys : Forall (fun k => ~ In 47 k) keys -> keys <> [] -> split_on 47 (join 47 keys) = keys.
Proof.
  induction 1 as [|x l H F IH]; intros Ne; [congruence|]. destruct l as [|y l].
  - cbn [join]. apply split_on_none, H.
  - change (join 47 (x :: y :: l)) with (x ++ 47 :: join 47 (y :: l)). rewrite split_on_app by exact H. f_equal. apply IH. discriminate.
Qed.
