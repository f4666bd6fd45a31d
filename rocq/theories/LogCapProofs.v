(** Proofs about log-file forwarding. *)
From Coq Require Import ZifyBool ZifyNat Lia.
From Verif Require Import Base BaseLemmas PyStrModel PyStrProofs TaskModel TaskProofs LogCapModel LogCapSpec.

Definition text_of (ls : list str) : str := List.concat (map (fun l => l ++ [10]) ls).
Definition nonl (l : str) : Prop := ~ In 10 l.

Lemma text_of_app a b : text_of (a ++ b) = text_of a ++ text_of b.
Proof. unfold text_of. now rewrite map_app, concat_app. Qed.
Lemma split_ne c t : split_on c t <> [].
Proof. destruct t as [|x t]; cbn [split_on]; [discriminate|]. destruct (x =? c); [discriminate|].
  destruct (split_on c t); discriminate. Qed.
Lemma split_lines t : split_on 10 t = lines_of t ++ [tail_of t].
Proof. apply app_removelast_last, split_ne. Qed.
Lemma split_text ls tl : Forall nonl ls -> nonl tl -> split_on 10 (text_of ls ++ tl) = ls ++ [tl].
Proof.
  intros F T. induction F as [|l ls H F IH].
  - cbn. now apply split_on_none.
  - unfold text_of. cbn [map List.concat]. fold (text_of ls).
    rewrite <- app_assoc. rewrite <- app_assoc. cbn [app]. rewrite split_on_app by exact H.
    now rewrite IH.
Qed.
Lemma split_nonl t : Forall nonl (split_on 10 t).
Proof.
  induction t as [|x t IH]; cbn [split_on].
  - constructor; [intros []|constructor].
  - destruct (x =? 10) eqn:E; [constructor; [intros []|exact IH]|].
    destruct (split_on 10 t) as [|p ps].
    + constructor; [|constructor]. intros [H|[]]. lia.
    + inversion IH as [|? ? A B]; subst. constructor; [|exact B]. intros [H|H]; [lia|now apply A].
Qed.
Lemma lines_nonl t : Forall nonl (lines_of t) /\ nonl (tail_of t).
Proof.
  pose proof (split_nonl t) as H. rewrite split_lines in H. apply Forall_app in H as [A B].
  split; [exact A|]. now inversion B.
Qed.
Lemma split_inj t u : split_on 10 t = split_on 10 u -> t = u.
Proof.
  revert u. induction t as [|x t IH]; intros [|y u] H; try reflexivity.
  - cbn [split_on] in H. destruct (y =? 10); [injection H as H; symmetry in H; destruct (split_ne _ _ H)|].
    destruct (split_on 10 u); discriminate.
  - cbn [split_on] in H. destruct (x =? 10); [injection H as H; destruct (split_ne _ _ H)|].
    destruct (split_on 10 t); discriminate.
  - cbn [split_on] in H. destruct (x =? 10) eqn:E1, (y =? 10) eqn:E2.
    + injection H as H. apply Z.eqb_eq in E1, E2. subst. f_equal. now apply IH.
    + destruct (split_on 10 u); discriminate.
    + destruct (split_on 10 t); discriminate.
    + pose proof (split_ne 10 t) as N1. pose proof (split_ne 10 u) as N2.
      destruct (split_on 10 t) as [|p ps]; [easy|]. destruct (split_on 10 u) as [|q qs] eqn:Q; [easy|].
      injection H as -> -> ->. f_equal. apply IH. now rewrite Q.
Qed.
Lemma lines_text t : t = text_of (lines_of t) ++ tail_of t.
Proof.
  apply split_inj. destruct (lines_nonl t) as [A B]. rewrite split_text by assumption. apply split_lines.
Qed.
Lemma whole_text t : whole t -> t = text_of (lines_of t).
Proof. intros W. rewrite (lines_text t) at 1. rewrite W. apply app_nil_r. Qed.
Lemma text_lines ls tl : Forall nonl ls -> nonl tl ->
  lines_of (text_of ls ++ tl) = ls /\ tail_of (text_of ls ++ tl) = tl.
Proof.
  intros F T. unfold lines_of, tail_of. rewrite split_text by assumption.
  now rewrite removelast_last, last_last.
Qed.
Lemma lines_app a b : whole a -> lines_of (a ++ b) = lines_of a ++ lines_of b /\ tail_of (a ++ b) = tail_of b.
Proof.
  intros W. rewrite (whole_text a W) at 1 3. rewrite (lines_text b) at 1 3.
  rewrite app_assoc, <- text_of_app. destruct (lines_nonl a) as [A _], (lines_nonl b) as [B C].
  apply text_lines; [now apply Forall_app|exact C].
Qed.
Lemma whole_app a b : whole a -> whole b -> whole (a ++ b).
Proof. intros A B. unfold whole. now rewrite (proj2 (lines_app a b A)). Qed.
Lemma text_whole ls : Forall nonl ls -> whole (text_of ls) /\ lines_of (text_of ls) = ls.
Proof.
  intros F. destruct (text_lines ls [] F (fun H => H)) as [A B]. rewrite app_nil_r in A, B. now split.
Qed.
Lemma appended_whole k ops : Forall whole_op ops -> whole (appended k ops).
Proof.
  induction 1 as [|o ops H F IH]; [reflexivity|]. destruct o as [j t| |]; cbn [appended]; try exact IH.
  destruct (j =? k)%nat; [now apply whole_app|exact IH].
Qed.
Lemma appended_app k a b : appended k (a ++ b) = appended k a ++ appended k b.
Proof.
  induction a as [|o a IH]; [reflexivity|]. cbn [app]. destruct o as [j t| |]; cbn [appended]; try exact IH.
  destruct (j =? k)%nat; [now rewrite IH, app_assoc|exact IH].
Qed.

Section LogCap.
  Context (space : Z -> bool).
  Notation run := (c_run space).
  Notation step := (c_step space).

  Lemma run_app c a b : run c (a ++ b) = run (run c a) b.
  Proof. apply fold_left_app. Qed.
  Lemma run_cons c o a : run c (o :: a) = run (step c o) a.
  Proof. reflexivity. Qed.

  (** [rstrip]. *)
  Lemma drop_spec s : exists p, s = p ++ drop_space space s /\ Forall (fun x => space x = true) p.
  Proof.
    induction s as [|x s [p [E F]]]; [exists []; now split|]. cbn [drop_space]. destruct (space x) eqn:S.
    - exists (x :: p). cbn [app]. split; [now rewrite <- E|now constructor].
    - exists []. now split.
  Qed.
  Lemma drop_head s x r : drop_space space s = x :: r -> space x = false.
  Proof.
    induction s as [|y s IH]; [discriminate|]. cbn [drop_space]. destruct (space y) eqn:S; [exact IH|].
    now intros [= <- <-].
  Qed.
  Lemma rstrip_spec s :
    exists w, s = rstrip space s ++ w /\ Forall (fun x => space x = true) w /\
      (forall a x, rstrip space s = a ++ [x] -> space x = false).
  Proof.
    unfold rstrip. destruct (drop_spec (rev s)) as [p [E F]]. exists (rev p). split; [|split].
    - rewrite <- rev_app_distr, <- E. symmetry. apply rev_involutive.
    - now apply Forall_rev.
    - intros a x H. apply (f_equal (@rev Z)) in H. rewrite rev_involutive, rev_app_distr in H.
      eapply drop_head. exact H.
  Qed.
  Lemma rstrip_blank s : rstrip space s = [] <-> blank space s = true.
  Proof.
    unfold blank. rewrite forallb_forall. destruct (rstrip_spec s) as [w [E [F L]]]. split.
    - intros H x I. rewrite H in E. cbn [app] in E. subst w. rewrite Forall_forall in F. now apply F.
    - intros H. destruct (rstrip space s) as [|y r] eqn:R using rev_ind; [reflexivity|]. exfalso.
      assert (N : space y = false) by (eapply L; reflexivity). rewrite H in N; [discriminate|].
      rewrite E. rewrite in_app_iff. left. apply in_or_app. right. now left.
  Qed.
  Lemma rstrip_newline s : space 10 = true -> rstrip space (s ++ [10]) = rstrip space s.
  Proof. intros H. unfold rstrip. rewrite rev_app_distr. cbn [rev app drop_space]. now rewrite H. Qed.
  Lemma blank_newline s : space 10 = true -> blank space (s ++ [10]) = blank space s.
  Proof. intros H. unfold blank. rewrite forallb_app. cbn. rewrite H. now rewrite andb_true_r. Qed.

  (** [readline]. *)
  Lemma readline_line l r : nonl l -> readline (l ++ 10 :: r) = l ++ [10].
  Proof.
    intros N. induction l as [|x l IH]; [reflexivity|]. cbn [app readline].
    destruct (x =? 10) eqn:E; [apply Z.eqb_eq in E; destruct N; now left|]. rewrite IH; [reflexivity|].
    intros H. apply N. now right.
  Qed.
  Lemma readline_prefix s : exists r, s = readline s ++ r.
  Proof.
    induction s as [|x s [r IH]]; [now exists []|]. cbn [readline]. destruct (x =? 10); [now exists s|].
    exists r. cbn [app]. now rewrite <- IH.
  Qed.
  Lemma readline_nil s : readline s = [] -> s = [].
  Proof. destruct s as [|x s]; [reflexivity|]. cbn [readline]. now destruct (x =? 10). Qed.

  (** What a step does to the streams. *)
  Lemma streams_goto k c : c_streams (c_goto k c) = c_streams c /\ c_log (c_goto k c) = c_log c.
  Proof. unfold c_goto. now destruct (k <? _)%nat. Qed.

  Definition after_read (s : stream) : stream :=
    mkStream (st_level s) (st_text s) (st_pos s + List.length (readline (skipn (st_pos s) (st_text s)))).
  Definition now_read (s : stream) : str := rstrip space (readline (skipn (st_pos s) (st_text s))).

  Lemma read_at c k s : c_at c = Some k -> nth_error (c_streams c) k = Some s ->
    step c LRead =
      match now_read s with
      | [] => c_goto (S k) (mkCap (upd k (after_read s) (c_streams c)) (c_at c) (c_done c) (c_log c))
      | line => mkCap (upd k (after_read s) (c_streams c)) (c_at c) (c_done c)
                      (c_log c ++ [(k, (st_level s, line))])
      end.
  Proof. intros A E. cbn [c_step]. unfold c_read. rewrite A, E. reflexivity. Qed.

  Lemma len_step c o : List.length (c_streams (step c o)) = List.length (c_streams c).
  Proof.
    destruct o as [j t| |]; cbn [c_step].
    - unfold c_append. destruct (nth_error _ _); [cbn [c_streams]; apply upd_length|reflexivity].
    - destruct (c_at c); [reflexivity|]. now rewrite (proj1 (streams_goto 0 c)).
    - unfold c_read. destruct (c_at c); [|reflexivity]. destruct (nth_error _ _); [|reflexivity].
      destruct (rstrip _ _); [rewrite (proj1 (streams_goto _ _))|]; cbn [c_streams]; apply upd_length.
  Qed.
  Lemma len_run ops : forall c, List.length (c_streams (run c ops)) = List.length (c_streams c).
  Proof. induction ops as [|o ops IH]; intros c; [reflexivity|]. rewrite run_cons, IH. apply len_step. Qed.

  (** The loop is at a stream that exists. *)
  Definition at_ok (c : capture) : Prop := forall k, c_at c = Some k -> (k < List.length (c_streams c))%nat.
  Lemma goto_ok k c : at_ok (c_goto k c).
  Proof.
    unfold c_goto. destruct (k <? _)%nat eqn:E; intros j H; cbn [c_at c_streams] in *; [|discriminate].
    injection H as <-. now apply Nat.ltb_lt.
  Qed.
  Lemma step_ok c o : at_ok c -> at_ok (step c o).
  Proof.
    intros H. destruct o as [j t| |].
    - intros k A. rewrite len_step. apply H. cbn [c_step] in A. unfold c_append in A.
      now destruct (nth_error _ _).
    - cbn [c_step]. destruct (c_at c); [exact H|apply goto_ok].
    - destruct (c_at c) as [k|] eqn:A.
      + destruct (nth_error (c_streams c) k) as [s|] eqn:E.
        * rewrite (read_at c k s A E). destruct (now_read s); [apply goto_ok|].
          intros j B. cbn [c_at c_streams] in *. rewrite upd_length. apply H. congruence.
        * apply nth_error_None in E. specialize (H k A). lia.
      + cbn [c_step]. unfold c_read. rewrite A. exact H.
  Qed.
  Lemma run_ok ops : forall c, at_ok c -> at_ok (run c ops).
  Proof. induction ops as [|o ops IH]; intros c H; [exact H|]. rewrite run_cons. now apply IH, step_ok. Qed.

  (** One step, seen from stream [k]. *)
  Inductive seen (k : nat) (s : stream) (c : capture) (o : lop) : Prop :=
  | Seen_append t : o = LAppend k t ->
      nth_error (c_streams (step c o)) k = Some (mkStream (st_level s) (st_text s ++ t) (st_pos s)) ->
      forwarded k (step c o) = forwarded k c -> c_at (step c o) = c_at c -> c_done (step c o) = c_done c -> seen k s c o
  | Seen_other : (forall t, o <> LAppend k t) ->
      nth_error (c_streams (step c o)) k = Some s ->
      forwarded k (step c o) = forwarded k c ->
      (o <> LRead \/ c_at c <> Some k) -> seen k s c o
  | Seen_read x r : o = LRead -> c_at c = Some k -> now_read s = x :: r ->
      nth_error (c_streams (step c o)) k = Some (after_read s) ->
      forwarded k (step c o) = forwarded k c ++ [(st_level s, x :: r)] ->
      c_at (step c o) = c_at c -> c_done (step c o) = c_done c -> seen k s c o
  | Seen_end : o = LRead -> c_at c = Some k -> now_read s = [] ->
      nth_error (c_streams (step c o)) k = Some (after_read s) ->
      forwarded k (step c o) = forwarded k c ->
      (c_at (step c o) = Some (S k) /\ c_done (step c o) = c_done c \/
       c_at (step c o) = None /\ c_done (step c o) = S (c_done c)) -> seen k s c o.

  Lemma nth_lt' {A} (l : list A) k x : nth_error l k = Some x -> (k < List.length l)%nat.
  Proof. intros H. apply nth_error_Some. congruence. Qed.

  Lemma seen_step k s c o : nth_error (c_streams c) k = Some s -> seen k s c o.
  Proof.
    intros E. pose proof (nth_lt' _ _ _ E) as L. destruct o as [j t| |].
    - destruct (Nat.eq_dec j k) as [->|N].
      + eapply Seen_append; [reflexivity|..]; cbn [c_step]; unfold c_append; rewrite E; try reflexivity.
        cbn [c_streams]. now apply upd_nth.
      + apply Seen_other; cbn [c_step]; unfold c_append.
        * intros u [= -> _]. easy.
        * destruct (nth_error (c_streams c) j); [|exact E]. cbn [c_streams].
          rewrite upd_nth_ne by exact N. exact E.
        * now destruct (nth_error (c_streams c) j).
        * now left.
    - apply Seen_other; cbn [c_step].
      + discriminate.
      + destruct (c_at c); [exact E|]. now rewrite (proj1 (streams_goto 0 c)).
      + destruct (c_at c); [reflexivity|]. unfold forwarded. now rewrite (proj2 (streams_goto 0 c)).
      + now left.
    - destruct (c_at c) as [j|] eqn:A.
      + destruct (nth_error (c_streams c) j) as [u|] eqn:Ej.
        * destruct (Nat.eq_dec j k) as [->|N].
          -- rewrite E in Ej. injection Ej as <-.
             destruct (now_read s) as [|x r] eqn:R.
             ++ apply Seen_end; try assumption; try reflexivity; rewrite (read_at c k s A E), R.
                ** rewrite (proj1 (streams_goto _ _)). cbn [c_streams]. now apply upd_nth.
                ** unfold forwarded. now rewrite (proj2 (streams_goto _ _)).
                ** unfold c_goto. destruct (S k <? _)%nat; [now left|now right].
             ++ eapply Seen_read; try eassumption; try reflexivity; rewrite (read_at c k s A E), R; try reflexivity.
                ** cbn [c_streams]. now apply upd_nth.
                ** unfold forwarded. cbn [c_log]. rewrite filter_app, map_app. cbn [filter fst].
                   now rewrite Nat.eqb_refl.
          -- apply Seen_other; [discriminate|..|right; congruence]; rewrite (read_at c j u A Ej).
             ++ destruct (now_read u); [rewrite (proj1 (streams_goto _ _))|]; cbn [c_streams];
                  rewrite upd_nth_ne by exact N; exact E.
             ++ destruct (now_read u); unfold forwarded; [now rewrite (proj2 (streams_goto _ _))|].
                cbn [c_log]. rewrite filter_app, map_app. cbn [filter fst].
                destruct (j =? k)%nat eqn:Q; [apply Nat.eqb_eq in Q; easy|]. apply app_nil_r.
        * apply Seen_other; [discriminate|..|right]; cbn [c_step]; unfold c_read; rewrite ?A, ?Ej;
            [exact E|reflexivity|congruence].
      + apply Seen_other; [discriminate|..|right; congruence]; cbn [c_step]; unfold c_read; rewrite A;
          [exact E|reflexivity].
  Qed.

  (** Every history: no visible character is lost, repeated or moved. *)
  Definition charinv (k : nat) (c : capture) (t0 acc : str) (lvl : Z) : Prop :=
    exists s n, nth_error (c_streams c) k = Some s /\ st_level s = lvl /\ st_text s = t0 ++ acc /\
      st_pos s = (List.length t0 + n)%nat /\ (n <= List.length acc)%nat /\
      visible space (List.concat (map snd (forwarded k c))) = visible space (firstn n acc).

  Lemma visible_app a b : visible space (a ++ b) = visible space a ++ visible space b.
  Proof. apply filter_app. Qed.
  Lemma visible_space w : Forall (fun x => space x = true) w -> visible space w = [].
  Proof. induction 1 as [|x w H F IH]; [reflexivity|]. unfold visible. cbn [filter]. rewrite H. exact IH. Qed.
  Lemma visible_rstrip s : visible space (rstrip space s) = visible space s.
  Proof.
    destruct (rstrip_spec s) as [w [E [F _]]]. rewrite E at 2. rewrite visible_app, (visible_space w F).
    now rewrite app_nil_r.
  Qed.
  Lemma firstn_plus {A} (l : list A) n m : firstn (n + m) l = firstn n l ++ firstn m (skipn n l).
  Proof.
    revert l. induction n as [|n IH]; intros l; [reflexivity|]. destruct l as [|x l].
    - cbn. now rewrite firstn_nil.
    - cbn [Nat.add firstn skipn app]. now rewrite IH.
  Qed.
  Lemma skipn_past {A} (a b : list A) n : skipn (List.length a + n) (a ++ b) = skipn n b.
  Proof. rewrite skipn_app. rewrite skipn_all2 by lia. cbn [app]. f_equal. lia. Qed.
  Lemma after_chars t0 acc n s : st_text s = t0 ++ acc -> st_pos s = (List.length t0 + n)%nat -> (n <= List.length acc)%nat ->
    exists m, st_pos (after_read s) = (List.length t0 + (n + m))%nat /\ (n + m <= List.length acc)%nat /\
      readline (skipn (st_pos s) (st_text s)) = firstn m (skipn n acc).
  Proof.
    intros T P L. unfold after_read. cbn [st_pos]. rewrite T, P, skipn_past.
    destruct (readline_prefix (skipn n acc)) as [r R]. exists (List.length (readline (skipn n acc))).
    split; [lia|]. split.
    - apply (f_equal (@List.length Z)) in R. rewrite app_length, skipn_length in R. lia.
    - rewrite R at 3. rewrite firstn_app, Nat.sub_diag, firstn_all. cbn [firstn]. now rewrite app_nil_r.
  Qed.
  Lemma charinv_step k c t0 acc lvl o : charinv k c t0 acc lvl -> charinv k (step c o) t0 (acc ++ appended k [o]) lvl.
  Proof.
    intros (s & n & E & V & T & P & L & C).
    destruct (seen_step k s c o E) as [t Ho E' Fw _ _|Ho E' Fw _|x r Ho A R E' Fw _ _|Ho A R E' Fw _].
    - subst o. cbn [appended]. rewrite Nat.eqb_refl, app_nil_r. eexists. exists n.
      split; [exact E'|]. cbn [st_level st_text st_pos]. split; [exact V|]. split; [rewrite T; now rewrite app_assoc|].
      split; [exact P|]. rewrite app_length. split; [lia|]. rewrite Fw, C. rewrite firstn_app.
      replace (n - List.length acc)%nat with 0%nat by lia. cbn [firstn]. now rewrite app_nil_r.
    - replace (appended k [o]) with (@nil Z).
      2: { destruct o as [j t| |]; try reflexivity. cbn [appended]. destruct (j =? k)%nat eqn:Q; [|reflexivity].
           apply Nat.eqb_eq in Q. subst j. now destruct (Ho t). }
      rewrite app_nil_r. exists s, n. rewrite Fw. now repeat split.
    - subst o. cbn [appended]. rewrite app_nil_r. destruct (after_chars t0 acc n s T P L) as (m & P' & L' & Rl).
      exists (after_read s), (n + m)%nat. split; [exact E'|]. split; [exact V|]. split; [exact T|].
      split; [exact P'|]. split; [exact L'|]. rewrite Fw, map_app, concat_app. cbn [map snd List.concat].
      rewrite app_nil_r, visible_app, C, firstn_plus, visible_app. f_equal.
      rewrite <- R. unfold now_read. rewrite visible_rstrip. now rewrite Rl.
    - subst o. cbn [appended]. rewrite app_nil_r. destruct (after_chars t0 acc n s T P L) as (m & P' & L' & Rl).
      exists (after_read s), (n + m)%nat. split; [exact E'|]. split; [exact V|]. split; [exact T|].
      split; [exact P'|]. split; [exact L'|]. rewrite Fw, C, firstn_plus, visible_app.
      rewrite <- Rl. rewrite <- (visible_rstrip (readline _)). unfold now_read in R. rewrite R.
      cbn. now rewrite app_nil_r.
  Qed.
  Lemma charinv_run ops : forall k c t0 acc lvl, charinv k c t0 acc lvl ->
    charinv k (run c ops) t0 (acc ++ appended k ops) lvl.
  Proof.
    induction ops as [|o ops IH]; intros k c t0 acc lvl H.
    - cbn. now rewrite app_nil_r.
    - rewrite run_cons. change (o :: ops) with ([o] ++ ops). rewrite appended_app, app_assoc.
      now apply IH, charinv_step.
  Qed.

  (** Histories of whole lines. *)
  Definition lineinv (k : nat) (c : capture) (t0 : str) (ls : list str) (n : nat) (lvl : Z) : Prop :=
    exists s, nth_error (c_streams c) k = Some s /\ st_level s = lvl /\ st_text s = t0 ++ text_of ls /\
      Forall nonl ls /\ (n <= List.length ls)%nat /\
      st_pos s = (List.length t0 + List.length (text_of (firstn n ls)))%nat /\
      forwarded k c = entries space lvl (firstn n ls).

  Lemma lineinv_pending k c t0 ls n lvl : lineinv k c t0 ls n lvl -> pending k c = text_of (skipn n ls).
  Proof.
    intros (s & E & _ & T & _ & _ & P & _). unfold pending. rewrite E, T, P, skipn_past.
    rewrite <- (firstn_skipn n ls) at 2. rewrite text_of_app.
    rewrite skipn_app, skipn_all, Nat.sub_diag. reflexivity.
  Qed.

  Definition visits (k : nat) (c : capture) : nat :=
    (c_done c + match c_at c with Some j => if (k <? j)%nat then 1 else 0 | None => 0 end)%nat.

  Lemma entries_app lvl a b : entries space lvl (a ++ b) = entries space lvl a ++ entries space lvl b.
  Proof. unfold entries. now rewrite filter_app, map_app. Qed.
  Lemma blanks_app a b : blanks space (a ++ b) = (blanks space a + blanks space b)%nat.
  Proof. unfold blanks. now rewrite filter_app, app_length. Qed.
  Lemma firstn_next {A} (l : list A) n x r : skipn n l = x :: r -> firstn (S n) l = firstn n l ++ [x] /\ (S n <= List.length l)%nat.
  Proof.
    intros H. split.
    - replace (S n) with (n + 1)%nat by lia. rewrite firstn_plus, H. reflexivity.
    - apply (f_equal (@List.length A)) in H. rewrite skipn_length in H. cbn in H. lia.
  Qed.

  Context (Hnl : space 10 = true).

  (** One step of stream [k] in terms of lines. *)
  Lemma lineinv_step k c t0 ls n lvl o : lineinv k c t0 ls n lvl -> whole_op o ->
    exists n', (n <= n')%nat /\ lineinv k (step c o) t0 (ls ++ lines_of (appended k [o])) n' lvl /\
      ((visits k (step c o) <= visits k c)%nat \/ (n' = List.length ls /\ n' = n) \/
       (exists l r, skipn n ls = l :: r /\ n' = S n /\ blank space l = true /\ (visits k (step c o) <= S (visits k c))%nat)).
  Proof.
    intros I W. pose proof (lineinv_pending k c t0 ls n lvl I) as Pe.
    destruct I as (s & E & V & T & F & L & P & Fw).
    unfold pending in Pe. rewrite E in Pe.
    destruct (seen_step k s c o E) as [t Ho E' Fw' A' D'|Ho E' Fw' Q|x r Ho A R E' Fw' A' D'|Ho A R E' Fw' AD].
    - subst o. cbn [whole_op] in W. cbn [appended]. rewrite Nat.eqb_refl, app_nil_r. exists n. split; [lia|]. split.
      + eexists. split; [exact E'|]. cbn [st_level st_text st_pos]. split; [exact V|].
        split; [rewrite T, text_of_app, <- (whole_text t W); now rewrite app_assoc|].
        split; [apply Forall_app; split; [exact F|apply lines_nonl]|]. rewrite app_length. split; [lia|].
        rewrite firstn_app. replace (n - List.length ls)%nat with 0%nat by lia. cbn [firstn]. rewrite app_nil_r.
        now rewrite Fw'.
      + left. unfold visits. rewrite A', D'. lia.
    - replace (appended k [o]) with (@nil Z).
      2: { destruct o as [j t| |]; try reflexivity. cbn [appended]. destruct (j =? k)%nat eqn:Q'; [|reflexivity].
           apply Nat.eqb_eq in Q'. subst j. now destruct (Ho t). }
      replace (lines_of []) with (@nil str) by reflexivity. rewrite app_nil_r.
      exists n. split; [lia|]. split; [exists s; rewrite Fw'; now repeat split|]. left.
      unfold visits. destruct o as [j t| |]; cbn [c_step].
      + unfold c_append. destruct (nth_error _ j); cbn [c_at c_done]; lia.
      + destruct (c_at c) eqn:A; [rewrite A; lia|]. unfold c_goto. destruct (0 <? List.length (c_streams c))%nat eqn:G; cbn [c_at c_done].
        * destruct (k <? 0)%nat eqn:K; lia.
        * apply Nat.ltb_ge in G. pose proof (nth_lt' _ _ _ E). lia.
      + destruct Q as [Q|Q]; [easy|]. unfold c_read. destruct (c_at c) as [j|] eqn:A; [|rewrite A; lia].
        destruct (nth_error (c_streams c) j) as [u|] eqn:Ej; [|rewrite A; lia].
        destruct (rstrip space _); cbn [c_at c_done]; [|rewrite ?A; lia].
        unfold c_goto. cbn [c_streams]. rewrite upd_length. pose proof (nth_lt' _ _ _ E) as Lk.
        destruct (S j <? List.length (c_streams c))%nat eqn:G; cbn [c_at c_done].
        * destruct (k <? S j)%nat eqn:K1, (k <? j)%nat eqn:K2; try lia.
          assert (j <> k) by congruence. lia.
        * apply Nat.ltb_ge in G. assert (j <> k) by congruence. destruct (k <? j)%nat eqn:K; lia.
    - subst o. cbn [appended]. replace (lines_of []) with (@nil str) by reflexivity. rewrite app_nil_r.
      destruct (skipn n ls) as [|l rest] eqn:K.
      + unfold now_read in R. rewrite Pe in R. cbn in R. discriminate.
      + destruct (firstn_next ls n l rest K) as [Fi Le]. exists (S n). split; [lia|].
        assert (Nl : nonl l).
        { rewrite Forall_forall in F. apply F. rewrite <- (firstn_skipn n ls), K. apply in_or_app. right. now left. }
        unfold text_of in Pe. cbn [map List.concat] in Pe. fold (text_of rest) in Pe. rewrite <- app_assoc in Pe. cbn [app] in Pe.
        assert (Rl : readline (skipn (st_pos s) (st_text s)) = l ++ [10]) by (rewrite Pe; now apply readline_line).
        assert (Bl : blank space l = false).
        { destruct (blank space l) eqn:B; [|reflexivity]. exfalso. unfold now_read in R. rewrite Rl in R.
          rewrite rstrip_newline in R by exact Hnl. apply rstrip_blank in B. congruence. }
        split.
        * exists (after_read s). split; [exact E'|]. split; [exact V|]. split; [exact T|]. split; [exact F|].
          split; [exact Le|]. split.
          -- unfold after_read. cbn [st_pos]. rewrite Rl, P, Fi, text_of_app.
             replace (text_of [l]) with (l ++ [10]) by (unfold text_of; cbn; now rewrite app_nil_r).
             rewrite (app_length (text_of _)). lia.
          -- rewrite Fw', Fw, Fi, entries_app. f_equal. unfold entries. cbn [filter]. rewrite Bl. cbn [negb map].
             rewrite <- R. unfold now_read. rewrite Rl, rstrip_newline by exact Hnl. now rewrite V.
        * left. unfold visits. rewrite A', D'. lia.
    - subst o. cbn [appended]. replace (lines_of []) with (@nil str) by reflexivity. rewrite app_nil_r.
      destruct (skipn n ls) as [|l rest] eqn:K.
      + exists n. split; [lia|]. split.
        * exists (after_read s). split; [exact E'|]. split; [exact V|]. split; [exact T|]. split; [exact F|].
          split; [exact L|]. split; [|now rewrite Fw', Fw].
          unfold after_read. cbn [st_pos]. rewrite Pe. cbn. rewrite P. lia.
        * right. left. split; [|reflexivity]. apply (f_equal (@List.length str)) in K. rewrite skipn_length in K. cbn in K. lia.
      + destruct (firstn_next ls n l rest K) as [Fi Le]. exists (S n). split; [lia|].
        assert (Nl : nonl l).
        { rewrite Forall_forall in F. apply F. rewrite <- (firstn_skipn n ls), K. apply in_or_app. right. now left. }
        unfold text_of in Pe. cbn [map List.concat] in Pe. fold (text_of rest) in Pe. rewrite <- app_assoc in Pe. cbn [app] in Pe.
        assert (Rl : readline (skipn (st_pos s) (st_text s)) = l ++ [10]) by (rewrite Pe; now apply readline_line).
        assert (Bl : blank space l = true).
        { unfold now_read in R. rewrite Rl in R. rewrite rstrip_newline in R by exact Hnl. now apply rstrip_blank. }
        split.
        * exists (after_read s). split; [exact E'|]. split; [exact V|]. split; [exact T|]. split; [exact F|].
          split; [exact Le|]. split.
          -- unfold after_read. cbn [st_pos]. rewrite Rl, P, Fi, text_of_app.
             replace (text_of [l]) with (l ++ [10]) by (unfold text_of; cbn; now rewrite app_nil_r).
             rewrite (app_length (text_of _)). lia.
          -- rewrite Fw', Fw, Fi, entries_app. unfold entries at 3. cbn [filter]. rewrite Bl. cbn [negb map].
             now rewrite app_nil_r.
        * right. right. exists l, rest. split; [reflexivity|]. split; [reflexivity|]. split; [exact Bl|].
          unfold visits. rewrite A. destruct AD as [[-> ->]|[-> ->]]; [|lia].
          destruct (k <? S k)%nat; lia.
  Qed.

  Lemma lineinv_run ops : forall k c t0 ls n lvl, lineinv k c t0 ls n lvl -> Forall whole_op ops ->
    exists n', (n <= n')%nat /\ lineinv k (run c ops) t0 (ls ++ lines_of (appended k ops)) n' lvl /\
      (n' < List.length ls -> visits k (run c ops) + blanks space (firstn n ls) <= visits k c + blanks space (firstn n' ls))%nat.
  Proof.
    induction ops as [|o ops IH]; intros k c t0 ls n lvl I W.
    - exists n. split; [lia|]. cbn [appended]. replace (lines_of []) with (@nil str) by reflexivity.
      rewrite app_nil_r. split; [exact I|]. cbn. lia.
    - inversion W as [|? ? Wo Wr]; subst. destruct (lineinv_step k c t0 ls n lvl o I Wo) as (n1 & L1 & I1 & S1).
      destruct (IH k _ t0 _ n1 lvl I1 Wr) as (n2 & L2 & I2 & S2). exists n2. split; [lia|].
      rewrite run_cons. change (o :: ops) with ([o] ++ ops). rewrite appended_app.
      rewrite (proj1 (lines_app _ _ (appended_whole k [o] (Forall_cons _ Wo (Forall_nil _))))), app_assoc.
      split; [exact I2|]. intros Lt. rewrite app_length in S2. specialize (S2 ltac:(lia)).
      set (ls' := ls ++ lines_of (appended k [o])) in *.
      assert (Fe : forall m, (m <= List.length ls)%nat -> firstn m ls' = firstn m ls).
      { intros m Lm. unfold ls'. rewrite firstn_app. replace (m - List.length ls)%nat with 0%nat by lia.
        cbn [firstn]. apply app_nil_r. }
      rewrite (Fe n2) in S2 by lia. rewrite (Fe n1) in S2 by lia.
      destruct S1 as [S1|[[S1 S1']|(l & r & K & -> & B & S1)]].
      + assert (M : (blanks space (firstn n ls) <= blanks space (firstn n1 ls))%nat).
        { replace n1 with (n + (n1 - n))%nat by lia. rewrite firstn_plus, blanks_app. lia. }
        lia.
      + lia.
      + destruct (firstn_next ls n l r K) as [Fi _]. rewrite Fi, blanks_app in S2.
        assert (B1 : blanks space [l] = 1%nat) by (unfold blanks; cbn [filter]; now rewrite B). lia.
  Qed.

  (** Opening. *)
  Lemma open_line k c0 files lvl t0 : c0 = c_open files ->
    nth_error (c_streams c0) k = Some (mkStream lvl t0 (List.length t0)) -> lineinv k c0 t0 [] 0 lvl.
  Proof.
    intros -> E. eexists. split; [exact E|]. cbn [st_level st_text st_pos]. repeat split; try constructor; cbn; auto.
    now rewrite app_nil_r.
  Qed.
  Lemma open_char k c0 files lvl t0 : c0 = c_open files ->
    nth_error (c_streams c0) k = Some (mkStream lvl t0 (List.length t0)) -> charinv k c0 t0 [] lvl.
  Proof.
    intros -> E. eexists. exists 0%nat. split; [exact E|]. cbn [st_level st_text st_pos]. repeat split; cbn; auto.
    now rewrite app_nil_r.
  Qed.
  Lemma open_nth files k s : nth_error (open_streams files) k = Some s ->
    s = mkStream (st_level s) (st_text s) (List.length (st_text s)).
  Proof.
    revert k. induction files as [|[lvl [t|]] files IH]; intros k; cbn [open_streams].
    - destruct k; discriminate.
    - destruct k as [|k]; [now intros [= <-]|apply IH].
    - apply IH.
  Qed.

  (** A call on its own: one stream. *)
  Lemma reads_line k c s ls : c_at c = Some k -> nth_error (c_streams c) k = Some s ->
    skipn (st_pos s) (st_text s) = text_of ls -> Forall nonl ls ->
    exists m s', st_level s' = st_level s /\ skipn (st_pos s') (st_text s') = text_of (after_blank space ls) /\
      run c (repeat LRead m) =
        c_goto (S k) (mkCap (upd k s' (c_streams c)) (c_at c) (c_done c)
                            (c_log c ++ map (fun e => (k, e)) (entries space (st_level s) (before_blank space ls)))).
  Proof.
    intros A. revert c s A. induction ls as [|l ls IH]; intros c s A E P F.
    - exists 1%nat, (after_read s). split; [reflexivity|]. split.
      + unfold after_read. cbn [st_pos st_text]. rewrite P. cbn. rewrite Nat.add_0_r. exact P.
      + cbn [repeat]. rewrite run_cons, (read_at c k s A E). unfold now_read. rewrite P. cbn.
        now rewrite app_nil_r.
    - inversion F as [|? ? Nl F']; subst.
      assert (P' : skipn (st_pos s) (st_text s) = l ++ 10 :: text_of ls).
      { rewrite P. unfold text_of. cbn [map List.concat]. now rewrite <- app_assoc. }
      assert (Rl : readline (skipn (st_pos s) (st_text s)) = l ++ [10]) by (rewrite P'; now apply readline_line).
      assert (Pa : skipn (st_pos (after_read s)) (st_text (after_read s)) = text_of ls).
      { unfold after_read. cbn [st_pos st_text]. rewrite Rl. rewrite <- skipn_skipn_add, P'.
        rewrite app_length. cbn [List.length]. rewrite skipn_past. reflexivity. }
      destruct (blank space l) eqn:B.
      + exists 1%nat, (after_read s). split; [reflexivity|]. cbn [before_blank after_blank]. rewrite B. split; [exact Pa|].
        cbn [repeat]. rewrite run_cons, (read_at c k s A E). unfold now_read. rewrite Rl, rstrip_newline by exact Hnl.
        rewrite (proj2 (rstrip_blank l) B). cbn. now rewrite app_nil_r.
      + cbn [before_blank after_blank]. rewrite B.
        pose proof (read_at c k s A E) as St. unfold now_read in St. rewrite Rl, rstrip_newline in St by exact Hnl.
        destruct (rstrip space l) as [|x r] eqn:R; [apply rstrip_blank in R; congruence|].
        set (c1 := mkCap _ _ _ _) in St.
        pose proof (nth_lt' _ _ _ E) as L.
        destruct (IH c1 (after_read s) A (upd_nth _ _ _ L) Pa F') as (m & s' & Lv & Pf & Rn).
        exists (S m), s'. split; [exact Lv|]. split; [exact Pf|]. cbn [repeat]. rewrite run_cons, St, Rn.
        unfold c1. cbn [c_streams c_at c_done c_log]. f_equal. f_equal.
        * clear. generalize (c_streams c). induction k as [|k IHk]; intros [|y l]; cbn [upd]; try reflexivity.
          now rewrite IHk.
        * rewrite <- app_assoc. f_equal. unfold entries. cbn [filter]. rewrite B. cbn [negb map app]. now rewrite R.
  Qed.

  (** A call on its own: from stream [k] on. *)
  Definition whole_pending (c : capture) : Prop := forall k, whole (pending k c).
  Lemma idle_stays c m : c_at c = None -> run c (repeat LRead m) = c.
  Proof.
    intros A. induction m as [|m IH]; [reflexivity|]. cbn [repeat]. rewrite run_cons.
    replace (step c LRead) with c; [exact IH|]. cbn [c_step]. unfold c_read. now rewrite A.
  Qed.
  Lemma fwd_app k c l : forwarded k (mkCap (c_streams c) (c_at c) (c_done c) l) = map snd (filter (fun e => (fst e =? k)%nat) l).
  Proof. reflexivity. Qed.
  Lemma fwd_tag j k (es : list (Z * str)) :
    map snd (filter (fun e : nat * (Z * str) => (fst e =? k)%nat) (map (fun e => (j, e)) es)) = if (j =? k)%nat then es else [].
  Proof.
    destruct (j =? k)%nat eqn:Q.
    - induction es as [|e es IH]; [reflexivity|]. cbn [map filter fst]. rewrite Q. cbn [map snd]. now rewrite IH.
    - induction es as [|e es IH]; [reflexivity|]. cbn [map filter fst]. now rewrite Q.
  Qed.

  Lemma call_from d : forall j c, (d + j = List.length (c_streams c))%nat -> whole_pending c -> c_at c = None ->
    exists m, let c' := run (c_goto j c) (repeat LRead m) in
      c_at c' = None /\ c_done c' = S (c_done c) /\
      (forall k, (j <= k < List.length (c_streams c))%nat ->
        forwarded k c' = forwarded k c ++ entries space (level k c) (before_blank space (lines_of (pending k c))) /\
        pending k c' = text_of (after_blank space (lines_of (pending k c)))) /\
      (forall k, (k < j)%nat -> forwarded k c' = forwarded k c /\ pending k c' = pending k c).
  Proof.
    induction d as [|d IH]; intros j c Hd W A.
    - exists 0%nat. cbn [repeat]. unfold c_goto. destruct (j <? List.length (c_streams c))%nat eqn:G; [lia|].
      cbn. split; [reflexivity|]. split; [reflexivity|]. split; [intros k Hk; lia|]. intros k _. now split.
    - destruct (nth_error (c_streams c) j) as [s|] eqn:E.
      2: { apply nth_error_None in E. lia. }
      pose proof (nth_lt' _ _ _ E) as L.
      assert (Ps : skipn (st_pos s) (st_text s) = text_of (lines_of (pending j c))).
      { transitivity (pending j c); [unfold pending; now rewrite E|]. apply whole_text, W. }
      set (cj := c_goto j c).
      assert (Cj : cj = mkCap (c_streams c) (Some j) (c_done c) (c_log c)).
      { unfold cj, c_goto. destruct (j <? List.length (c_streams c))%nat eqn:G; [reflexivity|lia]. }
      assert (Ej : nth_error (c_streams cj) j = Some s) by (rewrite Cj; exact E).
      destruct (reads_line j cj s (lines_of (pending j c)) ltac:(now rewrite Cj) Ej Ps ltac:(apply lines_nonl))
        as (m1 & s' & Lv & Pf & Rn).
      rewrite Cj in Rn. cbn [c_streams c_at c_done c_log] in Rn.
      set (log1 := c_log c ++ _) in Rn.
      set (c1 := mkCap (upd j s' (c_streams c)) None (c_done c) log1).
      assert (G1 : c_goto (S j) (mkCap (upd j s' (c_streams c)) (Some j) (c_done c) log1) = c_goto (S j) c1).
      { unfold c_goto. reflexivity. }
      rewrite G1 in Rn.
      assert (Pe : forall k, k <> j -> pending k c1 = pending k c).
      { intros k Nk. unfold pending, c1. cbn [c_streams]. now rewrite upd_nth_ne by auto. }
      assert (Pj : pending j c1 = text_of (after_blank space (lines_of (pending j c)))).
      { unfold pending at 1. unfold c1. cbn [c_streams]. rewrite upd_nth by exact L. exact Pf. }
      assert (Wa : forall ls, Forall nonl ls -> Forall nonl (after_blank space ls)).
      { induction 1 as [|l ls Hl F IHf]; cbn [after_blank]; [constructor|]. destruct (blank space l); assumption. }
      destruct (IH (S j) c1) as (m2 & A2 & D2 & Hi & Lo).
      { unfold c1. cbn [c_streams]. rewrite upd_length. lia. }
      { intros k. destruct (Nat.eq_dec k j) as [->|Nk]; [|rewrite Pe by exact Nk; apply W].
        rewrite Pj. apply text_whole, Wa, lines_nonl. }
      { reflexivity. }
      exists (m1 + m2)%nat. cbn zeta. rewrite repeat_app, run_app. fold cj. rewrite Cj, Rn.
      split; [exact A2|]. split; [exact D2|].
      assert (Fo : forall k, forwarded k c1 = forwarded k c ++ if (j =? k)%nat then entries space (st_level s) (before_blank space (lines_of (pending j c))) else []).
      { intros k. unfold forwarded, c1, log1. cbn [c_log]. rewrite filter_app, map_app, fwd_tag. reflexivity. }
      split.
      + intros k Hk. destruct (Nat.eq_dec k j) as [->|Nk].
        * destruct (Lo j ltac:(lia)) as [-> ->]. rewrite Fo, Nat.eqb_refl, Pj. split; [|reflexivity].
          unfold level. now rewrite E.
        * destruct (Hi k) as [-> ->]; [unfold c1; cbn [c_streams]; rewrite upd_length; lia|].
          rewrite Fo. replace (j =? k)%nat with false by (symmetry; apply Nat.eqb_neq; auto). rewrite app_nil_r.
          rewrite !Pe by exact Nk. split; [|reflexivity].
          unfold level, c1. cbn [c_streams]. now rewrite upd_nth_ne by auto.
      + intros k Hk. destruct (Lo k ltac:(lia)) as [-> ->]. rewrite Fo.
        replace (j =? k)%nat with false by (symmetry; apply Nat.eqb_neq; lia). rewrite app_nil_r.
        split; [reflexivity|]. apply Pe. lia.
  Qed.
End LogCap.

Section Ends.
  Context (space : Z -> bool).
  Notation run := (c_run space).
  Notation step := (c_step space).

  Definition unread (s : stream) : nat := (List.length (st_text s) - st_pos s)%nat.
  Definition weight (c : capture) : nat := list_sum (map unread (c_streams c)).
  Definition measure (c : capture) : nat :=
    match c_at c with Some k => (weight c + (List.length (c_streams c) - k))%nat | None => 0%nat end.

  Lemma sum_upd k s u l : nth_error l k = Some s -> (unread u <= unread s)%nat ->
    (list_sum (map unread (upd k u l)) + (unread s - unread u) = list_sum (map unread l))%nat.
  Proof.
    revert k. induction l as [|y l IH]; intros [|k] E Le; try discriminate.
    - injection E as ->. cbn [upd map list_sum fold_right]. unfold list_sum. cbn [fold_right]. lia.
    - cbn [upd map]. unfold list_sum. cbn [fold_right]. specialize (IH k E Le). unfold list_sum in IH. lia.
  Qed.
  Lemma unread_after s : (unread (after_read s) + List.length (readline (skipn (st_pos s) (st_text s))) = unread s)%nat.
  Proof.
    unfold unread, after_read. cbn [st_text st_pos].
    destruct (readline_prefix (skipn (st_pos s) (st_text s))) as [r R].
    apply (f_equal (@List.length Z)) in R. rewrite app_length, skipn_length in R. lia.
  Qed.
  Lemma measure_read c k : at_ok c -> c_at c = Some k -> (measure (step c LRead) < measure c)%nat.
  Proof.
    intros O A. destruct (nth_error (c_streams c) k) as [s|] eqn:E.
    2: { apply nth_error_None in E. specialize (O k A). lia. }
    specialize (O k A). rewrite (read_at space c k s A E). unfold measure at 2. rewrite A.
    pose proof (unread_after s) as U. pose proof (sum_upd k s (after_read s) (c_streams c) E ltac:(lia)) as Su.
    unfold weight in *.
    destruct (now_read space s) as [|x r] eqn:R.
    - unfold c_goto. cbn [c_streams]. rewrite upd_length. destruct (S k <? _)%nat eqn:G; unfold measure; cbn [c_at c_streams];
        [unfold weight; cbn [c_streams]; rewrite upd_length; lia|lia].
    - unfold measure, weight. cbn [c_at c_streams]. rewrite ?A, upd_length.
      assert (readline (skipn (st_pos s) (st_text s)) <> []).
      { intros Z0. unfold now_read in R. rewrite Z0 in R. discriminate. }
      destruct (readline (skipn (st_pos s) (st_text s))); [easy|]. cbn [List.length] in U. lia.
  Qed.
  Lemma reads_end c : at_ok c -> forall m, (measure c <= m)%nat -> c_at (run c (repeat LRead m)) = None.
  Proof.
    intros O m. revert c O. induction m as [|m IH]; intros c O M.
    - cbn. destruct (c_at c) as [k|] eqn:A; [|reflexivity]. pose proof (measure_read c k O A). lia.
    - cbn [repeat]. rewrite run_cons. destruct (c_at c) as [k|] eqn:A.
      + apply IH; [now apply step_ok|]. pose proof (measure_read c k O A). lia.
      + replace (step c LRead) with c; [|cbn [c_step]; unfold c_read; now rewrite A].
        rewrite idle_stays by exact A. exact A.
  Qed.

  (** A writer that answers every entry with another line. *)
  Lemma fed k c s ls m l : space 10 = true -> c_at c = Some k -> nth_error (c_streams c) k = Some s ->
    skipn (st_pos s) (st_text s) = text_of ls -> Forall nonl ls -> Forall (fun x => blank space x = false) ls -> ls <> [] ->
    nonl l -> blank space l = false ->
    c_at (run c (List.concat (repeat [LRead; LAppend k (l ++ [10])] m))) = Some k.
  Proof.
    intros Hnl. revert c s ls. induction m as [|m IH]; intros c s ls A E P F B N Nl Bl; [exact A|].
    cbn [repeat List.concat]. cbn [app]. rewrite !run_cons.
    destruct ls as [|x ls]; [easy|]. inversion F as [|? ? Nx F']; subst. inversion B as [|? ? Bx B']; subst.
    assert (P' : skipn (st_pos s) (st_text s) = x ++ 10 :: text_of ls).
    { rewrite P. unfold text_of. cbn [map List.concat]. now rewrite <- app_assoc. }
    assert (Rl : readline (skipn (st_pos s) (st_text s)) = x ++ [10]) by (rewrite P'; now apply readline_line).
    pose proof (nth_lt' _ _ _ E) as L.
    pose proof (read_at space c k s A E) as St. unfold now_read in St. rewrite Rl, rstrip_newline in St by exact Hnl.
    destruct (rstrip space x) as [|y r] eqn:R; [apply rstrip_blank in R; congruence|].
    rewrite St. cbn [c_step]. unfold c_append. cbn [c_streams]. rewrite upd_nth by exact L.
    apply (IH _ (mkStream (st_level s) (st_text s ++ l ++ [10]) (st_pos (after_read s))) (ls ++ [l])).
    - exact A.
    - cbn [c_streams]. rewrite upd_nth by (rewrite upd_length; exact L). reflexivity.
    - cbn [st_pos st_text]. unfold after_read. cbn [st_pos]. rewrite Rl.
      assert (Le : (st_pos s + List.length (x ++ [10%Z]) <= List.length (st_text s))%nat).
      { apply (f_equal (@List.length Z)) in P'. rewrite skipn_length, app_length in P'. rewrite app_length. cbn in *. lia. }
      rewrite skipn_app. replace (_ - List.length (st_text s))%nat with 0%nat by lia. cbn [skipn].
      rewrite text_of_app. f_equal.
      + rewrite <- skipn_skipn_add, P', app_length. cbn [List.length]. now rewrite skipn_past.
      + unfold text_of. cbn. now rewrite app_nil_r.
    - apply Forall_app. split; [exact F'|]. now constructor.
    - apply Forall_app. split; [exact B'|]. now constructor.
    - destruct ls; discriminate.
    - exact Nl.
    - exact Bl.
  Qed.
End Ends.
