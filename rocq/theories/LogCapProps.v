(** C70: captured log files are forwarded line by line. *)
From Coq Require Import ZifyBool ZifyNat Lia.
From Verif Require Import Base BaseLemmas PyStrModel TaskModel TaskProofs LogCapModel LogCapSpec LogCapProofs.

Lemma open_existing files k lvl t0 : nth_error (existing files) k = Some (lvl, t0) ->
  nth_error (c_streams (c_open files)) k = Some (mkStream lvl t0 (List.length t0)).
Proof.
  unfold c_open. cbn [c_streams]. revert k. induction files as [|[l [t|]] files IH]; intros k.
  - destruct k; discriminate.
  - cbn [existing flat_map snd fst app open_streams]. destruct k as [|k]; [now intros [= <- <-]|apply IH].
  - cbn [existing flat_map snd fst app open_streams]. apply IH.
Qed.

(** However writers and reads interleave: the visible characters that were
    forwarded from a file are those of the beginning of what was appended to it
    since the capture began, none lost, repeated or moved. *)
Theorem C70_characters : forall space files k lvl t0 ops,
  nth_error (existing files) k = Some (lvl, t0) ->
  let c := c_run space (c_open files) ops in
  exists n,
    appended k ops = firstn n (appended k ops) ++ pending k c /\
    visible space (List.concat (map snd (forwarded k c))) = visible space (firstn n (appended k ops)).
Proof.
  intros space files k lvl t0 ops E c. apply open_existing in E.
  destruct (charinv_run space ops k _ t0 [] lvl (open_char space k _ files lvl t0 eq_refl E))
    as (s & n & En & _ & T & P & L & C).
  cbn [app] in *. exists n. fold c in C, En. split; [|exact C].
  unfold pending. rewrite En, T, P, (skipn_past space). symmetry. apply firstn_skipn.
Qed.
Print Assumptions C70_characters.

(** When writers append whole lines: what was forwarded from a file is one
    entry, at the file's level and without trailing white space, for each line
    that is not blank among the first [n] appended lines, in order; the other
    lines are still in the file to be read. *)
Theorem C70_forwarded_partial : forall space files k lvl t0 ops,
  space 10 = true ->
  nth_error (existing files) k = Some (lvl, t0) ->
  Forall whole_op ops ->
  let c := c_run space (c_open files) ops in
  exists n,
    forwarded k c = entries space lvl (firstn n (lines_of (appended k ops))) /\
    lines_of (pending k c) = skipn n (lines_of (appended k ops)).
Proof.
  intros space files k lvl t0 ops Hnl E W c. apply open_existing in E.
  destruct (lineinv_run space Hnl ops k _ t0 [] 0 lvl (open_line space k _ files lvl t0 eq_refl E) W)
    as (n & _ & I & _).
  cbn [app] in I. fold c in I. exists n. rewrite (lineinv_pending _ _ _ _ _ _ _ I).
  destruct I as (s & _ & _ & _ & F & _ & _ & Fw). split; [exact Fw|].
  apply text_whole. rewrite <- (firstn_skipn n (lines_of (appended k ops))) in F. now apply Forall_app in F.
Qed.
Print Assumptions C70_forwarded_partial.

(** Without that premise it is false: a line that is written in two pieces is
    forwarded as two entries when a read falls between them. *)
Theorem C70_split_refuted : ~ (forall files k lvl t0 ops,
  nth_error (existing files) k = Some (lvl, t0) ->
  whole (appended k ops) ->
  exists n, forwarded k (c_run is_space (c_open files) ops) =
            entries is_space lvl (firstn n (lines_of (appended k ops)))).
Proof.
  intros H.
  destruct (H [(20, Some [])] 0%nat 20 [] [LAppend 0 (lit "ab"); LCall; LRead; LAppend 0 (lit "cd" ++ [10]); LRead]
              eq_refl eq_refl) as [n Hn].
  destruct n as [|[|n]]; vm_compute in Hn; discriminate.
Qed.
Print Assumptions C70_split_refuted.

(** A call that is not interrupted by writers forwards from every file the
    lines up to the next blank line (or the end) and leaves the lines after it
    to later calls. *)
Theorem C70_call : forall space files ops,
  space 10 = true ->
  Forall whole_op ops ->
  let c := c_run space (c_open files) ops in
  c_at c = None ->
  exists m, let c' := c_run space c (LCall :: repeat LRead m) in
    c_at c' = None /\ c_done c' = S (c_done c) /\
    forall k lvl t0, nth_error (existing files) k = Some (lvl, t0) ->
      forwarded k c' = forwarded k c ++ entries space lvl (before_blank space (lines_of (pending k c))) /\
      whole (pending k c') /\ lines_of (pending k c') = after_blank space (lines_of (pending k c)).
Proof.
  intros space files ops Hnl W c A.
  assert (St : forall k s, nth_error (c_streams c) k = Some s ->
     exists lvl t0 n, st_level s = lvl /\ lineinv space k c t0 (lines_of (appended k ops)) n lvl).
  { intros k s E.
    destruct (nth_error (c_streams (c_open files)) k) as [s0|] eqn:E0.
    2: { apply nth_error_None in E0. pose proof (nth_lt' _ _ _ E) as L. unfold c in L. rewrite len_run in L. lia. }
    pose proof (open_nth files k s0 E0) as Q.
    rewrite Q in E0.
    destruct (lineinv_run space Hnl ops k _ (st_text s0) [] 0 (st_level s0) (open_line space k _ files _ _ eq_refl E0) W)
      as (n & _ & I & _).
    cbn [app] in I. fold c in I. exists (st_level s0), (st_text s0), n. split; [|exact I].
    destruct I as (s' & E' & V & _). congruence. }
  assert (Wp : whole_pending c).
  { intros k. destruct (nth_error (c_streams c) k) as [s|] eqn:E.
    - destruct (St k s E) as (lvl & t0 & n & _ & I). rewrite (lineinv_pending _ _ _ _ _ _ _ I).
      destruct I as (_ & _ & _ & _ & F & _). apply text_whole.
      rewrite <- (firstn_skipn n (lines_of (appended k ops))) in F. now apply Forall_app in F.
    - unfold pending. rewrite E. reflexivity. }
  destruct (call_from space Hnl (List.length (c_streams c)) 0 c ltac:(lia) Wp A) as (m & A' & D' & Hi & _).
  exists m. cbn zeta. rewrite run_cons. cbn [c_step]. rewrite A. split; [exact A'|]. split; [exact D'|].
  intros k lvl t0 E. apply open_existing in E.
  assert (L : (0 <= k < List.length (c_streams c))%nat).
  { unfold c. rewrite len_run. pose proof (nth_lt' _ _ _ E). lia. }
  destruct (Hi k L) as [F P]. rewrite F, P.
  assert (Fa : Forall nonl (after_blank space (lines_of (pending k c)))).
  { generalize (proj1 (lines_nonl (pending k c))). generalize (lines_of (pending k c)). clear.
    induction 1 as [|l ls Hl F IHf]; cbn [after_blank]; [constructor|]. destruct (blank space l); assumption. }
  split; [|now apply text_whole]. repeat f_equal.
  destruct (lineinv_run space Hnl ops k _ t0 [] 0 lvl (open_line space k _ files lvl t0 eq_refl E) W)
    as (n & _ & I & _). fold c in I.
  destruct I as (s' & E' & V & _). unfold level. now rewrite E'.
Qed.
Print Assumptions C70_call.

(** So a call need not forward everything that was written before it. *)
Theorem C70_delayed_refuted : ~ (forall files k lvl t0 ops m,
  nth_error (existing files) k = Some (lvl, t0) ->
  Forall whole_op ops ->
  let c := c_run is_space (c_open files) ops in
  c_at c = None ->
  let c' := c_run is_space c (LCall :: repeat LRead m) in
  c_done c' = S (c_done c) ->
  forwarded k c' = entries is_space lvl (lines_of (appended k ops))).
Proof.
  intros H.
  specialize (H [(20, Some [])] 0%nat 20 [] [LAppend 0 (lit "a" ++ [10; 10] ++ lit "b" ++ [10])] 2%nat
    eq_refl ltac:(repeat constructor) eq_refl eq_refl).
  vm_compute in H. discriminate.
Qed.
Print Assumptions C70_delayed_refuted.

(** But enough calls do, whatever the writers do meanwhile: once more calls
    began and returned after a moment than blank lines were appended before it,
    everything appended before it is forwarded. *)
Theorem C70_progress_partial : forall space files k lvl t0 ops1 ops2,
  space 10 = true ->
  nth_error (existing files) k = Some (lvl, t0) ->
  Forall whole_op (ops1 ++ ops2) ->
  let c1 := c_run space (c_open files) ops1 in
  let c2 := c_run space c1 ops2 in
  let ls1 := lines_of (appended k ops1) in
  (c_done c1 + running c1 + blanks space ls1 < c_done c2)%nat ->
  exists n,
    (List.length ls1 <= n)%nat /\
    forwarded k c2 = entries space lvl (firstn n (lines_of (appended k (ops1 ++ ops2)))).
Proof.
  intros space files k lvl t0 ops1 ops2 Hnl E W c1 c2 ls1 D. apply open_existing in E.
  apply Forall_app in W as [W1 W2].
  destruct (lineinv_run space Hnl ops1 k _ t0 [] 0 lvl (open_line space k _ files lvl t0 eq_refl E) W1)
    as (n1 & _ & I1 & _).
  cbn [app] in I1. fold c1 ls1 in I1.
  destruct (lineinv_run space Hnl ops2 k _ t0 _ n1 lvl I1 W2) as (n2 & L2 & I2 & S2). fold c2 in I2, S2.
  exists n2. split.
  - destruct (Nat.le_gt_cases (List.length ls1) n2) as [G|G]; [exact G|]. specialize (S2 G).
    assert (B : (blanks space (firstn n2 ls1) <= blanks space ls1)%nat).
    { rewrite <- (firstn_skipn n2 ls1) at 2. rewrite blanks_app. lia. }
    unfold visits in S2. unfold running in D.
    destruct (c_at c1) as [j|]; [destruct (k <? j)%nat|]; lia.
  - destruct I2 as (_ & _ & _ & _ & _ & _ & _ & Fw). rewrite appended_app.
    rewrite (proj1 (lines_app _ _ (appended_whole k ops1 W1))). exact Fw.
Qed.
Print Assumptions C70_progress_partial.

(** Without further writing every call returns. *)
Theorem C70_returns : forall space files ops,
  let c := c_run space (c_open files) ops in
  exists m0, forall m, (m0 <= m)%nat -> c_at (c_run space c (repeat LRead m)) = None.
Proof.
  intros space files ops c. exists (measure c). apply reads_end. apply run_ok. intros k. discriminate.
Qed.
Print Assumptions C70_returns.

(** A file that gets a new line for each line forwarded from it (the logger's
    own output, say) keeps the call busy for ever. *)
Theorem C70_feedback : forall space lvl first l m,
  space 10 = true ->
  ~ In 10 first -> blank space first = false ->
  ~ In 10 l -> blank space l = false ->
  c_at (c_run space (c_open [(lvl, Some [])])
          (LAppend 0 (first ++ [10]) :: LCall :: List.concat (repeat [LRead; LAppend 0 (l ++ [10])] m))) = Some 0%nat.
Proof.
  intros space lvl first l m Hnl Nf Bf Nl Bl. rewrite !run_cons.
  eapply (fed space 0 _ _ [first]); try eassumption.
  - reflexivity.
  - reflexivity.
  - cbn. unfold text_of. cbn. now rewrite app_nil_r.
  - now constructor.
  - now constructor.
  - discriminate.
Qed.
Print Assumptions C70_feedback.

(** The premises are met. *)
Definition ex_files : list (Z * option str) := [(10, None); (20, Some (lit "old" ++ [10])); (40, Some [])].
Definition ex_ops : list lop :=
  [LAppend 0 (lit "one  " ++ [10]); LCall; LRead; LAppend 1 (lit "two" ++ [10; 10] ++ lit "three" ++ [10]); LRead; LRead; LRead;
   LCall; LRead; LRead; LRead].
Example ex_existing : nth_error (existing ex_files) 0 = Some (20, lit "old" ++ [10]) /\ nth_error (existing ex_files) 1 = Some (40, []).
Proof. split; reflexivity. Qed.
Example ex_whole : Forall whole_op ex_ops.
Proof. repeat constructor. Qed.
Example ex_forwarded : let c := c_run is_space (c_open ex_files) ex_ops in
  forwarded 0 c = [(20, lit "one")] /\ forwarded 1 c = [(40, lit "two"); (40, lit "three")] /\
  c_at c = None /\ c_done c = 2%nat.
Proof. vm_compute. repeat split. Qed.
Example ex_progress :
  let c1 := c_run is_space (c_open ex_files) (firstn 2 ex_ops) in
  let c2 := c_run is_space c1 (skipn 2 ex_ops) in
  (c_done c1 + running c1 + blanks is_space (lines_of (appended 0 (firstn 2 ex_ops))) < c_done c2)%nat.
Proof. vm_compute. repeat constructor. Qed.
