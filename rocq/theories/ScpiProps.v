(** C46: the reply returned for a command is the instrument's reply to it. *)
From Verif Require Import Base BaseLemmas PyStrModel TaskModel TaskProofs ScpiModel ScpiSpec ScpiProofs.
From Coq Require Import ZifyBool ZifyNat Lia.
Open Scope list_scope.
Open Scope Z_scope.

Lemma the_inv h : exists e, inv (sc_run sc_new h) e.
Proof. apply (run_inv h sc_new 0 inv_new). Qed.

(** C46.  Commands go out in the order of the calls, each once, and at any time at
    most one command waits for its reply. *)
Theorem C46_one_outstanding : forall h, let s := sc_run sc_new h in
  (exists waiting, commands h = sc_sent s ++ waiting) /\ (List.length (outstanding s) <= 1)%nat.
Proof.
  intros h s. destruct (the_inv h) as [e I]. fold s in I. split.
  - pose proof (run_wants h sc_new) as RW. fold s in RW. cbn [sc_calls sc_new map app] in RW. rewrite <- asked_commands, <- RW, map_map. cbn.
    rewrite (i_sent _ _ I). exists (map wire (skipn (started_count s e) (sc_calls s))). rewrite <- map_app, firstn_skipn. reflexivity.
  - unfold outstanding. assert (X : forall k c, nth_error (sc_calls s) k = Some c -> cl_pc c = CReply -> k = e).
    { intros k c N P. destruct (Nat.lt_trichotomy k e) as [L|[L|L]]; [|exact L|].
      - destruct (i_done _ _ I k L) as [r R]. unfold pc_at in R. rewrite N in R. cbn in R. rewrite P in R. discriminate.
      - assert (k < List.length (sc_calls s))%nat by (apply nth_error_Some; rewrite N; discriminate).
        pose proof (i_wait _ _ I k L H) as R. unfold pc_at in R. rewrite N in R. cbn in R. rewrite P in R. discriminate. }
    clear I. revert e X. induction (sc_calls s) as [|c l IH]; intros e X; [cbn; lia|]. cbn [filter]. destruct (cl_pc c) eqn:P.
    + apply (IH (e - 1)%nat). intros k c' N P'. specialize (X (S k) c' N P'). lia.
    + pose proof (X 0%nat c eq_refl P) as E0. cbn [List.length].
      assert (Z : filter (fun c => match cl_pc c with CReply => true | _ => false end) l = []).
      { assert (Y : forall k c', nth_error l k = Some c' -> cl_pc c' <> CReply) by (intros k c' N P'; specialize (X (S k) c' N P'); lia).
        clear - Y. induction l as [|c l IH]; [reflexivity|]. cbn [filter]. pose proof (Y 0%nat c eq_refl) as Y0. destruct (cl_pc c); try congruence; apply IH; intros k c' N; apply (Y (S k) c' N). }
      rewrite Z. cbn. lia.
    + apply (IH (e - 1)%nat). intros k c' N P'. specialize (X (S k) c' N P'). lia.
Qed.
Print Assumptions C46_one_outstanding.

(** C46.  The lines that arrive are handed to the calls in order: those returned,
    the one in the queue and those the reader holds are all the non-empty lines
    that arrived; no call returns two, no line is returned by two calls. *)
Theorem C46_lines_in_order : forall h, let s := sc_run sc_new h in
  map snd (sc_got s) ++ match sc_queue s with Some x => [x] | None => [] end ++ sc_pending s = flat_map items (arrived h) /\
  NoDup (map fst (sc_got s)) /\ forall k x, In (k, x) (sc_got s) -> returned s k = Some x.
Proof.
  intros h s. split; [exact (run_flow h sc_new)|]. destruct (the_inv h) as [e I]. fold s in I. split; [apply (i_once _ _ I)|].
  intros k x H. destruct (i_got _ _ I k x H) as [_ P]. unfold pc_at in P. unfold returned. destruct (nth_error (sc_calls s) k) as [c|]; [|discriminate]. cbn in P. injection P as P. rewrite P. reflexivity.
Qed.
Print Assumptions C46_lines_in_order.

(** C46.  Nobody is stuck: the first call that has not returned can go on.  Either
    it sends its command when it moves, or it has sent it, and then it returns the
    line in the queue when it moves, and "" when it times out. *)
Theorem C46_progress : forall h k, let s := sc_run sc_new h in
  (k < List.length (sc_calls s))%nat -> returned s k = None -> (forall j, (j < k)%nat -> returned s j <> None) ->
  (List.length (sc_sent s) = k /\ List.length (sc_sent (sc_step s (SMove k))) = S k) \/
  (List.length (sc_sent s) = S k /\ returned (sc_step s (STimeout k)) k = Some [] /\
   forall x, sc_queue s = Some x -> returned (sc_step s (SMove k)) k = Some x).
Proof.
  intros h k s Lt Rk Rj. destruct (the_inv h) as [e I]. fold s in I.
  assert (E : k = e).
  { destruct (Nat.lt_trichotomy k e) as [L|[L|L]]; [exfalso|exact L|exfalso].
    - destruct (i_done _ _ I k L) as [r R]. unfold pc_at in R. unfold returned in Rk. destruct (nth_error (sc_calls s) k) as [c|]; [|discriminate]. cbn in R. injection R as R. rewrite R in Rk. discriminate.
    - apply (Rj e L). pose proof (i_cur _ _ I) as C. unfold pc_at in C. unfold returned. destruct (nth_error (sc_calls s) e) as [c|]; [|reflexivity]. cbn in C. destruct (cl_pc c) eqn:P; try reflexivity. destruct (C r). rewrite <- P. reflexivity. }
  subst k. pose proof (started_len s e I) as SL. unfold started_count in SL. pose proof (i_cur _ _ I) as C. unfold pc_at in *. 
  destruct (nth_error (sc_calls s) e) as [c|] eqn:N; [|apply nth_error_None in N; lia]. cbn [option_map] in *.
  assert (L : sc_line s = e :: seq (S e) (List.length (sc_calls s) - e - 1)).
  { rewrite (i_line _ _ I). destruct (List.length (sc_calls s) - e)%nat as [|m] eqn:X; [lia|]. cbn [seq]. do 2 f_equal. lia. }
  cbn [sc_step]. rewrite L, Nat.eqb_refl, N. destruct (cl_pc c) as [| |r] eqn:P; [left|right|destruct (C r); reflexivity].
  - split; [exact SL|]. unfold sc_start. rewrite N. destruct (cl_wants c); cbn [sc_sent]; rewrite app_length; cbn; lia.
  - split; [exact SL|]. split.
    + unfold returned. cbn [sc_calls]. pose proof (set_same e (CEnd []) _ Lt) as X. destruct (nth_error (set_call e (CEnd []) (sc_calls s)) e) as [c'|]; [|discriminate]. cbn in X. injection X as ->. reflexivity.
    + intros x ->. unfold returned. cbn [sc_calls]. pose proof (set_same e (CEnd x) _ Lt) as X. destruct (nth_error (set_call e (CEnd x) (sc_calls s)) e) as [c'|]; [|discriminate]. cbn in X. injection X as ->. reflexivity.
Qed.
Print Assumptions C46_progress.

(** C46, for an instrument that answers in whole lines and in order, and if a call
    only times out when its command is never answered, and commands for which no
    reply is expected are not answered: every call returns the reply to its own
    command, or "" if there is none.  This holds for every interleaving of any
    number of callers. *)
Theorem C46_own_reply_partial : forall d h, regular d h ->
  (forall k, In (STimeout k) h -> d k = None) -> (forall k, nth_error (expects_reply h) k = Some false -> d k = None) ->
  forall k r, returned (sc_run sc_new h) k = Some r -> r = match d k with Some x => x | None => [] end.
Proof.
  intros d h R T W k r H. destruct (regular_run d h R T W h [] (eq_sym (app_nil_r h))) as (e & I & _ & F).
  unfold returned in H. destruct (nth_error _ k) as [c|] eqn:N; [|discriminate]. destruct (cl_pc c) eqn:P; try discriminate. injection H as ->.
  assert (k < e)%nat.
  { destruct (Nat.lt_trichotomy k e) as [L|[L|L]]; [exact L| |].
    - subst k. exfalso. apply (i_cur _ _ I r). unfold pc_at. rewrite N. cbn. rewrite P. reflexivity.
    - assert (k < List.length (sc_calls (sc_run sc_new h)))%nat by (apply nth_error_Some; rewrite N; discriminate).
      pose proof (i_wait _ _ I k L H) as X. unfold pc_at in X. rewrite N in X. cbn in X. rewrite P in X. discriminate. }
  specialize (F k H). unfold pc_at in F. rewrite N in F. cbn in F. rewrite P in F. injection F as ->. reflexivity.
Qed.
Print Assumptions C46_own_reply_partial.

(** C46.  Refuted: if one reply comes after its call has timed out, then every
    later call returns the reply to the command before it, for as long as the
    connection lasts. *)
Theorem C46_late_reply_refuted : forall c0 r0 l, is_line r0 -> Forall (fun x => is_line (snd x)) l ->
  let h := [SCall c0 true false; STimeout 0; SChunk (r0 ++ lit "
"); SReader] ++ turns 1 l in
  commands h = map (fun c => c ++ lit "
") (c0 :: map fst l) /\
  arrived h = map (fun r => r ++ lit "
") (r0 :: map snd l) /\
  forall k, (k < List.length l)%nat -> returned (sc_run sc_new h) (S k) = nth_error (r0 :: map snd l) k.
Proof.
  intros c0 r0 l L0 L h. split; [|split].
  - unfold h. unfold commands. rewrite flat_map_app. cbn [flat_map app map]. f_equal. generalize 1%nat. clear. induction l as [|[c r] l IH]; intros i; [reflexivity|].
    cbn [turns map fst]. rewrite flat_map_app, IH. reflexivity.
  - unfold h. unfold arrived. rewrite flat_map_app. cbn [flat_map app map]. f_equal. generalize 1%nat. clear. induction l as [|[c r] l IH]; intros i; [reflexivity|].
    cbn [turns map snd]. rewrite flat_map_app, IH. reflexivity.
  - intros k Hk. unfold h. unfold sc_run. rewrite fold_left_app.
    assert (E : fold_left sc_step [SCall c0 true false; STimeout 0; SChunk (r0 ++ lit "
"); SReader] sc_new = mkScpi [mkCall c0 true (CEnd [])] [] [c0 ++ [10]] (Some r0) [] []).
    { cbn [fold_left]. cbn. change (r0 ++ [10]) with (r0 ++ [10]). rewrite items_line by exact L0. reflexivity. }
    rewrite E. destruct (turns_run l L [mkCall c0 true (CEnd [])] [c0 ++ [10]] [] r0) as (s' & g' & q' & X). cbn [List.length] in X. unfold sc_run in X. rewrite X.
    unfold returned. cbn [sc_calls app nth_error]. rewrite nth_error_map.
    assert (Y : forall (a b : list str) n, (n < List.length a)%nat -> (List.length a <= List.length b)%nat -> exists x y, nth_error (combine a b) n = Some (x, y) /\ nth_error b n = Some y).
    { clear. induction a as [|x a IH]; intros [|y b] n H1 H2; cbn in H1, H2; try lia. destruct n as [|n]; [exists x, y; auto|]. cbn [combine nth_error]. apply IH; lia. }
    destruct (Y (map fst l) (r0 :: map snd l) k) as (x & y & -> & Hy); [rewrite map_length; exact Hk|cbn; rewrite !map_length; lia|]. cbn [option_map cl_pc snd]. symmetry. exact Hy.
Qed.
Print Assumptions C46_late_reply_refuted.

(** C46.  Refuted: a reply that arrives in two pieces is taken for two replies;
    the second piece becomes the reply to the next command. *)
Theorem C46_split_reply_refuted : forall c1 c2 a b, is_line a -> is_line b ->
  let h := [SCall c1 true false; SChunk a; SReader; SMove 0; SChunk (b ++ lit "
"); SReader; SCall c2 true false; SMove 1] in
  List.concat (arrived h) = (a ++ b) ++ lit "
" /\ returned (sc_run sc_new h) 0 = Some a /\ returned (sc_run sc_new h) 1 = Some b.
Proof.
  intros c1 c2 a b La Lb h.
  assert (Ia : items a = [a]).
  { destruct La as [N B]. unfold items. assert (X : forall cur, pieces cur a = [cur ++ a]).
    { clear N. induction a as [|c a IH]; intros cur; cbn [pieces]; [rewrite app_nil_r; reflexivity|]. rewrite (B c (or_introl eq_refl)). rewrite IH by (intros d Hd; apply B; right; exact Hd). rewrite <- app_assoc. reflexivity. }
    rewrite X. cbn [app filter]. destruct a; [congruence|reflexivity]. }
  assert (Ib : items (b ++ [10]) = [b]) by apply (items_line b Lb).
  split; [unfold h; cbn; rewrite <- !app_assoc; reflexivity|].
  assert (E : sc_calls (sc_run sc_new h) = [mkCall c1 true (CEnd a); mkCall c2 true (CEnd b)]).
  { unfold h, sc_run. cbn [fold_left]. change (lit "
") with [10]. set (s1 := sc_step sc_new (SCall c1 true false)). vm_compute in s1.
    set (s2 := sc_step s1 (SChunk a)). assert (E2 : s2 = mkScpi (sc_calls s1) (sc_line s1) (sc_sent s1) None [a] []) by (unfold s2; cbn [sc_step]; rewrite Ia; reflexivity). clearbody s2. subst s2.
    set (s4 := sc_step (sc_step _ SReader) (SMove 0)). assert (E4 : s4 = mkScpi [mkCall c1 true (CEnd a)] [] (sc_sent s1) None [] [(0%nat, a)]) by reflexivity. clearbody s4. subst s4.
    set (s5 := sc_step _ (SChunk (b ++ [10]))). assert (E5 : s5 = mkScpi [mkCall c1 true (CEnd a)] [] (sc_sent s1) None [b] [(0%nat, a)]) by (unfold s5; cbn [sc_step]; rewrite Ib; reflexivity). clearbody s5. subst s5.
    reflexivity. }
  unfold returned. rewrite E. split; reflexivity.
Qed.
Print Assumptions C46_split_reply_refuted.

(** Three calls at once, one of them without a reply; one command is never
    answered and times out. *)
Definition dev (k : nat) : option str := match k with 0%nat => Some (lit "ACME,1") | 3%nat => Some (lit "5.0") | _ => None end.
Definition history : list sev :=
  [SCall (lit "*IDN") true true; SCall (lit "*RST") false false; SCall (lit "FOO") true true; SMove 1; SChunk (lit "ACME,1
"); SReader; SMove 0; SMove 1; SMove 2; STimeout 2; SCall (lit "MEAS") true true; SMove 3; SChunk (lit "5.0
"); SReader; SMove 3].
Example C46_case :
  let s := sc_run sc_new history in
  (returned s 0, returned s 1, returned s 2, returned s 3) = (Some (lit "ACME,1"), Some [], Some [], Some (lit "5.0")) /\
  sc_sent s = [lit "*IDN?
"; lit "*RST
"; lit "FOO?
"; lit "MEAS?
"].
Proof. vm_compute. split; reflexivity. Qed.
Example C46_case_regular : regular dev history /\ (forall k, In (STimeout k) history -> dev k = None) /\ (forall k, nth_error (expects_reply history) k = Some false -> dev k = None).
Proof.
  split; [split|split].
  - intros [|[|[|[|k]]]] x H; try discriminate; injection H as <-; (split; [discriminate|]); intros c Hc; cbn in Hc; repeat (destruct Hc as [<-|Hc]; [reflexivity|]); destruct Hc.
  - intros h1 h2 E.
    assert (P : exists n, (n <= 15)%nat /\ h1 = firstn n history).
    { exists (List.length h1). split; [change 15%nat with (List.length history); rewrite E, app_length; lia|]. rewrite E, firstn_app, Nat.sub_diag, firstn_all, app_nil_r. reflexivity. }
    destruct P as (n & Hn & ->). clear E.
    do 16 (destruct n as [|n]; [vm_compute; eexists; reflexivity|]). lia.
  - intros k H. cbn in H. repeat (destruct H as [H|H]; [try discriminate; injection H as <-; reflexivity|]). destruct H.
  - intros [|[|[|[|k]]]] H; try discriminate; try reflexivity; destruct k; discriminate.
Qed.
Example C46_case_late : is_line (lit "a") /\ Forall (fun x => is_line (snd x)) [(lit "Q1?", lit "b"); (lit "Q2?", lit "c")].
Proof.
  assert (L : forall z, is_break z = false -> is_line [z]) by (intros z H; split; [discriminate|intros c [<-|[]]; exact H]).
  repeat constructor; apply L; reflexivity.
Qed.
