(** What a peer answers to a message. *)
From Coq Require Import QArith Permutation.
From Verif Require Import Base BaseLemmas IfaceModel IfaceSpec IfaceProofs IfaceSys IfaceStd.
From Coq Require Import ZifyBool ZifyNat Lia.
Open Scope string_scope.
Open Scope list_scope.
Open Scope Z_scope.

(** ** Sorting *)
Lemma leb_total a b : String.leb a b = false -> String.leb b a = true.
Proof. intros H. destruct (String.leb_total a b); congruence. Qed.
Lemma insert_perm s l : Permutation (insert_str s l) (s :: l).
Proof.
  induction l as [|x l IH]; cbn; [reflexivity|]. destruct (String.leb s x); [reflexivity|].
  rewrite IH. apply perm_swap.
Qed.
Lemma sort_perm l : Permutation (sort_str l) l.
Proof.
  induction l as [|x l IH]; cbn [sort_str fold_right]; [reflexivity|].
  change (fold_right insert_str [] l) with (sort_str l). rewrite insert_perm, IH. reflexivity.
Qed.
Inductive srt : list string -> Prop :=
| srt0 : srt [] | srt1 a : srt [a] | srt2 a b l : String.leb a b = true -> srt (b :: l) -> srt (a :: b :: l).
Lemma insert_srt s l : srt l -> srt (insert_str s l).
Proof.
  induction 1 as [|a|a b l H1 H2 IH]; cbn.
  - constructor.
  - destruct (String.leb s a) eqn:E; repeat constructor; [exact E|]. apply leb_total; exact E.
  - destruct (String.leb s a) eqn:E; [repeat constructor; assumption|].
    cbn in IH. destruct (String.leb s b) eqn:E2.
    + constructor; [apply leb_total; exact E|exact IH].
    + constructor; [exact H1|exact IH].
Qed.
Lemma sort_srt l : srt (sort_str l).
Proof. induction l as [|x l IH]; cbn; [constructor|]. apply insert_srt. exact IH. Qed.
Lemma srt_sorted l : srt l -> sorted_strings l.
Proof.
  induction 1 as [|a|a b l H1 H2 IH]; intros l1 x y l2 E.
  - destruct l1; discriminate.
  - destruct l1 as [|? [|? ?]]; discriminate.
  - destruct l1 as [|c l1]; [injection E as <- <- <-; exact H1|]. injection E as <- E. apply (IH l1 x y l2 E).
Qed.

Section Answer.
  Context {S : Type} (ev : string -> option (target S)).
  (** Handlers answer under the key they are registered for, which is not
      reserved. *)
  Context (OK : forall k t, ev k = Some t -> t_key t = k /\ reserved k = false).

  Lemma collect_shape d : forall ts ig, collect ev d = Some (ts, ig) ->
    map fst ts = filter (handled ev) (dkeys d) /\ ig = filter (fun k => negb (handled ev k)) (dkeys d) /\
    (forall k j t, In (k, j) d -> ev k = Some t -> exists ib, t_prep t j = Some ib /\ In (k, Some (t, ib)) ts) /\
    (forall k t ib, In (k, Some (t, ib)) ts -> ev k = Some t /\ exists j, In (k, j) d).
  Proof.
    induction d as [|[k j] d IH]; cbn [collect]; intros ts ig H.
    - injection H as <- <-. split; [reflexivity|]. split; [reflexivity|]. split; [intros ? ? ? []|intros ? ? ? []].
    - unfold dkeys. cbn [map fst filter]. fold (dkeys d). destruct (ev k) as [t|] eqn:Ek.
      + assert (Hh : handled ev k = true) by (unfold handled; rewrite Ek; reflexivity).
        destruct (t_prep t j) as [ib|] eqn:Ep; [|discriminate]. destruct (collect ev d) as [[ts' ig']|]; [|discriminate].
        injection H as <- <-. destruct (IH _ _ eq_refl) as (A & B & C & D). rewrite Hh. cbn [negb map fst].
        destruct (OK _ _ Ek) as [-> _]. rewrite A. split; [reflexivity|]. split; [exact B|]. split.
        * intros k1 j1 t1 [E|E] E1; [injection E as <- <-; rewrite Ek in E1; injection E1 as <-; exists ib; split; [exact Ep|left; reflexivity]|].
          destruct (C k1 j1 t1 E E1) as (ib1 & X & Y). exists ib1. split; [exact X|right; exact Y].
        * intros k1 t1 ib1 [E|E]; [injection E as <- <- <-; split; [exact Ek|exists j; left; reflexivity]|].
          destruct (D _ _ _ E) as (X & j1 & Y). split; [exact X|exists j1; right; exact Y].
      + destruct (collect ev d) as [[ts' ig']|]; [|discriminate]. destruct (IH _ _ eq_refl) as (A & B & C & D).
        assert (Hh : handled ev k = reserved k) by (unfold handled; rewrite Ek; reflexivity). rewrite Hh.
        destruct (reserved k) eqn:Er; injection H as <- <-; cbn [negb map fst].
        * rewrite A. split; [reflexivity|]. split; [exact B|]. split.
          -- intros k1 j1 t1 [E|E] E1; [injection E as <- <-; congruence|]. destruct (C k1 j1 t1 E E1) as (ib1 & X & Y).
             exists ib1. split; [exact X|right; exact Y].
          -- intros k1 t1 ib1 [E|E]; [discriminate|]. destruct (D _ _ _ E) as (X & j1 & Y). split; [exact X|exists j1; right; exact Y].
        * split; [exact A|]. split; [rewrite B; reflexivity|]. split.
          -- intros k1 j1 t1 [E|E] E1; [injection E as <- <-; congruence|]. apply (C k1 j1 t1 E E1).
          -- intros k1 t1 ib1 E. destruct (D _ _ _ E) as (X & j1 & Y). split; [exact X|exists j1; right; exact Y].
  Qed.

  Lemma gather_shape ts : forall (s s' : S) subs, gather s ts = (s', Some subs) ->
    dkeys subs = map fst ts /\
    (forall k t ib, In (k, Some (t, ib)) ts -> exists s1 s2 b, t_run t s1 ib = (s2, Some b) /\ In (k, b) subs) /\
    (forall k b, In (k, b) subs -> b <> [] -> exists t ib, In (k, Some (t, ib)) ts).
  Proof.
    induction ts as [|[k [[t ib]|]] ts IH]; cbn [gather]; intros s s' subs H.
    - injection H as <- <-. split; [reflexivity|]. split; [intros ? ? ? []|intros ? ? []].
    - destruct (t_run t s ib) as [s1 [b|]] eqn:Et; destruct (gather s1 ts) as [s2 [l|]] eqn:Eg; try discriminate.
      injection H as <- <-. destruct (IH _ _ _ Eg) as (A & B & C). unfold dkeys in *. cbn [map fst]. rewrite A. split; [reflexivity|]. split.
      + intros k1 t1 ib1 [E|E]; [injection E as <- <- <-; exists s, s1, b; split; [exact Et|left; reflexivity]|].
        destruct (B _ _ _ E) as (x & y & z & P & Q). exists x, y, z. split; [exact P|right; exact Q].
      + intros k1 b1 [E|E] Hb; [injection E as <- <-; exists t, ib; left; reflexivity|].
        destruct (C _ _ E Hb) as (t1 & ib1 & P). exists t1, ib1. right. exact P.
    - destruct (gather s ts) as [s2 [l|]] eqn:Eg; try discriminate.
      injection H as <- <-. destruct (IH _ _ _ Eg) as (A & B & C). unfold dkeys in *. cbn [map fst]. rewrite A. split; [reflexivity|]. split.
      + intros k1 t1 ib1 [E|E]; [discriminate|].
        destruct (B _ _ _ E) as (x & y & z & P & Q). exists x, y, z. split; [exact P|right; exact Q].
      + intros k1 b1 [E|E] Hb; [injection E as <- <-; destruct (Hb eq_refl)|].
        destruct (C _ _ E Hb) as (t1 & ib1 & P). exists t1, ib1. right. exact P.
  Qed.

  Lemma fold_dset_id {V} (l : list (string * V)) : forall d, NoDup (dkeys (d ++ l)) ->
    fold_left (fun d kb => dset (fst kb) (snd kb) d) l d = d ++ l.
  Proof.
    induction l as [|[k v] l IH]; intros d N; cbn [fold_left fst snd]; [rewrite app_nil_r; reflexivity|].
    rewrite dset_notin.
    - rewrite IH; rewrite <- app_assoc; [reflexivity|exact N].
    - apply dget_None_notin. unfold dkeys in *. rewrite map_app in N. cbn in N. apply NoDup_remove_2 in N. intros H. apply N. apply in_app_iff. auto.
  Qed.
  Lemma fold_ans_get (l : list (string * msg)) : forall d k, NoDup (dkeys l) ->
    dget k (fold_left (fun d (kb : string * msg) => match snd kb with [] => d | _ => dset (fst kb) (JObj (snd kb)) d end) l d) =
    match dget k l with Some (p :: b) => Some (JObj (p :: b)) | _ => dget k d end.
  Proof.
    induction l as [|[k0 v0] l IH]; intros d k N; cbn [fold_left fst snd]; [reflexivity|].
    unfold dkeys in N. cbn in N. inversion N as [|? ? N1 N2]; subst. fold (dkeys l) in N1, N2. rewrite IH by exact N2.
    cbn [dget]. destruct (eq_dec k k0) as [->|Hne].
    - apply dget_None_notin in N1. rewrite N1. destruct v0; [reflexivity|]. apply dget_dset_eq.
    - destruct (dget k l) as [[|p b]|]; destruct v0; try reflexivity; apply dget_dset_ne; exact Hne.
  Qed.
  Lemma answer_get subs ig k : NoDup (dkeys subs) -> k <> k_ignored ->
    dget k (answer subs ig) = match dget k subs with Some (p :: b) => Some (JObj (p :: b)) | _ => None end.
  Proof.
    intros N Hk. unfold answer. rewrite (fold_dset_id subs []) by exact N. cbn [app].
    destruct ig; [|rewrite dget_dset_ne by exact Hk]; rewrite fold_ans_get by exact N; destruct (dget k subs) as [[|]|]; reflexivity.
  Qed.

  (** What is sent, in terms of the answer. *)
  Lemma process_answer s st d s' st' out : NoDup (dkeys d) -> not_a_response st d ->
    process_json ev s st d = (s', st', out, true) ->
    exists ts ig s1 subs a, collect ev d = Some (ts, ig) /\ gather s ts = (s1, Some subs) /\
      (dget k_id d = None -> a = answer subs ig) /\
      (forall j, dget k_id d = Some j -> a = dset k_id j (answer subs ig)) /\
      ((a = [] /\ out = []) \/ (a <> [] /\ exists m, out = [m] /\ forall k, k <> k_log -> dget k m = dget k a)).
  Proof.
    intros N NR P. unfold process_json in P. destruct (collect ev d) as [[ts ig]|] eqn:Ec; [|discriminate].
    destruct (gather s ts) as [s1 [subs|]] eqn:Eg; [|discriminate].
    destruct (handle_reserved st d (answer subs ig)) as [st1 o] eqn:HR.
    apply reserved_cases in HR as [_ [(_ & _ & _ & _ & Ho)|(z & r & m & [C W] & _)]].
    2:{ apply carries_iff in C. specialize (NR z C). congruence. }
    destruct Ho as [->|(a & -> & A1 & A2)]; [discriminate|].
    exists ts, ig, s1, subs, a. split; [reflexivity|]. split; [exact Eg|]. split; [exact A1|]. split; [exact A2|].
    destruct a as [|p a]; [left; injection P as _ _ <-; auto|]. right. split; [discriminate|].
    destruct (send_json st1 (p :: a)) as [st2 [m|]] eqn:E; [|discriminate]. injection P as _ _ <-.
    exists m. split; [reflexivity|]. apply send_json_cases in E as (_ & _ & _ & _ & _ & E). apply E. reflexivity.
  Qed.

  Lemma ign_reserved : reserved k_ignored = true /\ reserved k_id = true /\ reserved k_log = true.
  Proof. repeat split. Qed.

  Lemma subs_facts s d ts ig s1 subs : NoDup (dkeys d) -> collect ev d = Some (ts, ig) -> gather s ts = (s1, Some subs) ->
    NoDup (dkeys subs) /\ ig = filter (fun k => negb (handled ev k)) (dkeys d) /\
    (forall k j t, dget k d = Some j -> ev k = Some t -> exists ib s1 s2 b, t_prep t j = Some ib /\ t_run t s1 ib = (s2, Some b) /\
       dget k subs = Some b) /\
    (forall k p b, dget k subs = Some (p :: b) -> exists t j, ev k = Some t /\ dget k d = Some j /\ reserved k = false).
  Proof.
    intros N Hc Hg. destruct (collect_shape _ _ _ Hc) as (A & B & C & D). destruct (gather_shape _ _ _ _ Hg) as (E & F & G).
    assert (NS : NoDup (dkeys subs)) by (rewrite E, A; apply NoDup_filter; exact N).
    split; [exact NS|]. split; [exact B|]. split.
    - intros k j t Hk Ht. destruct (C k j t (dget_In _ _ _ Hk) Ht) as (ib & P & Q). destruct (F _ _ _ Q) as (x & y & b & R & T).
      exists ib, x, y, b. split; [exact P|]. split; [exact R|]. apply In_dget; assumption.
    - intros k p b Hk. destruct (G k (p :: b) (dget_In _ _ _ Hk)) as (t & ib & Hin); [discriminate|].
      destruct (D _ _ _ Hin) as (Ht & j & Hj).
      exists t, j. split; [exact Ht|]. split; [apply In_dget; assumption|]. apply (OK _ _ Ht).
  Qed.

  Lemma answer_reserved (d : msg) (subs : list (string * msg)) ig k : NoDup (dkeys subs) ->
    (forall k p b, dget k subs = Some (p :: b) -> exists t (j : json), ev k = Some t /\ dget k d = Some j /\ reserved k = false) ->
    reserved k = true -> k <> k_ignored -> dget k (answer subs ig) = None.
  Proof.
    intros N H Hr Hk. rewrite answer_get by assumption. destruct (dget k subs) as [[|p b]|] eqn:E; [reflexivity| |reflexivity].
    destruct (H _ _ _ E) as (t & j & _ & _ & Hf). congruence.
  Qed.
End Answer.
