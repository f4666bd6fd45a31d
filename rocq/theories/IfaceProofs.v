(** Lemmas for C36-C39 and C54: one interface. *)
From Coq Require Import QArith ZifyBool ZifyNat Permutation.
From Verif Require Import Base BaseLemmas IfaceModel IfaceSpec.
Open Scope string_scope.
Open Scope list_scope.
Open Scope Z_scope.

(** ** Identifiers *)
Lemma draws_spec l : forall a b,
  id_scale a = 2 -> id_scale b = 2 -> Z.odd (id_cur a) <> Z.odd (id_cur b) ->
  NoDup (draws a b l) /\
  Forall (fun z => (Z.odd z = Z.odd (id_cur a) /\ id_cur a <= z) \/
                   (Z.odd z = Z.odd (id_cur b) /\ id_cur b <= z)) (draws a b l).
Proof.
  induction l as [|c l IH]; intros a b Ha Hb D; [split; constructor|].
  assert (P2 : forall z, Z.odd (z + 2) = Z.odd z).
  { intros z. rewrite Z.odd_add. cbn. apply xorb_false_r. }
  destruct c; cbn [draws id_next].
  - set (a' := mkIdent (id_cur a + id_scale a) (id_scale a)).
    assert (O : Z.odd (id_cur a') = Z.odd (id_cur a)) by (cbn; rewrite Ha; apply P2).
    assert (L : id_cur a' = id_cur a + 2) by (cbn; rewrite Ha; reflexivity).
    destruct (IH a' b Ha Hb) as [N F]; [congruence|]. split.
    + constructor; [|exact N]. intros I. rewrite Forall_forall in F. apply F in I.
      destruct I as [[_ I]|[I _]]; [lia|congruence].
    + constructor; [left; split; [reflexivity|lia]|]. eapply Forall_impl; [|exact F]. cbv beta.
      intros z [[A B]|[A B]]; [left; split; [congruence|lia]|right; auto].
  - set (b' := mkIdent (id_cur b + id_scale b) (id_scale b)).
    assert (O : Z.odd (id_cur b') = Z.odd (id_cur b)) by (cbn; rewrite Hb; apply P2).
    assert (L : id_cur b' = id_cur b + 2) by (cbn; rewrite Hb; reflexivity).
    destruct (IH a b' Ha Hb) as [N F]; [congruence|]. split.
    + constructor; [|exact N]. intros I. rewrite Forall_forall in F. apply F in I.
      destruct I as [[I _]|[_ I]]; [congruence|lia].
    + constructor; [right; split; [reflexivity|lia]|]. eapply Forall_impl; [|exact F]. cbv beta.
      intros z [[A B]|[A B]]; [left; auto|right; split; [congruence|lia]].
Qed.

(** ** Lists and dictionaries *)
Lemma set_nth_length {A} (l : list A) : forall n x, List.length (set_nth l n x) = List.length l.
Proof. induction l; intros [|n] x; cbn; auto. Qed.
Lemma set_nth_eq {A} (l : list A) : forall n x y, nth_error l n = Some y -> nth_error (set_nth l n x) n = Some x.
Proof. induction l; intros [|n] x y H; cbn in *; try discriminate; eauto. Qed.
Lemma set_nth_ne {A} (l : list A) : forall n m x, n <> m -> nth_error (set_nth l n x) m = nth_error l m.
Proof. induction l; intros [|n] [|m] x H; cbn; auto; congruence. Qed.
Lemma set_nth_ids l : forall n q s, nth_error l n = Some q ->
  map rq_id (set_nth l n (mkReq (rq_id q) s)) = map rq_id l.
Proof. induction l; intros [|n] q s H; cbn in *; try discriminate; [congruence|]. f_equal. eauto. Qed.

Lemma ddel_notin {K V} {KD : EqDec K} (k : K) (d : list (K * V)) : dget k d = None -> ddel k d = d.
Proof.
  induction d as [|[k' v] d IH]; cbn; intros H; [reflexivity|]. destruct (eq_dec k k'); [discriminate|].
  f_equal. auto.
Qed.
Lemma ddel_length {K V} {KD : EqDec K} (k : K) (d : list (K * V)) v :
  NoDup (dkeys d) -> dget k d = Some v -> List.length d = Datatypes.S (List.length (ddel k d)).
Proof.
  induction d as [|[k' w] d IH]; cbn; intros N H; [discriminate|]. inversion N as [|? ? N1 N2]; subst.
  destruct (eq_dec k k') as [->|].
  - rewrite ddel_notin; [reflexivity|]. apply dget_None_notin. exact N1.
  - cbn. f_equal. apply IH; auto.
Qed.
Lemma ddel_keys {K V} {KD : EqDec K} (k x : K) (d : list (K * V)) : In x (dkeys (ddel k d)) -> In x (dkeys d).
Proof.
  induction d as [|[k' w] d IH]; cbn; [auto|]. destruct (eq_dec k k'); cbn; [auto|]. intros [H|H]; auto.
Qed.
Lemma NoDup_ddel {K V} {KD : EqDec K} (k : K) (d : list (K * V)) : NoDup (dkeys d) -> NoDup (dkeys (ddel k d)).
Proof.
  induction d as [|[k' w] d IH]; cbn; intros N; [constructor|]. inversion N as [|? ? N1 N2]; subst.
  destruct (eq_dec k k'); [auto|]. cbn. constructor; [|auto]. intros I. apply N1. eapply ddel_keys; eauto.
Qed.
Lemma dset_length_new {K V} {KD : EqDec K} (k : K) (v : V) d : dget k d = None ->
  List.length (dset k v d) = Datatypes.S (List.length d).
Proof. intros H. rewrite dset_notin by exact H. rewrite app_length. cbn. lia. Qed.
Lemma dset_length_old {K V} {KD : EqDec K} (k : K) (v w : V) d : dget k d = Some w ->
  List.length (dset k v d) = List.length d.
Proof. intros H. rewrite <- (map_length fst), <- (map_length fst d). fold (dkeys (dset k v d)) (dkeys d). erewrite dkeys_dset_in by exact H. reflexivity. Qed.

(** ** Status changes *)
Lemma status_reqs st r s q : nth_error (i_reqs st) r = Some q ->
  set_status st r s = mkIface (i_ident st) (i_waiting st) (i_resp st) (i_logs st) (i_seen st)
                        (set_nth (i_reqs st) r (mkReq (rq_id q) s)).
Proof. intros H. unfold set_status. rewrite H. reflexivity. Qed.

Definition carries0 (d : msg) (z : Z) : Prop :=
  exists j, dget k_id d = Some j /\ ident_of j = Some (Some z).
Lemma ident_of_spec j z : ident_of j = Some (Some z) <-> equals_int j z.
Proof.
  destruct j as [| | |q| | |]; cbn; split; intros H; try discriminate; try contradiction; try congruence.
  - destruct (Qeq_bool q _) eqn:E; [|discriminate]. injection H as <-. apply Qeq_bool_iff. exact E.
  - assert (Ez : Qnum q / QDen q = z).
    { unfold Qeq, inject_Z in H. cbn in H. rewrite Z.mul_1_r in H. rewrite H. apply Z.div_mul. lia. }
    rewrite Ez. apply Qeq_bool_iff in H. rewrite H. reflexivity.
Qed.
Lemma carries_iff d z : carries0 d z <-> carries d z.
Proof. unfold carries0, carries. split; intros (j & A & B); exists j; (split; [exact A|]); apply ident_of_spec; exact B. Qed.

(** The response part of a message that answers a waiting call. *)
Definition matches (st : iface) (d : msg) (z : Z) (r : nat) : Prop :=
  carries0 d z /\ dget z (i_waiting st) = Some r.

Lemma k_id_log : k_id <> k_log. Proof. discriminate. Qed.

(** interface.py:213-241: the two outcomes. *)
Lemma reserved_cases st d resp st' o : handle_reserved st d resp = (st', o) ->
  (i_ident st' = i_ident st /\ i_logs st' = i_logs st) /\
  ((i_waiting st' = i_waiting st /\ i_resp st' = i_resp st /\ i_reqs st' = i_reqs st /\
    (forall z r, ~ matches st d z r) /\
    (o = None \/ exists resp', o = Some (resp', true) /\
       (dget k_id d = None -> resp' = resp) /\
       (forall j, dget k_id d = Some j -> resp' = dset k_id j resp))) \/
   (exists z r m, matches st d z r /\ content_of m d /\
      i_waiting st' = ddel z (i_waiting st) /\ i_resp st' = dset z m (i_resp st) /\
      i_reqs st' = i_reqs (set_event st r) /\ (o = None \/ exists resp', o = Some (resp', false)))).
Proof.
  unfold handle_reserved. intros H.
  assert (NM : dget k_id d = None -> forall z r, ~ matches st d z r).
  { intros E z r ((j & A & _) & _). congruence. }
  destruct (dget k_id d) as [j|] eqn:Ej.
  2:{ destruct (dget k_log d) as [l|]; [destruct (logs_of l) as [ls|]|]; injection H as <- <-; cbn;
        (split; [auto|]); left; (split; [reflexivity|]); (split; [reflexivity|]); (split; [reflexivity|]);
        (split; [auto|]); [right|left; reflexivity|right]; eexists; (split; [reflexivity|]); split;
        reflexivity || (intros; discriminate). }
  destruct (ident_of j) as [i|] eqn:Ei.
  2:{ injection H as <- <-. split; [auto|]. left. repeat split; auto.
      intros z r ((j' & A & B) & _). congruence. }
  match type of H with context [match ?X with Some _ => _ | None => _ end] =>
    match X with match i with _ => _ end => destruct X as [[z r]|] eqn:Ex end end.
  - assert (Mt : matches st d z r).
    { destruct i as [z'|]; [|discriminate]. destruct (dget z' (i_waiting st)) as [r'|] eqn:W; [|discriminate].
      injection Ex as <- <-. split; [exists j; auto|exact W]. }
    set (st1 := mkIface _ _ _ _ _ _) in H.
    assert (F : i_ident (set_event st1 r) = i_ident st /\ i_logs (set_event st1 r) = i_logs st /\
              i_waiting (set_event st1 r) = ddel z (i_waiting st) /\
              i_resp (set_event st1 r) = dset z (ddel k_id d) (i_resp st) /\
              i_reqs (set_event st1 r) = i_reqs (set_event st r)).
    { unfold set_event, set_status. cbn [i_reqs st1].
      destruct (nth_error (i_reqs st) r) as [[qid [| | | |]]|]; cbn; repeat split; reflexivity. }
    destruct F as (F1 & F2 & F3 & F4 & F5).
    assert (C1 : content_of (ddel k_id d) d).
    { split; [apply dget_ddel_eq|]. intros k A _. apply dget_ddel_ne. exact A. }
    destruct (dget k_log (ddel k_id d)) as [l|] eqn:El.
    + destruct (logs_of l) as [ls|].
      * injection H as <- <-. cbn [i_ident i_logs i_waiting i_resp i_reqs]. split; [split; assumption|]. right.
        rewrite dget_dset_eq. destruct i as [z'|]; [|discriminate].
        assert (z' = z) by (destruct (dget z' (i_waiting st)); [injection Ex as <- <-; reflexivity|discriminate]). subst z'.
        rewrite Ei, F4. exists z, r, (ddel k_log (ddel k_id d)). split; [exact Mt|]. split.
        { split; [rewrite dget_ddel_ne by exact k_id_log; apply dget_ddel_eq|].
          intros k A B. rewrite !dget_ddel_ne by assumption. reflexivity. }
        split; [exact F3|]. split.
        { clear. induction (i_resp st) as [|[k v] t IH]; cbn; [destruct (eq_dec z z); [reflexivity|congruence]|].
          destruct (eq_dec z k); cbn; [destruct (eq_dec z k); [reflexivity|congruence]|].
          destruct (eq_dec z k); [congruence|]. f_equal. exact IH. }
        split; [exact F5|]. right. eexists. reflexivity.
      * injection H as <- <-. split; [auto|]. right. exists z, r, (ddel k_id d). auto 10.
    + injection H as <- <-. split; [auto|]. right. exists z, r, (ddel k_id d). split; [exact Mt|].
      split; [exact C1|]. split; [exact F3|]. split; [exact F4|]. split; [exact F5|].
      right. eexists. reflexivity.
  - assert (NM' : forall z r, ~ matches st d z r).
    { intros z r ((j' & A & B) & W). rewrite Ej in A. injection A as <-. rewrite Ei in B. injection B as ->.
      rewrite W in Ex. discriminate. }
    destruct (dget k_log d) as [l|]; [destruct (logs_of l) as [ls|]|]; injection H as <- <-; cbn;
      (split; [auto|]); left; (split; [reflexivity|]); (split; [reflexivity|]); (split; [reflexivity|]);
      (split; [auto|]); [right|left; reflexivity|right]; eexists; (split; [reflexivity|]); split;
      (intros; discriminate) || (intros j' Hj; injection Hj as <-; reflexivity).
Qed.

(** What a step does to the bookkeeping. *)
Inductive effect (st st' : iface) : op -> list msg -> Prop :=
| E_same o out :
    i_ident st' = i_ident st -> i_waiting st' = i_waiting st -> i_resp st' = i_resp st ->
    i_reqs st' = i_reqs st -> (forall d fail, o = OWait d fail -> out = []) ->
    (forall d, o = ORecv d -> forall m, In m out -> forall z r, ~ matches st d z r) -> effect st st' o out
| E_new d fail s0 out :
    dget k_id d = None -> dget (id_cur (i_ident st)) (i_waiting st) = None ->
    i_ident st' = fst (id_next (i_ident st)) ->
    i_waiting st' = dset (id_cur (i_ident st)) (List.length (i_reqs st)) (i_waiting st) ->
    i_resp st' = i_resp st -> i_reqs st' = i_reqs st ++ [mkReq (id_cur (i_ident st)) s0] ->
    (s0 = Waiting /\ fail = false /\ (exists m, out = [m] /\ dget k_id m = Some (JInt (id_cur (i_ident st))) /\
                      forall k, k <> k_id -> k <> k_log -> dget k m = dget k d) \/ s0 = Failed /\ out = []) ->
    effect st st' (OWait d fail) out
| E_burn d fail :
    dget (id_cur (i_ident st)) (i_waiting st) <> None ->
    i_ident st' = fst (id_next (i_ident st)) -> i_waiting st' = i_waiting st -> i_resp st' = i_resp st ->
    i_reqs st' = i_reqs st -> effect st st' (OWait d fail) []
| E_answer d z r m :
    matches st d z r -> content_of m d -> i_ident st' = i_ident st ->
    i_waiting st' = ddel z (i_waiting st) -> i_resp st' = dset z m (i_resp st) ->
    i_reqs st' = i_reqs (set_event st r) -> effect st st' (ORecv d) []
| E_wake r id m :
    nth_error (i_reqs st) r = Some (mkReq id Ready) -> dget id (i_resp st) = Some m ->
    i_ident st' = i_ident st -> i_waiting st' = i_waiting st -> i_resp st' = ddel id (i_resp st) ->
    i_reqs st' = set_nth (i_reqs st) r (mkReq id (Done m)) -> effect st st' (OWake r) []
| E_lost r id :
    nth_error (i_reqs st) r = Some (mkReq id Ready) -> dget id (i_resp st) = None ->
    i_ident st' = i_ident st -> i_waiting st' = i_waiting st -> i_resp st' = i_resp st ->
    i_reqs st' = set_nth (i_reqs st) r (mkReq id Failed) -> effect st st' (OWake r) []
| E_timeout r id s :
    nth_error (i_reqs st) r = Some (mkReq id s) -> s = Waiting \/ s = Ready ->
    i_ident st' = i_ident st -> i_waiting st' = i_waiting st -> i_resp st' = i_resp st ->
    i_reqs st' = set_nth (i_reqs st) r (mkReq id TimedOut) -> effect st st' (OTimeout r) [].

Lemma send_json_cases st d st' o : send_json st d = (st', o) ->
  i_ident st' = i_ident st /\ i_waiting st' = i_waiting st /\ i_resp st' = i_resp st /\
  i_reqs st' = i_reqs st /\ i_seen st' = i_seen st /\
  (forall m, o = Some m -> forall k, k <> k_log -> dget k m = dget k d).
Proof.
  unfold send_json. destruct (i_logs st) as [|l ls].
  - intros H; injection H as <- <-. repeat split. intros m E k _; injection E as <-; reflexivity.
  - destruct (dmem k_log d); intros H; injection H as <- <-; cbn; repeat split.
    + discriminate.
    + intros m E k Hk; injection E as <-. apply dget_dset_ne. exact Hk.
Qed.

Section Steps.
  Context {S : Type} (evaluate : string -> option (target S)).
  Notation step := (step evaluate).

  Lemma process_cases s st d s' st' out ok : process_json evaluate s st d = (s', st', out, ok) ->
    effect st st' (ORecv d) out /\
    (out = [] \/ exists m, out = [m] /\ (forall z r, ~ matches st d z r) /\
       (dget k_id d <> None -> dget k_id m = dget k_id d)).
  Proof.
    unfold process_json. intros H.
    assert (Nothing : st' = st -> out = [] -> effect st st' (ORecv d) out /\
      (out = [] \/ exists m, out = [m] /\ (forall z r, ~ matches st d z r) /\
         (dget k_id d <> None -> dget k_id m = dget k_id d))).
    { intros -> ->. split; [|auto]. apply E_same; auto. all: intros ? _ ? []. }
    destruct (collect evaluate d) as [[ts ig]|]; [|injection H as <- <- <- <-; auto].
    destruct (gather s ts) as [s1 [subs|]]; [|injection H as <- <- <- <-; auto].
    destruct (handle_reserved st d (answer subs ig)) as [st1 o] eqn:HR.
    apply reserved_cases in HR as [[I1 I2] [(W & R & Q & NM & Ho)|(z & r & m & Mt & Cm & W & R & Q & Ho)]].
    - assert (Out : out = [] \/ exists m, out = [m] /\ (dget k_id d <> None -> dget k_id m = dget k_id d)) .
      { destruct Ho as [->|(resp' & -> & Hn & Hs)]; [injection H as <- <- <- <-; auto|].
        destruct resp' as [|p resp']; [injection H as <- <- <- <-; auto|].
        destruct (send_json st1 (p :: resp')) as [st2 [m|]] eqn:E; injection H as <- <- <- <-; [|auto].
        right. exists m. split; [reflexivity|]. intros Hd.
        apply send_json_cases in E as (_ & _ & _ & _ & _ & E).
        rewrite (E m eq_refl k_id k_id_log).
        destruct (dget k_id d) as [j|]; [|congruence]. rewrite (Hs j eq_refl). apply dget_dset_eq. }
      assert (Core : i_ident st' = i_ident st1 /\ i_waiting st' = i_waiting st1 /\ i_resp st' = i_resp st1 /\
                i_reqs st' = i_reqs st1).
      { destruct Ho as [->|(resp' & -> & _)]; [injection H as <- <- <- <-; auto|].
        destruct resp' as [|p resp']; [injection H as <- <- <- <-; auto|].
        destruct (send_json st1 (p :: resp')) as [st2 [m|]] eqn:E;
          apply send_json_cases in E as (E1 & E2 & E3 & E4 & _); injection H as <- <- <- <-; auto. }
      destruct Core as (C1 & C2 & C3 & C4). split.
      + apply E_same; try congruence; try (intros; discriminate).
        intros d' Hd m _. injection Hd as <-. exact NM.
      + destruct Out as [->|(m & -> & Hm)]; [auto|]. right. exists m. auto.
    - assert (s' = s1 /\ st' = st1 /\ out = []) as (_ & -> & ->).
      { destruct Ho as [->|(resp' & ->)]; injection H as <- <- <- <-; auto. }
      split; [|auto]. eapply E_answer; eauto.
  Qed.

  Lemma step_effect s st o s' st' out ok : step (s, st) o = ((s', st'), out, ok) -> effect st st' o out.
  Proof.
    destruct o; cbn [IfaceModel.step]; intros H.
    - injection H as <- <- <- <-. apply E_same; auto; intros ? Hd; discriminate.
    - destruct (send_json st d) as [st1 [m|]] eqn:E; apply send_json_cases in E as (E1 & E2 & E3 & E4 & _);
        [destruct fail|]; injection H as <- <- <- <-; apply E_same; auto; intros; discriminate.
    - unfold wait_json in H. destruct (dmem k_id d) eqn:D.
      { injection H as <- <- <- <-. apply E_same; auto. all: intros ? ?; discriminate. }
      apply dmem_false in D. cbn [id_next] in H. cbn [i_waiting] in H.
      destruct (dmem (id_cur (i_ident st)) (i_waiting st)) eqn:W.
      { injection H as <- <- <- <-. apply E_burn; auto. intros E. apply dmem_false in E. congruence. }
      apply dmem_false in W. cbn [i_ident i_waiting i_resp i_logs i_seen i_reqs] in H.
      match type of H with context [send_json ?x _] => set (st1 := x) in * end.
      assert (Nth : nth_error (i_reqs st1) (List.length (i_reqs st)) = Some (mkReq (id_cur (i_ident st)) Waiting)).
      { cbn. rewrite nth_error_app2 by lia. rewrite Nat.sub_diag. reflexivity. }
      assert (Set_ : forall s0, set_nth (i_reqs st1) (List.length (i_reqs st)) (mkReq (id_cur (i_ident st)) s0) =
                i_reqs st ++ [mkReq (id_cur (i_ident st)) s0]).
      { intros s0. cbn. generalize (i_reqs st) as l. induction l as [|a l IH]; cbn; [reflexivity|]. f_equal. exact IH. }
      destruct (send_json st1 (dset k_id (JInt (id_cur (i_ident st))) d)) as [st2 o2] eqn:E.
      apply send_json_cases in E as (E1 & E2 & E3 & E4 & _ & E6).
      assert (Bad : forall st3, st3 = set_status st2 (List.length (i_reqs st)) Failed -> effect st st3 (OWait d fail) []).
      { intros st3 ->. rewrite (status_reqs st2 _ Failed (mkReq (id_cur (i_ident st)) Waiting)) by (rewrite E4; exact Nth).
        eapply E_new with (s0 := Failed); cbn [i_ident i_waiting i_resp i_reqs rq_id]; auto.
        rewrite E4. apply Set_. }
      destruct o2 as [m|]; [destruct fail|]; injection H as <- <- <- <-.
      + apply Bad. reflexivity.
      + eapply E_new with (s0 := Waiting); auto. left. split; [reflexivity|]. split; [reflexivity|].
        exists m. split; [reflexivity|]. split.
        * rewrite (E6 m eq_refl k_id k_id_log). apply dget_dset_eq.
        * intros k A B. rewrite (E6 m eq_refl k B). apply dget_dset_ne. exact A.
      + apply Bad. reflexivity.
    - destruct (process_json evaluate s st d) as [[[s1 st1] out1] ok1] eqn:E. injection H as <- <- <- <-.
      eapply process_cases; eauto.
    - unfold wake in H. destruct (nth_error (i_reqs st) r) as [[id [| | | |]]|] eqn:N;
        try (injection H as <- <- <- <-; apply E_same; auto; intros ? Hd; discriminate).
      destruct (dget id (i_resp st)) as [m|] eqn:D; injection H as <- <- <- <-.
      + eapply E_wake; eauto; unfold set_status; cbn [i_reqs]; rewrite N; reflexivity.
      + eapply E_lost; eauto; unfold set_status; rewrite N; reflexivity.
    - unfold time_out in H. destruct (nth_error (i_reqs st) r) as [[id [| | | |]]|] eqn:N;
        injection H as <- <- <- <-;
        try (apply E_same; auto; intros ? Hd; discriminate);
        (eapply E_timeout; [exact N|auto|..]); unfold set_status; rewrite N; reflexivity.
  Qed.
End Steps.

Definition unfinished (l : list request) : nat := List.length (filter (fun q => negb (completed q)) l).

Record IInv (st : iface) : Prop := {
  n_scale : id_scale (i_ident st) = 2;
  n_lt : forall q, In q (i_reqs st) -> rq_id q < id_cur (i_ident st);
  n_par : forall q, In q (i_reqs st) -> Z.odd (rq_id q) = Z.odd (id_cur (i_ident st));
  n_nodup : NoDup (map rq_id (i_reqs st));
  n_wk : NoDup (dkeys (i_waiting st));
  n_rk : NoDup (dkeys (i_resp st));
  n_w : forall z r, dget z (i_waiting st) = Some r -> exists q, nth_error (i_reqs st) r = Some q /\
          rq_id q = z /\ (rq_st q = Waiting \/ rq_st q = TimedOut \/ rq_st q = Failed);
  n_r : forall z m, dget z (i_resp st) = Some m -> dget z (i_waiting st) = None /\
          exists r q, nth_error (i_reqs st) r = Some q /\ rq_id q = z /\
            (rq_st q = Ready \/ rq_st q = TimedOut \/ rq_st q = Failed);
  n_q : forall r q, nth_error (i_reqs st) r = Some q ->
          match rq_st q with
          | Waiting => dget (rq_id q) (i_waiting st) = Some r
          | Ready => dget (rq_id q) (i_resp st) <> None
          | Done _ => dget (rq_id q) (i_waiting st) = None /\ dget (rq_id q) (i_resp st) = None
          | TimedOut | Failed => dget (rq_id q) (i_waiting st) = Some r \/ dget (rq_id q) (i_resp st) <> None
          end;
  n_count : (List.length (i_waiting st) + List.length (i_resp st))%nat = unfinished (i_reqs st)
}.

Lemma inv_new i : id_scale i = 2 -> IInv (i_new i).
Proof.
  intros H. split; cbn; auto; try (constructor; fail).
  all: try (intros ? []; fail).
  all: try (intros; discriminate).
  intros [|r] q Hq; discriminate.
Qed.

Lemma nth_id_inj st r r' q q' : IInv st -> nth_error (i_reqs st) r = Some q -> nth_error (i_reqs st) r' = Some q' ->
  rq_id q = rq_id q' -> r = r'.
Proof.
  intros I A B E. pose proof (n_nodup st I) as N. rewrite NoDup_nth_error in N. apply N.
  - rewrite map_length. apply nth_error_Some. congruence.
  - rewrite (map_nth_error rq_id _ _ A), (map_nth_error rq_id _ _ B), E. reflexivity.
Qed.

Lemma unfinished_set l : forall r q s, nth_error l r = Some q -> completed q = false ->
  unfinished (set_nth l r (mkReq (rq_id q) s)) =
  (unfinished l - match s with Done _ => 1 | _ => 0 end)%nat.
Proof.
  unfold unfinished. induction l as [|a l IH]; intros [|r] q s H C; cbn in H; try discriminate.
  - injection H as ->. cbn [set_nth filter]. rewrite C. cbn [negb completed rq_st List.length].
    destruct s; cbn; lia.
  - cbn [set_nth filter]. specialize (IH r q s H C).
    assert (P : (1 <= List.length (filter (fun q0 => negb (completed q0)) l))%nat).
    { apply nth_error_In in H. assert (I : In q (filter (fun q0 => negb (completed q0)) l))
        by (apply filter_In; rewrite C; auto). destruct (filter _ l); [destruct I|cbn; lia]. }
    destruct (negb (completed a)); cbn [List.length]; destruct s; lia.
Qed.

Lemma set_nth_In {A} (l : list A) : forall n x y, In y (set_nth l n x) -> y = x \/ In y l.
Proof.
  induction l as [|a l IH]; intros [|n] x y H; cbn in *; auto; destruct H as [H|H]; auto.
  destruct (IH n x y H); auto.
Qed.

(** Changing one status while the maps stay. *)
Lemma inv_status st st' r id s s' : IInv st ->
  nth_error (i_reqs st) r = Some (mkReq id s) -> s = Waiting \/ s = Ready -> s' = TimedOut ->
  i_ident st' = i_ident st -> i_waiting st' = i_waiting st -> i_resp st' = i_resp st ->
  i_reqs st' = set_nth (i_reqs st) r (mkReq id s') -> IInv st'.
Proof.
  intros I Hr Hs -> E1 E2 E3 E4. pose proof (n_q st I _ _ Hr) as Q. cbn in Q.
  split; rewrite ?E1, ?E2, ?E3, ?E4.
  - apply I.
  - intros q Hq. apply set_nth_In in Hq as [->|Hq]; [|apply I; exact Hq].
    apply nth_error_In in Hr. apply (n_lt st I _ Hr).
  - intros q Hq. apply set_nth_In in Hq as [->|Hq]; [|apply I; exact Hq].
    apply nth_error_In in Hr. apply (n_par st I _ Hr).
  - rewrite (set_nth_ids (i_reqs st) r (mkReq id s)) by exact Hr. apply I.
  - apply I.
  - apply I.
  - intros z r' Hz. destruct (n_w st I z r' Hz) as (q & A & B & C). destruct (Nat.eq_dec r r') as [<-|Hne].
    + rewrite (set_nth_eq _ _ _ _ Hr). eexists. split; [reflexivity|]. cbn.
      rewrite Hr in A. injection A as <-. cbn in B. auto.
    + rewrite set_nth_ne by exact Hne. eauto.
  - intros z m Hz. destruct (n_r st I z m Hz) as (W & r' & q & A & B & C). split; [exact W|].
    destruct (Nat.eq_dec r r') as [<-|Hne].
    + exists r, (mkReq id TimedOut). rewrite (set_nth_eq _ _ _ _ Hr).
      rewrite Hr in A. injection A as <-. cbn in B |- *. auto.
    + exists r', q. rewrite set_nth_ne by exact Hne. auto.
  - intros r' q Hq. destruct (Nat.eq_dec r r') as [<-|Hne].
    + rewrite (set_nth_eq _ _ _ _ Hr) in Hq. injection Hq as <-. cbn. destruct Hs as [->| ->]; auto.
    + rewrite set_nth_ne in Hq by exact Hne. apply (n_q st I _ _ Hq).
  - rewrite (n_count st I). pose proof (unfinished_set (i_reqs st) r (mkReq id s) TimedOut Hr) as U.
    cbn [rq_id] in U. rewrite U; [lia|]. destruct Hs as [->| ->]; reflexivity.
Qed.

Lemma inv_effect st st' o out : IInv st -> effect st st' o out -> IInv st'.
Proof.
  intros I E. destruct E as [o out E1 E2 E3 E4 _ _|d fail s0 out D W E1 E2 E3 E4 Hs|d fail W|d z r m [C W] Cm E1 E2 E3 E4
    |r id m Hr Hm E1 E2 E3 E4|r id Hr Hm|r id s Hr Hs E1 E2 E3 E4].
  - destruct I. split; rewrite ?E1, ?E2, ?E3, ?E4; assumption.
  - set (id := id_cur (i_ident st)) in *. set (n := List.length (i_reqs st)) in *.
    assert (Old : forall q, In q (i_reqs st) -> rq_id q <> id) by (intros q Hq; pose proof (n_lt st I q Hq); fold id in H; lia).
    assert (Sc := n_scale st I).
    assert (Rn : dget id (i_resp st) = None).
    { destruct (dget id (i_resp st)) as [m|] eqn:Q; [|reflexivity]. destruct (n_r st I _ _ Q) as (_ & r & q & A & B & _).
      apply nth_error_In in A. destruct (Old _ A B). }
    assert (Nth : forall r q, nth_error (i_reqs st ++ [mkReq id s0]) r = Some q ->
              nth_error (i_reqs st) r = Some q \/ (r = n /\ q = mkReq id s0)).
    { intros r q H. destruct (Nat.lt_ge_cases r n) as [L|L].
      - rewrite nth_error_app1 in H by exact L. auto.
      - rewrite nth_error_app2 in H by exact L. right. fold n in H.
        destruct (r - n)%nat as [|k] eqn:K; cbn in H; [|destruct k; discriminate].
        injection H as <-. split; [lia|reflexivity]. }
    assert (Up : forall r q, nth_error (i_reqs st) r = Some q -> nth_error (i_reqs st ++ [mkReq id s0]) r = Some q).
    { intros r q H. rewrite nth_error_app1; [exact H|]. apply nth_error_Some. congruence. }
    assert (Last : nth_error (i_reqs st ++ [mkReq id s0]) n = Some (mkReq id s0)).
    { rewrite nth_error_app2 by (unfold n; lia). unfold n. rewrite Nat.sub_diag. reflexivity. }
    assert (S0 : s0 = Waiting \/ s0 = Failed) by (destruct Hs as [[-> _]|[-> _]]; auto).
    split; rewrite ?E1, ?E2, ?E3, ?E4; cbn [id_next fst id_scale id_cur].
    + exact Sc.
    + intros q Hq. apply in_app_iff in Hq as [Hq|[<-|[]]]; [|cbn; fold id; lia].
      pose proof (n_lt st I q Hq). fold id in H. lia.
    + intros q Hq. fold id. rewrite Sc, Z.odd_add. cbn. rewrite xorb_false_r.
      apply in_app_iff in Hq as [Hq|[<-|[]]]; [apply (n_par st I q Hq)|reflexivity].
    + rewrite map_app. apply NoDup_app; [apply I|cbn; constructor; [intros []|constructor]|].
      cbn. intros x Hx [<-|[]]. apply in_map_iff in Hx as (q & A & B). destruct (Old _ B A).
    + apply NoDup_dset. apply I.
    + apply I.
    + intros z r Hz. rewrite dget_dset in Hz. destruct (eq_dec z id) as [->|Hne].
      * injection Hz as <-. exists (mkReq id s0). split; [exact Last|]. split; [reflexivity|]. cbn. tauto.
      * destruct (n_w st I z r Hz) as (q & A & B). exists q. split; [apply Up; exact A|exact B].
    + intros z m Hz. destruct (n_r st I z m Hz) as (A & r & q & B & B1 & B2).
      rewrite dget_dset_ne by congruence. split; [exact A|]. exists r, q. auto.
    + intros r q Hq. apply Nth in Hq as [Hq|[-> ->]].
      * pose proof (n_q st I r q Hq) as Q. apply nth_error_In in Hq. apply Old in Hq.
        rewrite dget_dset_ne by exact Hq. exact Q.
      * cbn. rewrite dget_dset_eq. destruct S0 as [->| ->]; auto.
    + rewrite dset_length_new by exact W. unfold unfinished. rewrite filter_app, app_length.
      pose proof (n_count st I) as N. unfold unfinished in N.
      destruct S0 as [->| ->]; cbn; lia.
  - exfalso. destruct (dget (id_cur (i_ident st)) (i_waiting st)) as [r|] eqn:Q; [|congruence].
    destruct (n_w st I _ _ Q) as (q & A & B & _). apply nth_error_In in A. pose proof (n_lt st I q A). lia.
  - destruct (n_w st I z r W) as (q & A & B & Sq).
    assert (Rn : dget z (i_resp st) = None).
    { destruct (dget z (i_resp st)) as [x|] eqn:Q; [|reflexivity]. destruct (n_r st I _ _ Q) as (X & _). congruence. }
    set (s' := match rq_st q with Waiting => Ready | x => x end).
    assert (Eq : i_reqs st' = set_nth (i_reqs st) r (mkReq (rq_id q) s')).
    { rewrite E4. unfold set_event. rewrite A. destruct q as [qi qs]; cbn in *.
      destruct qs; try (unfold set_status; rewrite A; reflexivity);
      (assert (Id : forall l n (x : request), nth_error l n = Some x -> set_nth l n x = l)
         by (induction l as [|a l IH]; intros [|k] x H; cbn in *; try discriminate; [congruence|f_equal; auto]);
       rewrite Id by exact A; reflexivity). }
    assert (S' : s' = Ready \/ s' = TimedOut \/ s' = Failed).
    { unfold s'. destruct Sq as [->|[->| ->]]; auto. }
    clear E4. split; rewrite ?E1, ?E2, ?E3, ?Eq.
    + apply I.
    + intros x Hx. apply set_nth_In in Hx as [->|Hx]; [|apply I; exact Hx].
      apply nth_error_In in A. apply (n_lt st I _ A).
    + intros x Hx. apply set_nth_In in Hx as [->|Hx]; [|apply I; exact Hx].
      apply nth_error_In in A. apply (n_par st I _ A).
    + rewrite set_nth_ids by exact A. apply I.
    + apply NoDup_ddel. apply I.
    + apply NoDup_dset. apply I.
    + intros z' r' Hz. rewrite dget_ddel in Hz. destruct (eq_dec z' z) as [->|Hne]; [discriminate|].
      destruct (n_w st I z' r' Hz) as (q' & A' & B' & C'). exists q'. split; [|auto].
      rewrite set_nth_ne; [exact A'|]. intros <-. rewrite A in A'. congruence.
    + intros z' m' Hz. rewrite dget_dset in Hz. destruct (eq_dec z' z) as [->|Hne].
      * split; [apply dget_ddel_eq|]. exists r. eexists. rewrite (set_nth_eq _ _ _ _ A). split; [reflexivity|]. cbn. auto.
      * destruct (n_r st I z' m' Hz) as (X & r' & q' & A' & B' & C').
        split; [rewrite dget_ddel_ne by exact Hne; exact X|]. exists r', q'. split; [|auto].
        rewrite set_nth_ne; [exact A'|]. intros <-. rewrite A in A'. congruence.
    + intros r' q' Hq. destruct (Nat.eq_dec r r') as [<-|Hne].
      * rewrite (set_nth_eq _ _ _ _ A) in Hq. injection Hq as <-. cbn. rewrite B.
        assert (NN : dget z (dset z m (i_resp st)) <> None) by (rewrite dget_dset_eq; discriminate).
        destruct S' as [->|[->| ->]]; auto.
      * rewrite set_nth_ne in Hq by exact Hne. pose proof (n_q st I r' q' Hq) as Q.
        assert (Z' : rq_id q' <> z) by (intros E; apply Hne; eapply (nth_id_inj st); eauto; congruence).
        rewrite dget_ddel_ne, dget_dset_ne by exact Z'. exact Q.
    + rewrite dset_length_new by exact Rn. rewrite unfinished_set; [|exact A|].
      * pose proof (n_count st I) as N. rewrite (ddel_length z _ r (n_wk st I) W) in N.
        destruct S' as [->|[->| ->]]; lia.
      * unfold completed. destruct Sq as [->|[->| ->]]; reflexivity.
  - assert (W : dget id (i_waiting st) = None) by (eapply (n_r st I); eauto).
    split; rewrite ?E1, ?E2, ?E3, ?E4.
    + apply I.
    + intros x Hx. apply set_nth_In in Hx as [->|Hx]; [|apply I; exact Hx].
      apply nth_error_In in Hr. apply (n_lt st I _ Hr).
    + intros x Hx. apply set_nth_In in Hx as [->|Hx]; [|apply I; exact Hx].
      apply nth_error_In in Hr. apply (n_par st I _ Hr).
    + rewrite (set_nth_ids (i_reqs st) r (mkReq id Ready)) by exact Hr. apply I.
    + apply I.
    + apply NoDup_ddel. apply I.
    + intros z r' Hz. destruct (n_w st I z r' Hz) as (q' & A' & B' & C'). exists q'. split; [|auto].
      rewrite set_nth_ne; [exact A'|]. intros <-. rewrite Hr in A'. injection A' as <-. cbn in B'. congruence.
    + intros z m' Hz. rewrite dget_ddel in Hz. destruct (eq_dec z id) as [->|Hne]; [discriminate|].
      destruct (n_r st I z m' Hz) as (X & r' & q' & A' & B' & C'). split; [exact X|]. exists r', q'. split; [|auto].
      rewrite set_nth_ne; [exact A'|]. intros <-. rewrite Hr in A'. injection A' as <-. cbn in B'. congruence.
    + intros r' q' Hq. destruct (Nat.eq_dec r r') as [<-|Hne].
      * rewrite (set_nth_eq _ _ _ _ Hr) in Hq. injection Hq as <-. cbn. split; [exact W|apply dget_ddel_eq].
      * rewrite set_nth_ne in Hq by exact Hne. pose proof (n_q st I r' q' Hq) as Q.
        assert (Z' : rq_id q' <> id) by (intros E; apply Hne; eapply (nth_id_inj st); eauto; cbn; congruence).
        rewrite dget_ddel_ne by exact Z'. exact Q.
    + pose proof (unfinished_set (i_reqs st) r (mkReq id Ready) (Done m) Hr eq_refl) as U. cbn [rq_id] in U. rewrite U.
      pose proof (n_count st I) as N. rewrite (ddel_length id (i_resp st) m (n_rk st I) Hm) in N. lia.
  - exfalso. pose proof (n_q st I r _ Hr) as Q. cbn in Q. congruence.
  - eapply inv_status; eauto.
Qed.

Section Runs.
  Context {S : Type} (evaluate : string -> option (target S)).
  Notation step_st := (step_st evaluate).
  Notation run := (run evaluate).

  Lemma step_eff x o : effect (snd x) (snd (step_st x o)) o (snd (fst (step evaluate x o))).
  Proof.
    unfold IfaceModel.step_st. destruct x as [s st]. destruct (step evaluate (s, st) o) as [[[s' st'] out] ok] eqn:E.
    cbn. eapply step_effect; eauto.
  Qed.
  Lemma inv_step x o : IInv (snd x) -> IInv (snd (step_st x o)).
  Proof. intros I. eapply inv_effect; [exact I|apply step_eff]. Qed.
  Lemma inv_run ops : forall x, IInv (snd x) -> IInv (snd (run x ops)).
  Proof.
    unfold IfaceModel.run. induction ops as [|o ops IH]; intros x I; [exact I|]. cbn [fold_left]. apply IH. apply inv_step. exact I.
  Qed.
  Lemma run_app x l1 l2 : run x (l1 ++ l2) = run (run x l1) l2.
  Proof. unfold IfaceModel.run. apply fold_left_app. Qed.

  (** Where a stored or returned response came from. *)
  Definition origin (x0 : S * iface) (ops : list op) (r : nat) (z : Z) (m : msg) : Prop :=
    exists ops1 d ops2, ops = ops1 ++ ORecv d :: ops2 /\
      matches (snd (run x0 ops1)) d z r /\ content_of m d /\
      snd (fst (step evaluate (run x0 ops1) (ORecv d))) = [].

  Lemma origin_more x0 ops o r z m : origin x0 ops r z m -> origin x0 (ops ++ [o]) r z m.
  Proof.
    intros (a & d & b & -> & H). exists a, d, (b ++ [o]). split; [|exact H]. rewrite <- app_assoc. reflexivity.
  Qed.

  Lemma provenance x0 ops : IInv (snd x0) -> i_reqs (snd x0) = [] ->
    let st := snd (run x0 ops) in
    forall r q, nth_error (i_reqs st) r = Some q ->
      (forall m, rq_st q = Done m -> origin x0 ops r (rq_id q) m) /\
      (forall m, dget (rq_id q) (i_resp st) = Some m -> origin x0 ops r (rq_id q) m).
  Proof.
    intros I0 Q0. induction ops as [|o ops IH] using rev_ind; cbv zeta.
    - unfold IfaceModel.run. cbn [fold_left]. intros r q H. rewrite Q0 in H. destruct r; discriminate.
    - rewrite run_app. change (run (run x0 ops) [o]) with (step_st (run x0 ops) o).
      pose proof (inv_run ops x0 I0) as I. pose proof (step_eff (run x0 ops) o) as E.
      set (x := run x0 ops) in *. cbv zeta in IH. intros r q Hq.
      assert (Keep : forall q0, nth_error (i_reqs (snd x)) r = Some q0 -> rq_id q0 = rq_id q ->
                 (forall m, rq_st q = Done m -> rq_st q0 = Done m) ->
                 (forall m, dget (rq_id q) (i_resp (snd (step_st x o))) = Some m -> dget (rq_id q0) (i_resp (snd x)) = Some m) ->
                 (forall m, rq_st q = Done m -> origin x0 (ops ++ [o]) r (rq_id q) m) /\
                 (forall m, dget (rq_id q) (i_resp (snd (step_st x o))) = Some m -> origin x0 (ops ++ [o]) r (rq_id q) m)).
      { intros q0 H0 Hid H1 H2. destruct (IH r q0 H0) as [A B]. rewrite Hid in A, B.
        split; intros m Hm; apply origin_more; auto. apply B. rewrite <- Hid. auto. }
      remember (snd (step_st x o)) as st' eqn:Est. remember (snd (fst (step evaluate x o))) as out eqn:Eout.
      destruct E as [o out E1 E2 E3 E4 _ _|d fail s0 out D W E1 E2 E3 E4 Hs|d fail W|d z r0 m0 Mt Cm E1 E2 E3 E4
        |r0 id m0 Hr Hm E1 E2 E3 E4|r0 id Hr Hm|r0 id s Hr Hs E1 E2 E3 E4].
      + rewrite E4 in Hq. rewrite E3 in Keep |- *. apply (Keep q Hq); auto.
      + rewrite E4 in Hq. rewrite E3 in Keep |- *.
        destruct (Nat.lt_ge_cases r (List.length (i_reqs (snd x)))) as [L|L].
        * rewrite nth_error_app1 in Hq by exact L. apply (Keep q Hq); auto.
        * rewrite nth_error_app2 in Hq by exact L.
          destruct (r - List.length (i_reqs (snd x)))%nat as [|k]; cbn in Hq; [|destruct k; discriminate].
          injection Hq as <-. cbn [rq_st rq_id]. split; [intros m Hm; destruct Hs as [[-> _]|[-> _]]; discriminate|].
          intros m Hm. destruct (n_r _ I _ _ Hm) as (_ & r' & q' & A & B & _).
          apply nth_error_In in A. pose proof (n_lt _ I q' A). lia.
      + exfalso. destruct (dget (id_cur (i_ident (snd x))) (i_waiting (snd x))) as [r1|] eqn:Q; [|congruence].
        destruct (n_w _ I _ _ Q) as (q1 & A & B & _). apply nth_error_In in A. pose proof (n_lt _ I q1 A). lia.
      + destruct Mt as [Cz Wz]. destruct (n_w _ I z r0 Wz) as (q0 & A & B & Sq).
        assert (Idq : nth_error (i_reqs (snd x)) r = Some q \/ (r = r0 /\ rq_id q = z /\ (forall m, rq_st q <> Done m))).
        { rewrite E4 in Hq. unfold set_event in Hq. rewrite A in Hq. destruct q0 as [qi qs]. cbn in B. subst qi.
          cbn in Sq. destruct Sq as [->|[->| ->]]; try (left; exact Hq).
          rewrite (status_reqs _ _ _ _ A) in Hq. cbn [i_reqs rq_id] in Hq.
          destruct (Nat.eq_dec r0 r) as [<-|Hne].
          - rewrite (set_nth_eq _ _ _ _ A) in Hq. injection Hq as <-. right. cbn. split; [reflexivity|]. split; [reflexivity|discriminate].
          - rewrite set_nth_ne in Hq by exact Hne. auto. }
        assert (New : rq_id q = z -> r = r0 -> origin x0 (ops ++ [ORecv d]) r (rq_id q) m0).
        { intros -> ->. exists ops, d, []. split; [reflexivity|]. split; [split; assumption|]. split; [exact Cm|].
          symmetry. exact Eout. }
        rewrite E3 in Keep |- *. destruct (Z.eq_dec (rq_id q) z) as [Hz|Hz].
        * assert (r = r0) as ->.
          { destruct Idq as [Hq'|[-> _]]; [|reflexivity]. eapply (nth_id_inj (snd x)); eauto. congruence. }
          split.
          -- intros m Hd. exfalso. destruct Idq as [Hq'|(_ & _ & Nd)]; [|apply (Nd m Hd)].
             rewrite A in Hq'. injection Hq' as <-. rewrite Hd in Sq. destruct Sq as [Sq|[Sq|Sq]]; discriminate.
          -- intros m Hm. rewrite Hz, dget_dset_eq in Hm. injection Hm as <-. apply New; auto.
        * destruct Idq as [Hq'|(_ & Hz' & _)]; [|congruence].
          apply (Keep q Hq'); auto. intros m. rewrite dget_dset_ne by exact Hz. auto.
      + rewrite E4 in Hq. rewrite E3 in Keep |- *. destruct (Nat.eq_dec r0 r) as [->|Hne].
        * rewrite (set_nth_eq _ _ _ _ Hr) in Hq. injection Hq as <-. cbn [rq_st rq_id].
          destruct (IH r _ Hr) as [_ B]. cbn in B. split.
          -- intros m H; injection H as <-. apply origin_more. apply B. exact Hm.
          -- intros m H. rewrite dget_ddel_eq in H. discriminate.
        * rewrite set_nth_ne in Hq by exact Hne.
          assert (Z' : rq_id q <> id) by (intros E; apply Hne; eapply (nth_id_inj (snd x)); eauto; cbn; congruence).
          apply (Keep q Hq); auto. intros m. rewrite dget_ddel_ne by exact Z'. auto.
      + exfalso. pose proof (n_q _ I r0 _ Hr) as Q. cbn in Q. congruence.
      + rewrite E4 in Hq. rewrite E3 in Keep |- *. destruct (Nat.eq_dec r0 r) as [->|Hne].
        * rewrite (set_nth_eq _ _ _ _ Hr) in Hq. injection Hq as <-.
          apply (Keep _ Hr); auto. cbn. discriminate.
        * rewrite set_nth_ne in Hq by exact Hne. apply (Keep q Hq); auto.
  Qed.
End Runs.
