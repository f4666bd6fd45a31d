(** C82 and C83: the environments and configurations two processes exchange. *)
From Verif Require Import Base BaseLemmas IfaceModel IfaceSpec IfaceProofs IfaceSys IfaceStd IfaceAnswer IfaceProv IfaceProps ExchangeModel ExchangeSpec ExchangeProofs ExchangeSys ExchangeMore.
From Coq Require Import ZifyBool ZifyNat Lia.
Open Scope string_scope.
Open Scope list_scope.

(** ** One peer, any messages *)

(** C82.  Whatever happens to a peer and whatever messages it receives, the
    remote environment it holds is the first one it received in a message whose
    handlers ran and that could be loaded; it is announced as ready exactly when
    there is one and the names could be registered. *)
Theorem C82_first_environment :
  forall (X : Type) load_ok reg_ok (more : string -> option (target X)) own_env own_conf x0 i ops,
    (forall d, In d (received ops) -> dict d) ->
    let p := fst (fst (run (peer_eval load_ok reg_ok more own_env own_conf) ((p_new, x0), i_new i) ops)) in
    v_env p = first_of (env_in load_ok more) (received ops) /\
    (v_ready p = true <-> v_env p <> None /\ reg_ok = true).
Proof.
  intros X lo ro more oe oc x0 i ops D p. destruct (run_after lo ro more oe oc ops ((p_new, x0), i_new i) D) as (A & _ & C).
  fold p in A, C. destruct C as [[C1 _] _]; [split; cbn; congruence|]. split; [exact A|]. rewrite C1. destruct (v_env p); [|intuition congruence].
  split; [|tauto]. intros ->. split; [discriminate|reflexivity].
Qed.
Print Assumptions C82_first_environment.

(** C83.  The same for the configuration. *)
Theorem C83_first_configuration :
  forall (X : Type) load_ok reg_ok (more : string -> option (target X)) own_env own_conf x0 i ops,
    (forall d, In d (received ops) -> dict d) ->
    let p := fst (fst (run (peer_eval load_ok reg_ok more own_env own_conf) ((p_new, x0), i_new i) ops)) in
    v_conf p = first_of (conf_in more) (received ops) /\
    (v_cready p = true <-> exists d, In d (received ops) /\ conf_entry more d <> None).
Proof.
  intros X lo ro more oe oc x0 i ops D p. destruct (run_after lo ro more oe oc ops ((p_new, x0), i_new i) D) as (_ & B & C).
  fold p in B, C. destruct C as [_ C2]; [split; cbn; congruence|]. split; [exact B|].
  rewrite C2. cbn [fst p_new v_cready orb]. rewrite existsb_exists. unfold has_entry.
  split; intros (d & Hd & H); exists d; (split; [exact Hd|]); destruct (conf_entry more d); congruence.
Qed.
Print Assumptions C83_first_configuration.

(** ** Two peers *)
Section Two.
  Context {X : Type} (load_ok : side -> msg -> bool) (reg_ok : side -> bool) (more : side -> string -> option (target X))
    (own_env : side -> msg) (own_conf : side -> json) (x0 : side -> X).
  Notation pev := (pev load_ok reg_ok more own_env own_conf).
  Notation psys := (psys x0).
  Notation run := (sys_run pev psys).
  Notation known_at h w := (known_to (run h) w).

  Lemma first_of_prefix {A} (f : msg -> option A) l l' a : first_of f l = Some a -> first_of f (l ++ l') = Some a.
  Proof. intros H. rewrite first_of_app, H. reflexivity. Qed.

  Theorem C82_first_sent_gen h h' w e : dicts (h ++ h') -> v_env (known_at h w) = Some e ->
    first_of (env_in (load_ok w) (more w)) (sent_by pev (other w) psys h) = Some e /\ v_env (known_at (h ++ h') w) = Some e.
  Proof.
    intros D H. split; [|apply (known_stays load_ok reg_ok more own_env own_conf x0 h h' w D); exact H].
    pose proof (got_sent load_ok reg_ok more own_env own_conf h psys w) as G.
    replace (sy_in psys w) with (@nil msg) in G by (destruct w; reflexivity). cbn [app] in G. rewrite <- G.
    apply first_of_prefix. rewrite <- H. symmetry. apply known_got. eapply dicts_app; eauto.
  Qed.

  Theorem C83_first_sent_gen h h' w c : dicts (h ++ h') -> v_conf (known_at h w) = Some c ->
    first_of (conf_in (more w)) (sent_by pev (other w) psys h) = Some c /\ v_conf (known_at (h ++ h') w) = Some c.
  Proof.
    intros D H. split; [|apply (known_stays load_ok reg_ok more own_env own_conf x0 h h' w D); exact H].
    pose proof (got_sent load_ok reg_ok more own_env own_conf h psys w) as G.
    replace (sy_in psys w) with (@nil msg) in G by (destruct w; reflexivity). cbn [app] in G. rewrite <- G.
    apply first_of_prefix. rewrite <- H. symmetry. apply known_got. eapply dicts_app; eauto.
  Qed.

  Context (OK : forall w k t, more w k = Some t -> t_key t = k /\ reserved k = false).
  Context (EX : forall w, own_env w <> []).

  (** ** Completing the exchange *)
  Lemma ev_env w : pev w "env" = Some (on_fst (h_env (load_ok w) (reg_ok w) (own_env w))). Proof. reflexivity. Qed.
  Lemma ev_id w : pev w k_id = None.
  Proof. unfold ExchangeSys.pev, peer_eval. cbn. rewrite (more_reserved more OK w k_id eq_refl). reflexivity. Qed.

  Lemma answer_env own : own <> [] -> answer [("env", own); (k_id, [])] [] = [("env", JObj own)].
  Proof. destruct own; [congruence|reflexivity]. Qed.

  Lemma process_env w p x st e z : v_env p = None -> load_ok w e = true -> reg_ok w = true -> i_logs st = [] ->
    dget z (i_waiting st) = None ->
    process_json (pev w) (p, x) st [("env", JObj e); (k_id, JInt z)] =
      ((mkPst (Some e) true (v_conf p) (v_cready p), x), st, [[("env", JObj (own_env w)); (k_id, JInt z)]], true).
  Proof.
    intros Hv L R Lg W. unfold process_json. cbn [collect]. rewrite ev_env, ev_id. cbn [t_prep on_fst h_env t_key as_object].
    change (reserved k_id) with true. cbn [gather t_run on_fst h_env fst snd]. unfold set_peer_env. rewrite Hv, L, R.
    pose proof (answer_env _ (EX w)) as An. unfold msg in An. unfold msg. rewrite An. clear An.
    unfold handle_reserved. change (dget k_id [("env", JObj e); (k_id, JInt z)]) with (Some (JInt z)). cbn [ident_of]. rewrite W.
    change (dget k_log [("env", JObj e); (k_id, JInt z)]) with (@None json).
    change (dset k_id (JInt z) [("env", JObj (own_env w))]) with [("env", JObj (own_env w)); (k_id, JInt z)].
    cbv iota. unfold send_json. rewrite Lg. reflexivity.
  Qed.

  Lemma process_reply w p x st e z r : v_env p = None -> load_ok w e = true -> reg_ok w = true ->
    dget z (i_waiting st) = Some r -> nth_error (i_reqs st) r = Some (mkReq z Waiting) ->
    exists st', process_json (pev w) (p, x) st [("env", JObj e); (k_id, JInt z)] =
      ((mkPst (Some e) true (v_conf p) (v_cready p), x), st', [], true) /\
      dget z (i_resp st') = Some [("env", JObj e)] /\ nth_error (i_reqs st') r = Some (mkReq z Ready).
  Proof.
    intros Hv L R W Nq. unfold process_json. cbn [collect]. rewrite ev_env, ev_id. cbn [t_prep on_fst h_env t_key as_object].
    change (reserved k_id) with true. cbn [gather t_run on_fst h_env fst snd]. unfold set_peer_env. rewrite Hv, L, R.
    pose proof (answer_env _ (EX w)) as An. unfold msg in An. unfold msg. rewrite An. clear An.
    unfold handle_reserved. change (dget k_id [("env", JObj e); (k_id, JInt z)]) with (Some (JInt z)). cbn [ident_of]. rewrite W.
    change (ddel k_id [("env", JObj e); (k_id, JInt z)]) with [("env", JObj e)].
    change (dget k_log [("env", JObj e)]) with (@None json).
    eexists. split; [reflexivity|]. unfold set_event. cbn [i_reqs]. rewrite Nq. unfold set_status. cbn [i_reqs]. rewrite Nq. cbn [i_resp i_reqs rq_id].
    split; [apply dget_dset_eq|]. eapply set_nth_eq; eauto.
  Qed.

  Theorem C82_exchange_gen h w e r :
    sy_in (run h) SA = [] -> sy_in (run h) SB = [] ->
    (forall v, v_env (known_at h v) = None) -> (forall v, i_logs (snd (sy_if (run h) v)) = []) ->
    load_ok (other w) e = true -> load_ok w (own_env (other w)) = true -> (forall v, reg_ok v = true) ->
    List.length (calls_of pev psys h w) = r ->
    let h' := h ++ [EvWait w (share_env_msg e) false; EvDeliver (other w); EvDeliver w; EvWake w r] in
    returns pev psys h' w r [("env", JObj (own_env (other w)))] /\
    v_env (known_at h' (other w)) = Some e /\ v_env (known_at h' w) = Some (own_env (other w)) /\
    (forall v, v_ready (known_at h' v) = true) /\ sy_in (run h') SA = [] /\ sy_in (run h') SB = [].
  Proof.
    intros Q1 Q2 V Lg L1 L2 R Hr h'.
    assert (Q : forall v, sy_in (run h) v = []) by (intros []; assumption). clear Q1 Q2.
    destruct (sys_ids pev (fun w => (p_new, x0 w)) h w) as [Iw Pw]. destruct (sys_ids pev (fun w => (p_new, x0 w)) h (other w)) as [Io Po].
    change (sys_new (fun w => (p_new, x0 w))) with psys in *.
    remember (run h) as y eqn:Ey.
    set (z := id_cur (i_ident (snd (sy_if y w)))) in *.
    assert (W0 : dget z (i_waiting (snd (sy_if y w))) = None).
    { destruct (dget z (i_waiting (snd (sy_if y w)))) as [r0|] eqn:W; [|reflexivity]. exfalso.
      destruct (n_w _ Iw _ _ W) as (q & Nq & Eq & _). apply nth_error_In in Nq. pose proof (n_lt _ Iw q Nq). fold z in H. lia. }
    assert (W1 : dget z (i_waiting (snd (sy_if y (other w)))) = None).
    { destruct (dget z (i_waiting (snd (sy_if y (other w))))) as [r0|] eqn:W; [|reflexivity]. exfalso.
      destruct (n_w _ Io _ _ W) as (q & Nq & Eq & _). apply nth_error_In in Nq. pose proof (n_par _ Io q Nq) as P.
      rewrite Po, Eq in P. rewrite Pw, par_other in P. destruct (par w); discriminate. }
    (* the request *)
    assert (S1 : exists st1, step (pev w) (sy_if y w) (OWait (share_env_msg e) false) = ((fst (sy_if y w), st1), [[("env", JObj e); (k_id, JInt z)]], true) /\
              dget z (i_waiting st1) = Some r /\ nth_error (i_reqs st1) r = Some (mkReq z Waiting)).
    { specialize (Lg w). unfold calls_of in Hr. rewrite <- Ey in Hr. destruct (sy_if y w) as [s st] eqn:E0. cbn [fst snd] in *.
      cbn [step]. unfold wait_json. change (dmem k_id (share_env_msg e)) with false.
      unfold id_next. fold z. unfold dmem. cbn [i_waiting i_reqs i_ident i_resp i_logs i_seen]. rewrite W0. unfold send_json. cbn [i_logs]. rewrite Lg.
      eexists. split; [reflexivity|]. cbn [i_waiting i_reqs]. rewrite Hr. split; [apply dget_dset_eq|].
      rewrite nth_error_app2 by lia. rewrite <- Hr, Nat.sub_diag. reflexivity. }
    destruct S1 as (st1 & S1 & Sw & Sn).
    destruct (local_fields pev y w _ _ _ _ S1) as (F1 & F2 & F3 & F4).
    set (y1 := local pev y w (OWait (share_env_msg e) false)) in *. rewrite Q in F3. rewrite Q in F4. cbn [app] in F4.
    (* its processing *)
    destruct (sy_if y (other w)) as [[po xo] sto] eqn:Eo.
    assert (Vo : v_env po = None) by (specialize (V (other w)); unfold known_to in V; rewrite Eo in V; exact V).
    assert (Lo : i_logs sto = []) by (specialize (Lg (other w)); rewrite Eo in Lg; exact Lg).
    pose proof (process_env (other w) po xo sto e z Vo L1 (R _) Lo W1) as P1.
    set (y1' := mkSys (sy_if y1) (fupd (sy_in y1) (other w) [])).
    assert (Y2 : sys_step pev y1 (EvDeliver (other w)) = local pev y1' (other w) (ORecv [("env", JObj e); (k_id, JInt z)])) by (cbn [sys_step]; rewrite F4; reflexivity).
    assert (S2 : step (pev (other w)) (sy_if y1' (other w)) (ORecv [("env", JObj e); (k_id, JInt z)]) =
              ((mkPst (Some e) true (v_conf po) (v_cready po), xo, sto), [[("env", JObj (own_env (other w))); (k_id, JInt z)]], true)).
    { cbn [y1' sy_if]. rewrite F2. cbn [step]. rewrite P1. reflexivity. }
    destruct (local_fields pev y1' (other w) _ _ _ _ S2) as (G1 & G2 & G3 & G4). rewrite other_other in G2, G4. rewrite <- Y2 in G1, G2, G3, G4.
    set (y2 := sys_step pev y1 (EvDeliver (other w))) in *. cbn [y1' sy_if sy_in] in G2, G3, G4. rewrite F1 in G2.
    rewrite fupd_eq in G3. rewrite fupd_other', F3 in G4. cbn [app] in G4.
    (* the answer *)
    destruct (fst (sy_if y w)) as [pw xw] eqn:Ew.
    assert (Vw : v_env pw = None) by (specialize (V w); unfold known_to in V; rewrite Ew in V; exact V).
    destruct (process_reply w pw xw st1 (own_env (other w)) z r Vw L2 (R _) Sw Sn) as (st2 & P2 & Rs & Nr).
    set (y2' := mkSys (sy_if y2) (fupd (sy_in y2) w [])).
    assert (Y3 : sys_step pev y2 (EvDeliver w) = local pev y2' w (ORecv [("env", JObj (own_env (other w))); (k_id, JInt z)])) by (cbn [sys_step]; rewrite G4; reflexivity).
    assert (S3 : step (pev w) (sy_if y2' w) (ORecv [("env", JObj (own_env (other w))); (k_id, JInt z)]) =
              ((mkPst (Some (own_env (other w))) true (v_conf pw) (v_cready pw), xw, st2), [], true)).
    { cbn [y2' sy_if]. rewrite G2. cbn [step]. rewrite P2. reflexivity. }
    destruct (local_fields pev y2' w _ _ _ _ S3) as (H1 & H2 & H3 & H4). rewrite <- Y3 in H1, H2, H3, H4.
    set (y3 := sys_step pev y2 (EvDeliver w)) in *. cbn [y2' sy_if sy_in] in H2, H3, H4. rewrite G1 in H2.
    rewrite fupd_eq in H3. rewrite fupd_other, G3 in H4. cbn [app] in H4.
    (* waking up *)
    assert (S4 : step (pev w) (sy_if y3 w) (OWake r) = ((mkPst (Some (own_env (other w))) true (v_conf pw) (v_cready pw), xw, wake st2 r), [], true)) by (rewrite H1; reflexivity).
    destruct (local_fields pev y3 w _ _ _ _ S4) as (K1 & K2 & K3 & K4). rewrite H4 in K4. rewrite H3 in K3. rewrite H2 in K2.
    assert (Yh : run h' = local pev y3 w (OWake r)).
    { unfold h', sys_run. rewrite fold_left_app. fold (sys_run pev psys h). rewrite <- Ey. cbn [fold_left]. reflexivity. }
    unfold returns, calls_of. rewrite Yh.
    split.
    { exists z. rewrite K1. cbn [snd]. unfold wake. rewrite Nr, Rs. unfold set_status. cbn [i_reqs]. rewrite Nr. cbn [i_reqs rq_id]. eapply set_nth_eq; eauto. }
    unfold known_to. rewrite K1, K2. cbn [fst v_env]. do 2 (split; [reflexivity|]).
    assert (Qa : forall v, sy_in (local pev y3 w (OWake r)) v = []) by (intros v; destruct (side_cases v w) as [->| ->]; [exact K3|exact K4]).
    split; [|split; apply Qa]. intros v. destruct (side_cases v w) as [->| ->]; [rewrite K1|rewrite K2]; reflexivity.
  Qed.

  Theorem C82_again_gen h0 h w r e m : no_sends h -> dicts h -> (forall v, load_ok v (own_env (other v)) = true) ->
    call_after pev psys h0 h w r (share_env_msg e) -> returns pev psys h w r m ->
    v_env (known_at h0 (other w)) <> None ->
    share_env_finish (load_ok w) (reg_ok w) (known_at h w) m = (known_at h w, None).
  Proof.
    intros NS D LO HC HR Hk.
    destruct HR as [z HR].
    destruct (share_outcome load_ok reg_ok more own_env own_conf x0 OK EX h0 h w r e m NS D LO HC z HR) as (h1 & h2 & req & Eh & _ & _ & (a & Ea) & M).
    destruct (v_env (known_at h0 (other w))) as [e0|] eqn:E0; [|congruence].
    assert (E1 : v_env (known_at h1 (other w)) = Some e0).
    { rewrite Ea. apply (known_stays load_ok reg_ok more own_env own_conf x0 h0); [|exact E0]. rewrite <- Ea. eapply dicts_app. rewrite <- Eh. exact D. }
    rewrite E1 in M. unfold share_env_finish. rewrite M. reflexivity.
  Qed.

  Theorem C82_finish_gen h0 h w r e m : no_sends h -> dicts h -> (forall v, load_ok v (own_env (other v)) = true) ->
    call_after pev psys h0 h w r (share_env_msg e) -> returns pev psys h w r m ->
    forall p', share_env_finish (load_ok w) (reg_ok w) (known_at h w) m = (p', Some tt) ->
      p' = known_at h w /\ v_env (known_at h w) <> None /\ v_env (known_at h (other w)) = Some e /\ v_env (known_at h0 (other w)) = None.
  Proof.
    intros NS D LO HC HR p' F.
    destruct (v_env (known_at h0 (other w))) as [e0|] eqn:E0.
    { rewrite (C82_again_gen h0 h w r e m NS D LO HC HR) in F by congruence. discriminate. }
    destruct HR as [z HR].
    destruct (share_outcome load_ok reg_ok more own_env own_conf x0 OK EX h0 h w r e m NS D LO HC z HR) as (h1 & h2 & req & Eh & _ & _ & Ha & M).
    unfold share_env_finish in F. destruct (v_env (known_at h1 (other w))) as [e1|].
    { rewrite M in F. discriminate. }
    destruct M as (M1 & _ & M2 & M3). rewrite M1 in F. cbn [as_object] in F. unfold set_peer_env in F.
    destruct (v_env (known_at h w)) as [e2|] eqn:E2; [|congruence]. injection F as <-. auto.
  Qed.

  Theorem C82_once_gen h h0 h0' w r r' e e' m m' : no_sends h -> dicts h -> (forall v, load_ok v (own_env (other v)) = true) ->
    call_after pev psys h0 h w r (share_env_msg e) -> returns pev psys h w r m ->
    call_after pev psys h0' h w r' (share_env_msg e') -> returns pev psys h w r' m' ->
    dget "env" m <> None -> dget "env" m' <> None -> r = r'.
  Proof.
    intros NS D LO HC [z HR] HC' [z' HR'] N N'.
    destruct (share_outcome load_ok reg_ok more own_env own_conf x0 OK EX h0 h w r e m NS D LO HC z HR) as (h1 & h2 & req & Eh & Hd & Hz & _ & M).
    destruct (share_outcome load_ok reg_ok more own_env own_conf x0 OK EX h0' h w r' e' m' NS D LO HC' z' HR') as (h1' & h2' & req' & Eh' & Hd' & Hz' & _ & M').
    destruct (v_env (known_at h1 (other w))) eqn:V1; [congruence|]. destruct (v_env (known_at h1' (other w))) eqn:V2; [congruence|].
    destruct M as (_ & K & _). destruct M' as (_ & K' & _). rewrite Eh in Eh'.
    assert (Dh : dicts h1 /\ dicts h1') by (split; eapply dicts_app; [rewrite <- Eh; exact D|rewrite <- Eh', <- Eh; exact D]).
    apply app_eq_app in Eh' as (l & [[E1 E2]|[E1 E2]]).
    - destruct l as [|x l].
      + rewrite app_nil_r in E1. subst h1'. assert (z = z') as -> by congruence.
        exact (nth_id_inj _ _ _ _ _ (calls_inv pev (fun w => (p_new, x0 w)) h w) HR HR' eq_refl).
      + exfalso. cbn in E2. injection E2 as <- E2.
        assert (X1 : v_env (known_at ((h1' ++ [EvDeliver (other w)]) ++ l) (other w)) = Some e').
        { apply (known_stays load_ok reg_ok more own_env own_conf x0); [|exact K']. rewrite <- app_assoc. cbn [app]. rewrite <- E1. apply Dh. }
        rewrite <- app_assoc in X1. cbn [app] in X1. rewrite <- E1 in X1. congruence.
    - destruct l as [|x l].
      + rewrite app_nil_r in E1. subst h1'. assert (z = z') as -> by congruence.
        exact (nth_id_inj _ _ _ _ _ (calls_inv pev (fun w => (p_new, x0 w)) h w) HR HR' eq_refl).
      + exfalso. cbn in E2. injection E2 as <- E2.
        assert (X1 : v_env (known_at ((h1 ++ [EvDeliver (other w)]) ++ l) (other w)) = Some e).
        { apply (known_stays load_ok reg_ok more own_env own_conf x0); [|exact K]. rewrite <- app_assoc. cbn [app]. rewrite <- E1. apply Dh. }
        rewrite <- app_assoc in X1. cbn [app] in X1. rewrite <- E1 in X1. congruence.
  Qed.
End Two.

(** C82.  Between two peers, a side's view of the other's environment is the
    first one the other side sent that it could load, and it never changes
    again, whatever is exchanged. *)
Theorem C82_first_sent :
  forall (X : Type) load_ok reg_ok (more : side -> string -> option (target X)) own_env own_conf x0 h h' w e,
    let ev := pev load_ok reg_ok more own_env own_conf in
    let at_ := fun l v => known_to (sys_run ev (psys x0) l) v in
    dicts (h ++ h') -> v_env (at_ h w) = Some e ->
    first_of (env_in (load_ok w) (more w)) (sent_by ev (other w) (psys x0) h) = Some e /\
    v_env (at_ (h ++ h') w) = Some e.
Proof. intros. apply C82_first_sent_gen; assumption. Qed.
Print Assumptions C82_first_sent.

Theorem C83_first_sent :
  forall (X : Type) load_ok reg_ok (more : side -> string -> option (target X)) own_env own_conf x0 h h' w c,
    let ev := pev load_ok reg_ok more own_env own_conf in
    let at_ := fun l v => known_to (sys_run ev (psys x0) l) v in
    dicts (h ++ h') -> v_conf (at_ h w) = Some c ->
    first_of (conf_in (more w)) (sent_by ev (other w) (psys x0) h) = Some c /\
    v_conf (at_ (h ++ h') w) = Some c.
Proof. intros. eapply C83_first_sent_gen; eassumption. Qed.
Print Assumptions C83_first_sent.

(** The other handlers have their own keys, none of them reserved. *)
Definition proper {X} (more : side -> string -> option (target X)) : Prop :=
  forall w k t, more w k = Some t -> t_key t = k /\ reserved k = false.

(** C82.  When sharing an environment has returned without raising, in any
    history of two peers that do not send bare messages, the other side holds
    exactly the environment that was shared, this side holds one too, and the
    other side held none before. *)
Theorem C82_sharing_returns :
  forall (X : Type) load_ok reg_ok (more : side -> string -> option (target X)) own_env own_conf x0 h0 h w r e m p',
    let ev := pev load_ok reg_ok more own_env own_conf in
    let at_ := fun l v => known_to (sys_run ev (psys x0) l) v in
    proper more -> (forall v, own_env v <> []) -> (forall v, load_ok v (own_env (other v)) = true) ->
    no_sends h -> dicts h ->
    call_after ev (psys x0) h0 h w r (share_env_msg e) -> returns ev (psys x0) h w r m ->
    share_env_finish (load_ok w) (reg_ok w) (at_ h w) m = (p', Some tt) ->
    p' = at_ h w /\ v_env (at_ h w) <> None /\ v_env (at_ h (other w)) = Some e /\ v_env (at_ h0 (other w)) = None.
Proof. intros X lo ro more oe oc x0 h0 h w r e m p' ev at_ OK EX LO NS D HC HR HF. eapply C82_finish_gen; eassumption. Qed.
Print Assumptions C82_sharing_returns.

(** C82 fails for repeated sharing: once the other side has a view, every later
    sharing that is answered raises (KeyError), whatever is shared. *)
Theorem C82_share_again_refuted :
  forall (X : Type) load_ok reg_ok (more : side -> string -> option (target X)) own_env own_conf x0 h0 h w r e m,
    let ev := pev load_ok reg_ok more own_env own_conf in
    let at_ := fun l v => known_to (sys_run ev (psys x0) l) v in
    proper more -> (forall v, own_env v <> []) -> (forall v, load_ok v (own_env (other v)) = true) ->
    no_sends h -> dicts h ->
    call_after ev (psys x0) h0 h w r (share_env_msg e) -> returns ev (psys x0) h w r m ->
    v_env (at_ h0 (other w)) <> None ->
    share_env_finish (load_ok w) (reg_ok w) (at_ h w) m = (at_ h w, None).
Proof. intros X lo ro more oe oc x0 h0 h w r e m ev at_ OK EX LO NS D HC HR Hk. eapply C82_again_gen; eassumption. Qed.
Print Assumptions C82_share_again_refuted.

(** C82.  So a side shares successfully at most once. *)
Theorem C82_share_once :
  forall (X : Type) load_ok reg_ok (more : side -> string -> option (target X)) own_env own_conf x0 h h0 h0' w r r' e e' m m' p p',
    let ev := pev load_ok reg_ok more own_env own_conf in
    let at_ := fun l v => known_to (sys_run ev (psys x0) l) v in
    proper more -> (forall v, own_env v <> []) -> (forall v, load_ok v (own_env (other v)) = true) ->
    no_sends h -> dicts h ->
    call_after ev (psys x0) h0 h w r (share_env_msg e) -> returns ev (psys x0) h w r m ->
    call_after ev (psys x0) h0' h w r' (share_env_msg e') -> returns ev (psys x0) h w r' m' ->
    share_env_finish (load_ok w) (reg_ok w) (at_ h w) m = (p, Some tt) ->
    share_env_finish (load_ok w) (reg_ok w) (at_ h w) m' = (p', Some tt) ->
    r = r'.
Proof.
  intros X lo ro more oe oc x0 h h0 h0' w r r' e e' m m' p p' ev at_ OK EX LO NS D HC HR HC' HR' HF HF'.
  eapply C82_once_gen; [exact OK|exact EX|exact NS|exact D|exact LO|exact HC|exact HR|exact HC'|exact HR'|..].
  - unfold share_env_finish in HF. intros H. rewrite H in HF. discriminate.
  - unfold share_env_finish in HF'. intros H. rewrite H in HF'. discriminate.
Qed.
Print Assumptions C82_share_once.

(** C82.  The exchange completes: with nothing under way and no views yet,
    sharing, its processing, the answer and its processing give both sides the
    other's environment, announced as ready. *)
Theorem C82_exchange :
  forall (X : Type) load_ok reg_ok (more : side -> string -> option (target X)) own_env own_conf x0 h w e r,
    let ev := pev load_ok reg_ok more own_env own_conf in
    let at_ := fun l v => known_to (sys_run ev (psys x0) l) v in
    let y := sys_run ev (psys x0) h in
    proper more -> (forall v, own_env v <> []) ->
    sy_in y SA = [] -> sy_in y SB = [] -> (forall v, v_env (at_ h v) = None) -> (forall v, i_logs (snd (sy_if y v)) = []) ->
    load_ok (other w) e = true -> load_ok w (own_env (other w)) = true -> (forall v, reg_ok v = true) ->
    List.length (calls_of ev (psys x0) h w) = r ->
    let h' := h ++ [EvWait w (share_env_msg e) false; EvDeliver (other w); EvDeliver w; EvWake w r] in
    returns ev (psys x0) h' w r [("env", JObj (own_env (other w)))] /\
    share_env_finish (load_ok w) (reg_ok w) (at_ h' w) [("env", JObj (own_env (other w)))] = (at_ h' w, Some tt) /\
    v_env (at_ h' (other w)) = Some e /\ v_env (at_ h' w) = Some (own_env (other w)) /\
    (forall v, v_ready (at_ h' v) = true).
Proof.
  intros X lo ro more oe oc x0 h w e r ev at_ y OK EX Q1 Q2 V Lg L1 L2 R Hr h'.
  destruct (C82_exchange_gen lo ro more oe oc x0 OK EX h w e r Q1 Q2 V Lg L1 L2 R Hr) as (A & B & C & D & _).
  split; [exact A|]. split; [|auto]. unfold share_env_finish. cbn. unfold set_peer_env. unfold at_, h', ev. rewrite C. reflexivity.
Qed.
Print Assumptions C82_exchange.

(** C83.  When sharing a configuration has returned, the other side holds a
    configuration: the shared one, if it held none when it processed the
    request, and then this side holds one as well (null counts as none). *)
Theorem C83_sharing_returns :
  forall (X : Type) load_ok reg_ok (more : side -> string -> option (target X)) own_env own_conf x0 h0 h w r data m,
    let ev := pev load_ok reg_ok more own_env own_conf in
    let at_ := fun l v => known_to (sys_run ev (psys x0) l) v in
    proper more -> (forall v, own_env v <> []) -> no_sends h -> dicts h ->
    call_after ev (psys x0) h0 h w r (share_conf_msg data) -> returns ev (psys x0) h w r m ->
    exists h1 h2, h = h1 ++ h2 /\ (exists a, h1 = h0 ++ EvWait w (share_conf_msg data) false :: a) /\
      match v_conf (at_ h1 (other w)) with
      | Some c => v_conf (at_ h (other w)) = Some c
      | None => exists c, dget "config" data = Some c /\ (c <> JNull -> v_conf (at_ h (other w)) = Some c) /\
                (own_conf (other w) <> JNull -> v_conf (at_ h w) <> None)
      end.
Proof. intros X lo ro more oe oc x0 h0 h w r data m ev at_ OK EX NS D HC HR. eapply config_outcome; eassumption. Qed.
Print Assumptions C83_sharing_returns.

(** C83 fails for data without a "config" entry: a peer that has none yet raises
    while processing it, sends nothing, and keeps its state ... *)
Theorem C83_no_entry_refuted :
  forall (X : Type) load_ok reg_ok (more : string -> option (target X)) own_env own_conf s st d data,
    (forall k t, more k = Some t -> t_key t = k /\ reserved k = false) ->
    dict d -> v_conf (fst s) = None -> dget "config" d = Some (JObj data) -> dget "config" data = None ->
    let r := process_json (peer_eval load_ok reg_ok more own_env own_conf) s st d in
    snd (fst r) = [] /\ snd r = false /\ snd (fst (fst r)) = st.
Proof. intros. eapply no_config_no_reply; eassumption. Qed.
Print Assumptions C83_no_entry_refuted.

(** ... so that sharing it returns only if the other side gets a configuration
    in some other way first. *)
Theorem C83_no_entry_never_returns :
  forall (X : Type) load_ok reg_ok (more : side -> string -> option (target X)) own_env own_conf x0 h0 h w r data,
    let ev := pev load_ok reg_ok more own_env own_conf in
    let at_ := fun l v => known_to (sys_run ev (psys x0) l) v in
    proper more -> (forall v, own_env v <> []) -> no_sends h -> dicts h ->
    dget "config" data = None -> v_conf (at_ h (other w)) = None ->
    call_after ev (psys x0) h0 h w r (share_conf_msg data) ->
    forall m, ~ returns ev (psys x0) h w r m.
Proof.
  intros X lo ro more oe oc x0 h0 h w r data ev at_ OK EX NS D Hn Hv HC m HR.
  destruct (config_outcome lo ro more oe oc x0 OK EX h0 h w r data m NS D HC HR) as (h1 & h2 & _ & _ & M).
  unfold at_ in Hv. destruct (v_conf (known_to (sys_run (pev lo ro more oe oc) (psys x0) h1) (other w))).
  - unfold ev in Hv. congruence.
  - destruct M as (c & A & _). congruence.
Qed.
Print Assumptions C83_no_entry_never_returns.

(** ** Example: two peers that share twice *)
Definition demo_own (w : side) : msg := match w with SA => [("ints", JInt 1)] | SB => [("ints", JInt 2)] end.
Definition demo_more (w : side) : string -> option (target unit) := fun k => if eq_dec k "loopback" then Some h_loopback else None.
Definition demo_ev := pev (fun _ _ => true) (fun _ => true) demo_more demo_own (fun _ => JInt 7).
Definition demo_sys := psys (X:=unit) (fun _ => tt).
Definition demo_share (r : nat) : list sev :=
  [EvWait SA (share_env_msg (demo_own SA)) false; EvDeliver SB; EvDeliver SA; EvWake SA r].
Example demo_exchange :
  proper demo_more /\
  no_sends (demo_share 0 ++ demo_share 1) /\ dicts (demo_share 0 ++ demo_share 1) /\
  call_after demo_ev demo_sys [] (demo_share 0 ++ demo_share 1) SA 0 (share_env_msg (demo_own SA)) /\
  call_after demo_ev demo_sys (demo_share 0) (demo_share 0 ++ demo_share 1) SA 1 (share_env_msg (demo_own SA)) /\
  returns demo_ev demo_sys (demo_share 0 ++ demo_share 1) SA 0 [("env", JObj (demo_own SB))] /\
  returns demo_ev demo_sys (demo_share 0 ++ demo_share 1) SA 1 [] /\
  v_env (known_to (sys_run demo_ev demo_sys (demo_share 0)) SB) = Some (demo_own SA).
Proof.
  split. { intros w k t H. unfold demo_more in H. destruct (eq_dec k "loopback") as [->|]; [|discriminate]. injection H as <-. split; reflexivity. }
  split. { intros w d f H. cbn in H. intuition discriminate. }
  split. { intros w d f [H|H]; cbn in H; repeat (destruct H as [H|H]; [try discriminate H; injection H as _ <- _; repeat constructor; intros []|]); destruct H. }
  split. { exists [EvDeliver SB; EvDeliver SA; EvWake SA 0; EvWait SA (share_env_msg (demo_own SA)) false; EvDeliver SB; EvDeliver SA; EvWake SA 1].
           split; [reflexivity|]. split; vm_compute; reflexivity. }
  split. { exists [EvDeliver SB; EvDeliver SA; EvWake SA 1]. split; [reflexivity|]. split; vm_compute; reflexivity. }
  split; [exists 1%Z; vm_compute; reflexivity|]. split; [exists 3%Z; vm_compute; reflexivity|]. vm_compute. reflexivity.
Qed.

(** Sharing configurations, the first without an entry. *)
Definition demo_conf : list sev :=
  [EvWait SA (share_conf_msg [("settings", JInt 1)]) false; EvDeliver SB;
   EvWait SA (share_conf_msg [("config", JInt 1)]) false; EvDeliver SB; EvDeliver SA; EvWake SA 1].
Example demo_config :
  call_after demo_ev demo_sys [] demo_conf SA 0 (share_conf_msg [("settings", JInt 1)]) /\
  v_conf (known_to (sys_run demo_ev demo_sys (firstn 2 demo_conf)) SB) = None /\
  returns demo_ev demo_sys demo_conf SA 1 [("config", JObj [("config", JInt 7)])] /\
  v_conf (known_to (sys_run demo_ev demo_sys demo_conf) SB) = Some (JInt 1) /\
  v_conf (known_to (sys_run demo_ev demo_sys demo_conf) SA) = Some (JInt 7).
Proof.
  split. { exists (tl demo_conf). split; [reflexivity|]. split; vm_compute; reflexivity. }
  split; [vm_compute; reflexivity|]. split; [exists 3%Z; vm_compute; reflexivity|]. split; vm_compute; reflexivity.
Qed.
