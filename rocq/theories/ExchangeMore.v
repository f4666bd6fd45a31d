(** Lemmas for C82 and C83: which call an answer belongs to. *)
From Verif Require Import Base BaseLemmas IfaceModel IfaceSpec IfaceProofs IfaceSys IfaceStd IfaceAnswer IfaceProv ExchangeModel ExchangeSpec ExchangeProofs ExchangeSys.
From Coq Require Import ZifyBool ZifyNat Lia.
Open Scope string_scope.
Open Scope list_scope.

(** The identifiers of the calls made so far never change. *)
Lemma effect_ids st st' o out : effect st st' o out ->
  exists l, map rq_id (i_reqs st') = map rq_id (i_reqs st) ++ l.
Proof.
  intros E. inversion E; subst.
  - exists []. rewrite app_nil_r. congruence.
  - match goal with H : i_reqs st' = _ ++ _ |- _ => rewrite H, map_app; eauto end.
  - exists []. rewrite app_nil_r. congruence.
  - exists []. rewrite app_nil_r. match goal with H : i_reqs st' = i_reqs (set_event _ ?r) |- _ => rewrite H; unfold set_event;
      destruct (nth_error (i_reqs st) r) as [[qi [| | | |]]|] eqn:N; try reflexivity; rewrite (status_reqs _ _ _ _ N); cbn [i_reqs]; apply set_nth_ids; exact N end.
  - exists []. rewrite app_nil_r. match goal with H : i_reqs st' = set_nth _ _ _, N : nth_error _ _ = Some _ |- _ => rewrite H; exact (set_nth_ids _ _ _ _ N) end.
  - exists []. rewrite app_nil_r. match goal with H : i_reqs st' = set_nth _ _ _, N : nth_error _ _ = Some _ |- _ => rewrite H; exact (set_nth_ids _ _ _ _ N) end.
  - exists []. rewrite app_nil_r. match goal with H : i_reqs st' = set_nth _ _ _, N : nth_error _ _ = Some _ |- _ => rewrite H; exact (set_nth_ids _ _ _ _ N) end.
Qed.

Section Calls.
  Context {S : Type} (eval : side -> string -> option (target S)) (s0 : side -> S).
  Notation y0 := (sys_new s0).
  Notation run := (sys_run eval y0).
  Notation calls := (calls_of eval y0).

  Lemma calls_snoc h e w : exists l, map rq_id (calls (h ++ [e]) w) = map rq_id (calls h w) ++ l.
  Proof.
    unfold calls_of. rewrite sys_run_snoc. destruct (step_shape eval (run h) e) as (F1 & _ & F3).
    remember (actor e) as v eqn:Ev. clear Ev. destruct (side_cases w v) as [->| ->].
    - destruct F3 as [(m & rest & _ & _ & _ & Eff & _)|[(o & _ & _ & Eff & _)|(_ & H & _)]]; try (eapply effect_ids; eauto; fail).
      rewrite H. exists []. rewrite app_nil_r. reflexivity.
    - rewrite F1. exists []. rewrite app_nil_r. reflexivity.
  Qed.
  Lemma calls_app h h' w : exists l, map rq_id (calls (h ++ h') w) = map rq_id (calls h w) ++ l.
  Proof.
    induction h' as [|e h' IH] using rev_ind; [exists []; rewrite !app_nil_r; reflexivity|].
    destruct IH as [l IH]. rewrite app_assoc. destruct (calls_snoc (h ++ h') e w) as [l' H]. exists (l ++ l'). rewrite H, IH, app_assoc. reflexivity.
  Qed.

  Lemma calls_inv h w : IInv (snd (sy_if (run h) w)).
  Proof.
    revert w. induction h as [|e h IH] using rev_ind; intros w.
    - apply inv_new. destruct w; reflexivity.
    - rewrite sys_run_snoc. destruct (step_shape eval (run h) e) as (F1 & _ & F3).
      remember (actor e) as v eqn:Ev. clear Ev. destruct (side_cases w v) as [->| ->]; [|rewrite F1; apply IH].
      destruct F3 as [(m & rest & _ & _ & _ & Eff & _)|[(o & _ & _ & Eff & _)|(_ & H & _)]]; [eapply inv_effect; eauto|eapply inv_effect; eauto|].
      rewrite H. apply IH.
  Qed.

  (** The event that made a call is unique, and it is the one its answer is for. *)
  Lemma asked_is_call h0 h w r d q h1 z req : call_after eval y0 h0 h w r d ->
    nth_error (calls h w) r = Some q -> rq_id q = z ->
    (exists h2, h = h1 ++ h2) -> asked eval y0 h1 w z req ->
    (exists h2, h1 = h0 ++ EvWait w d false :: h2) /\ dget k_id req = Some (JInt z) /\
    (forall k, k <> k_id -> k <> k_log -> dget k req = dget k d).
  Proof.
    intros (b & Eh & Lr & Ls) Hq Hz (h2 & Eh1) (a & d' & c & Ea & Em & Hid & Hk).
    assert (Ha : nth_error (map rq_id (calls h w)) (List.length (calls a w)) = Some z /\
                 List.length (calls (a ++ [EvWait w d' false]) w) = Datatypes.S (List.length (calls a w))).
    { assert (Eff : effect (snd (sy_if (run a) w)) (snd (sy_if (run (a ++ [EvWait w d' false])) w)) (OWait d' false) [req]).
      { rewrite sys_run_snoc. cbn [sys_step]. destruct (step (eval w) (sy_if (run a) w) (OWait d' false)) as [[x out] ok] eqn:Es.
        destruct (local_fields eval (run a) w _ _ _ _ Es) as (F1 & _). rewrite F1. cbn [emitted] in Em. rewrite Es in Em. cbn in Em. subst out.
        pose proof (step_eff (eval w) (sy_if (run a) w) (OWait d' false)) as X. unfold step_st in X. rewrite Es in X. exact X. }
      assert (Rq : exists s1, calls (a ++ [EvWait w d' false]) w = calls a w ++ [mkReq z s1]).
      { unfold calls_of. inversion Eff; subst.
        - match goal with H : forall _ _, OWait d' false = _ -> _ |- _ => discriminate (H d' false eq_refl) end.
        - match goal with H : _ \/ _ |- _ => destruct H as [(_ & _ & m & Hm & Hmid & _)|(_ & Hm)] end; [|discriminate].
          injection Hm as <-. rewrite Hid in Hmid. injection Hmid as E. eexists. rewrite E. eassumption. }
      destruct Rq as [s1 Rq]. split.
      - assert (Et : h = (a ++ [EvWait w d' false]) ++ (c ++ h2)) by (rewrite Eh1, Ea, <- !app_assoc; reflexivity).
        rewrite Et. destruct (calls_app (a ++ [EvWait w d' false]) (c ++ h2) w) as [l ->]. rewrite Rq, map_app.
        rewrite <- app_assoc, nth_error_app2 by (rewrite map_length; lia). rewrite map_length, Nat.sub_diag. reflexivity.
      - rewrite Rq, app_length. cbn. lia. }
    destruct Ha as [Ha La].
    assert (Er : List.length (calls a w) = r).
    { assert (nth_error (map rq_id (calls h w)) r = Some z) as Hr by (erewrite map_nth_error by exact Hq; congruence).
      assert (ND : NoDup (map rq_id (calls h w))) by apply (n_nodup _ (calls_inv h w)).
      eapply NoDup_nth_error; [exact ND| |congruence]. apply nth_error_Some. congruence. }
    assert (Mono : forall x y, (List.length (calls x w) <= List.length (calls (x ++ y) w))%nat).
    { intros x y. destruct (calls_app x y w) as [l H]. apply (f_equal (@List.length Z)) in H. rewrite app_length, !map_length in H. lia. }
    assert (Same : a = h0 /\ d' = d).
    { assert (Et : h0 ++ EvWait w d false :: b = a ++ EvWait w d' false :: (c ++ h2)).
      { rewrite <- Eh, Eh1, Ea, <- app_assoc. reflexivity. }
      clear - Et Er Lr Ls La Mono. apply app_eq_app in Et as (l & [[E1 E2]|[E1 E2]]).
      - destruct l as [|e l]; [rewrite app_nil_r in E1; subst; cbn in E2; injection E2 as E2 _; auto|].
        exfalso. cbn in E2. injection E2 as <- E2. specialize (Mono (a ++ [EvWait w d' false]) l). rewrite <- app_assoc in Mono. cbn [app] in Mono.
        rewrite <- E1 in Mono. lia.
      - destruct l as [|e l]; [rewrite app_nil_r in E1; subst; cbn in E2; injection E2 as E2 _; auto|].
        exfalso. cbn in E2. injection E2 as <- E2. specialize (Mono (h0 ++ [EvWait w d false]) l). rewrite <- app_assoc in Mono. cbn [app] in Mono.
        rewrite <- E1 in Mono. lia. }
    destruct Same as [-> ->]. split; [exists c; exact Ea|]. auto.
  Qed.
End Calls.

Section Two.
  Context {X : Type} (load_ok : side -> msg -> bool) (reg_ok : side -> bool) (more : side -> string -> option (target X))
    (own_env : side -> msg) (own_conf : side -> json) (x0 : side -> X).
  Notation pev := (pev load_ok reg_ok more own_env own_conf).
  Notation psys := (psys x0).
  Notation run := (sys_run pev psys).
  Notation known_at h w := (known_to (run h) w).
  Context (OK : forall w k t, more w k = Some t -> t_key t = k /\ reserved k = false).
  Context (EX : forall w, own_env w <> []).

  (** A reply to a message with one meaningful key has no other. *)
  Lemma reply_keys w s st d s' st' m ok : dict d -> process_json (pev w) s st d = (s', st', [m], ok) ->
    forall k j, In (k, j) m -> reserved k = true \/ exists j', dget k d = Some j'.
  Proof.
    intros N P k j Hk. destruct (reserved k) eqn:Er; [auto|]. right.
    assert (ok = true) as ->.
    { unfold process_json in P. destruct (collect (pev w) d) as [[ts ig]|]; [|discriminate].
      destruct (gather s ts) as [s1 [subs|]]; [|discriminate].
      destruct (handle_reserved st d (answer subs ig)) as [st1 [[resp [|]]|]]; try discriminate.
      destruct resp; [discriminate|]. destruct (send_json st1 (p :: resp)) as [st2 [m'|]]; [|discriminate]. injection P as _ _ _ <-. reflexivity. }
    assert (NR : not_a_response st d).
    { apply process_cases in P as [_ [P|(m' & _ & NM & _)]]; [discriminate|]. intros z Cz. destruct (dget z (i_waiting st)) as [r|] eqn:W; [|reflexivity].
      destruct (NM z r). split; [apply carries_iff; exact Cz|exact W]. }
    destruct (process_answer (pev w) s st d s' st' [m] N NR P) as (ts & ig & s1 & subs & a & Hc & Hg & A1 & A2 & [[_ H]|(_ & m' & H & Hm)]); [discriminate|].
    injection H as <-.
    assert (Kr : k <> k_id /\ k <> k_log /\ k <> k_ignored).
    { repeat split; intros ->; discriminate Er. }
    destruct Kr as (K1 & K2 & K3).
    destruct (subs_facts (pev w) (peer_ok _ _ _ _ _ (OK w)) s d ts ig s1 subs N Hc Hg) as (NS & _ & _ & Sub).
    destruct (dget k m) as [j'|] eqn:Ek; [|apply dget_None_notin in Ek; exfalso; apply Ek; apply (in_map fst _ _ Hk)].
    rewrite Hm in Ek by exact K2.
    assert (Ha : dget k a = dget k (answer subs ig)).
    { destruct (dget k_id d) as [jj|] eqn:Ed; [rewrite (A2 jj eq_refl); apply dget_dset_ne; exact K1|rewrite (A1 eq_refl); reflexivity]. }
    rewrite Ha, answer_get in Ek by assumption. destruct (dget k subs) as [[|p b]|] eqn:Es; try discriminate.
    destruct (Sub _ _ _ Es) as (t & jj & _ & Hj & _). eauto.
  Qed.

  Lemma more_reserved w k : reserved k = true -> more w k = None.
  Proof. intros R. destruct (more w k) as [t|] eqn:E; [|reflexivity]. destruct (OK _ _ _ E). congruence. Qed.

  (** The moment a completed call was answered. *)
  Lemma answered h w r m q : no_sends h -> dicts h -> nth_error (calls_of pev psys h w) r = Some q -> rq_st q = Done m ->
    exists h1 h2 h3 req rsp, h = (h1 ++ EvDeliver (other w) :: h2) ++ EvDeliver w :: h3 /\
      asked pev psys h1 w (rq_id q) req /\ hd_error (sy_in (run h1) (other w)) = Some req /\
      emitted pev (run h1) (EvDeliver (other w)) = [rsp] /\
      hd_error (sy_in (run (h1 ++ EvDeliver (other w) :: h2)) w) = Some rsp /\ content_of m rsp.
  Proof.
    intros NS D Hq Hm.
    destruct (two_peer_prov pev (fun w => (p_new, x0 w)) h NS w) as (_ & _ & _ & P).
    destruct (P r q m Hq Hm) as (ha & rsp & h3 & Eh & Hd & Cm & (h1 & req & h2 & Eha & Hd1 & Em & As)).
    exists h1, h2, h3, req, rsp. rewrite <- Eha. auto 10.
  Qed.

  Lemma deliver_process (y : @sys (pst * X)) w q m : hd_error (sy_in y w) = Some q -> emitted pev y (EvDeliver w) = [m] ->
    exists st' s' ok, process_json (pev w) (fst (sy_if y w)) (snd (sy_if y w)) q = (s', st', [m], ok).
  Proof.
    intros H E. cbn [emitted] in E. destruct (sy_in y w) as [|a l]; [discriminate|]. injection H as ->.
    destruct (sy_if y w) as [s st]. cbn [step fst snd] in *. destruct (process_json (pev w) s st q) as [[[s' st'] out] ok].
    cbn in E. subst out. eauto.
  Qed.

  Lemma hd_in {A} (l : list A) a : hd_error l = Some a -> exists r, l = a :: r.
  Proof. destruct l; [discriminate|]. intros H; injection H as ->. eauto. Qed.

  Lemma known_deliver h w d : dicts h -> hd_error (sy_in (run h) w) = Some d ->
    known_to (sys_step pev (run h) (EvDeliver w)) w = after_msg (load_ok w) (reg_ok w) (more w) (known_at h w) d.
  Proof.
    intros D Hd. rewrite step_known by (intros m Hm; eapply queue_dict; eauto).
    assert (side_eqb w w = true) as -> by (destruct w; reflexivity). destruct (hd_in _ _ Hd) as [r ->]. reflexivity.
  Qed.

  (** A call that shared an environment and returned. *)
  Lemma share_outcome h0 h w r e m : no_sends h -> dicts h -> (forall v, load_ok v (own_env (other v)) = true) ->
    call_after pev psys h0 h w r (share_env_msg e) -> forall z, nth_error (calls_of pev psys h w) r = Some (mkReq z (Done m)) ->
    exists h1 h2 req, h = h1 ++ EvDeliver (other w) :: h2 /\ hd_error (sy_in (run h1) (other w)) = Some req /\ dget k_id req = Some (JInt z) /\ (exists a, h1 = h0 ++ EvWait w (share_env_msg e) false :: a) /\
      match v_env (known_at h1 (other w)) with
      | Some _ => dget "env" m = None
      | None => dget "env" m = Some (JObj (own_env (other w))) /\ v_env (known_at (h1 ++ [EvDeliver (other w)]) (other w)) = Some e /\ v_env (known_at h (other w)) = Some e /\
                v_env (known_at h w) <> None
      end.
  Proof.
    intros NS D LO HC z Hq.
    destruct (answered h w r m _ NS D Hq eq_refl) as (h1 & h2 & h3 & req & rsp & Eh & As & Hd1 & Em & Hd2 & [_ Cm]).
    assert (Eh' : h = h1 ++ (EvDeliver (other w) :: h2 ++ EvDeliver w :: h3)) by (rewrite Eh, <- app_assoc; reflexivity).
    destruct (asked_is_call pev _ h0 h w r _ _ h1 z req HC Hq eq_refl (ex_intro _ _ Eh') As) as (Hpre & Hid & Hk).
    exists h1, (h2 ++ EvDeliver w :: h3), req. split; [exact Eh'|]. split; [exact Hd1|]. split; [exact Hid|]. split; [exact Hpre|].
    assert (D1 : dicts h1) by (eapply dicts_app; rewrite <- Eh'; exact D).
    assert (Dreq : dict req). { destruct (hd_in _ _ Hd1) as [l Hl]. apply (queue_dict load_ok reg_ok more own_env own_conf x0 h1 D1 (other w)). rewrite Hl. left. reflexivity. }
    destruct (deliver_process _ _ _ _ Hd1 Em) as (st' & s' & ok & P).
    assert (Henv : dget "env" req = Some (JObj e)) by (rewrite Hk by discriminate; reflexivity).
    destruct (reply_parts _ _ _ _ _ (OK (other w)) _ _ _ _ _ _ _ Dreq (EX (other w)) P) as [RE _]. destruct (RE e Henv) as [R1 R2].
    rewrite Cm by discriminate. rewrite R1. unfold known_to at 1.
    destruct (v_env (fst (fst (sy_if (run h1) (other w))))) as [e0|] eqn:Ev; [reflexivity|]. split; [reflexivity|].
    destruct (R2 eq_refl) as [L1 L2].
    (* the other side now has it *)
    assert (Runs : runs_handlers (more (other w)) req = true).
    { apply (collect_runs (load_ok (other w)) (reg_ok (other w)) (more (other w)) (own_env (other w)) (own_conf (other w))).
      unfold process_json in P. fold (pev (other w)) in P |- *. destruct (collect (pev (other w)) req) as [r0|]; [eauto|discriminate]. }
    assert (K1 : v_env (known_to (sys_step pev (run h1) (EvDeliver (other w))) (other w)) = Some e).
    { rewrite (known_deliver h1 (other w) req D1 Hd1).
      destruct (after_msg_fields (load_ok (other w)) (reg_ok (other w)) (more (other w)) (known_at h1 (other w)) req) as [-> _].
      unfold known_to. rewrite Ev. cbn [or_first]. unfold env_in. rewrite Runs, Henv, L1. reflexivity. }
    rewrite <- prun_snoc in K1. split; [exact K1|].
    split.
    { assert (Ex : h = (h1 ++ [EvDeliver (other w)]) ++ (h2 ++ EvDeliver w :: h3)) by (rewrite Eh', <- app_assoc; reflexivity).
      rewrite Ex in D |- *. apply (known_stays load_ok reg_ok more own_env own_conf x0 _ _ (other w) D). exact K1. }
    (* the answer *)
    set (ha := h1 ++ EvDeliver (other w) :: h2) in *.
    assert (D2 : dicts ha) by (eapply dicts_app; rewrite <- Eh; exact D).
    assert (Drsp : dict rsp). { destruct (hd_in _ _ Hd2) as [l Hl]. apply (queue_dict load_ok reg_ok more own_env own_conf x0 ha D2 w). rewrite Hl. left. reflexivity. }
    assert (Runs2 : runs_handlers (more w) rsp = true).
    { unfold runs_handlers. apply forallb_forall. intros [k j] Hin. cbn [fst snd]. unfold acceptable.
      destruct (eq_dec k "env") as [->|Ne].
      { apply In_dget in Hin; [|exact Drsp]. rewrite R1 in Hin. injection Hin as <-. reflexivity. }
      destruct (reply_keys (other w) _ _ _ _ _ _ _ Dreq P k j Hin) as [Hr|[j' Hj']].
      - destruct (eq_dec k "config") as [->|]; [discriminate Hr|]. rewrite (more_reserved w k Hr). reflexivity.
      - destruct (eq_dec k k_id) as [->|N1]; [destruct (eq_dec k_id "config") as [E|]; [discriminate E|]; rewrite (more_reserved w k_id eq_refl); reflexivity|].
        destruct (eq_dec k k_log) as [->|N2]; [destruct (eq_dec k_log "config") as [E|]; [discriminate E|]; rewrite (more_reserved w k_log eq_refl); reflexivity|].
        rewrite Hk in Hj' by assumption. cbn in Hj'. destruct (eq_dec k "env"); [congruence|discriminate]. }
    assert (K2 : v_env (known_at (ha ++ [EvDeliver w]) w) <> None).
    { rewrite prun_snoc, (known_deliver ha w rsp D2 Hd2).
      destruct (after_msg_fields (load_ok w) (reg_ok w) (more w) (known_at ha w) rsp) as [-> _].
      destruct (v_env (known_at ha w)); cbn [or_first]; [discriminate|]. unfold env_in. rewrite Runs2, R1, LO. discriminate. }
    destruct (v_env (known_at (ha ++ [EvDeliver w]) w)) as [e1|] eqn:K3; [|congruence].
    assert (Ex : h = (ha ++ [EvDeliver w]) ++ h3) by (rewrite Eh, <- app_assoc; reflexivity).
    rewrite Ex in D |- *. rewrite (proj1 (known_stays load_ok reg_ok more own_env own_conf x0 _ _ w D) _ K3). discriminate.
  Qed.

  (** A call that shared a configuration and returned. *)
  Lemma config_outcome h0 h w r data m : no_sends h -> dicts h ->
    call_after pev psys h0 h w r (share_conf_msg data) -> returns pev psys h w r m ->
    exists h1 h2, h = h1 ++ h2 /\ (exists a, h1 = h0 ++ EvWait w (share_conf_msg data) false :: a) /\
      match v_conf (known_at h1 (other w)) with
      | Some c => v_conf (known_at h (other w)) = Some c
      | None => exists c, dget "config" data = Some c /\ (c <> JNull -> v_conf (known_at h (other w)) = Some c) /\
                (own_conf (other w) <> JNull -> v_conf (known_at h w) <> None)
      end.
  Proof.
    intros NS D HC [z Hq].
    destruct (answered h w r m _ NS D Hq eq_refl) as (h1 & h2 & h3 & req & rsp & Eh & As & Hd1 & Em & Hd2 & [_ Cm]).
    assert (Eh' : h = h1 ++ (EvDeliver (other w) :: h2 ++ EvDeliver w :: h3)) by (rewrite Eh, <- app_assoc; reflexivity).
    destruct (asked_is_call pev _ h0 h w r _ _ h1 z req HC Hq eq_refl (ex_intro _ _ Eh') As) as (Hpre & Hid & Hk).
    exists h1, (EvDeliver (other w) :: h2 ++ EvDeliver w :: h3). split; [exact Eh'|]. split; [exact Hpre|].
    assert (D1 : dicts h1) by (eapply dicts_app; rewrite <- Eh'; exact D).
    destruct (v_conf (known_at h1 (other w))) as [c0|] eqn:Ev.
    { rewrite Eh' in D |- *. exact (proj2 (known_stays load_ok reg_ok more own_env own_conf x0 _ _ (other w) D) _ Ev). }
    assert (Dreq : dict req). { destruct (hd_in _ _ Hd1) as [l Hl]. apply (queue_dict load_ok reg_ok more own_env own_conf x0 h1 D1 (other w)). rewrite Hl. left. reflexivity. }
    destruct (deliver_process _ _ _ _ Hd1 Em) as (st' & s' & ok & P).
    assert (Hconf : dget "config" req = Some (JObj data)) by (rewrite Hk by discriminate; reflexivity).
    destruct (reply_parts _ _ _ _ _ (OK (other w)) _ _ _ _ _ _ _ Dreq (EX (other w)) P) as [_ RE]. destruct (RE data Hconf) as [R1 R2].
    unfold known_to in Ev. rewrite Ev in R1. specialize (R2 Ev). destruct (dget "config" data) as [c|] eqn:Ec; [|congruence].
    exists c. split; [reflexivity|].
    assert (Runs : runs_handlers (more (other w)) req = true).
    { apply (collect_runs (load_ok (other w)) (reg_ok (other w)) (more (other w)) (own_env (other w)) (own_conf (other w))).
      unfold process_json in P. fold (pev (other w)) in P |- *. destruct (collect (pev (other w)) req) as [r0|]; [eauto|discriminate]. }
    assert (K1 : c <> JNull -> v_conf (known_to (sys_step pev (run h1) (EvDeliver (other w))) (other w)) = Some c).
    { intros Nn. rewrite (known_deliver h1 (other w) req D1 Hd1).
      destruct (after_msg_fields (load_ok (other w)) (reg_ok (other w)) (more (other w)) (known_at h1 (other w)) req) as [_ ->].
      unfold known_to. rewrite Ev. cbn [or_first]. unfold conf_in, conf_entry. rewrite Runs, Hconf, Ec. destruct c; congruence. }
    rewrite <- prun_snoc in K1.
    split.
    { intros Nn. assert (Ex : h = (h1 ++ [EvDeliver (other w)]) ++ (h2 ++ EvDeliver w :: h3)) by (rewrite Eh', <- app_assoc; reflexivity).
      rewrite Ex in D |- *. apply (known_stays load_ok reg_ok more own_env own_conf x0 _ _ (other w) D). exact (K1 Nn). }
    set (ha := h1 ++ EvDeliver (other w) :: h2) in *.
    assert (D2 : dicts ha) by (eapply dicts_app; rewrite <- Eh; exact D).
    assert (Drsp : dict rsp). { destruct (hd_in _ _ Hd2) as [l Hl]. apply (queue_dict load_ok reg_ok more own_env own_conf x0 ha D2 w). rewrite Hl. left. reflexivity. }
    assert (Runs2 : runs_handlers (more w) rsp = true).
    { unfold runs_handlers. apply forallb_forall. intros [k j] Hin. cbn [fst snd]. unfold acceptable.
      destruct (eq_dec k "config") as [->|Ne].
      { apply In_dget in Hin; [|exact Drsp]. rewrite R1 in Hin. injection Hin as <-. reflexivity. }
      destruct (reply_keys (other w) _ _ _ _ _ _ _ Dreq P k j Hin) as [Hr|[j' Hj']].
      - destruct (eq_dec k "env") as [->|]; [discriminate Hr|]. rewrite (more_reserved w k Hr). reflexivity.
      - destruct (eq_dec k k_id) as [->|N1]; [destruct (eq_dec k_id "env") as [E|]; [discriminate E|]; rewrite (more_reserved w k_id eq_refl); reflexivity|].
        destruct (eq_dec k k_log) as [->|N2]; [destruct (eq_dec k_log "env") as [E|]; [discriminate E|]; rewrite (more_reserved w k_log eq_refl); reflexivity|].
        rewrite Hk in Hj' by assumption. cbn in Hj'. destruct (eq_dec k "config"); [congruence|discriminate]. }
    intros No. assert (K2 : v_conf (known_at (ha ++ [EvDeliver w]) w) <> None).
    { rewrite prun_snoc, (known_deliver ha w rsp D2 Hd2).
      destruct (after_msg_fields (load_ok w) (reg_ok w) (more w) (known_at ha w) rsp) as [_ ->].
      destruct (v_conf (known_at ha w)); cbn [or_first]; [discriminate|]. unfold conf_in, conf_entry. rewrite Runs2, R1. cbn. destruct (own_conf (other w)); congruence. }
    destruct (v_conf (known_at (ha ++ [EvDeliver w]) w)) as [e1|] eqn:K3; [|congruence].
    assert (Ex : h = (ha ++ [EvDeliver w]) ++ h3) by (rewrite Eh, <- app_assoc; reflexivity).
    rewrite Ex in D |- *. rewrite (proj2 (known_stays load_ok reg_ok more own_env own_conf x0 _ _ w D) _ K3). discriminate.
  Qed.
End Two.
