(** Lemmas for C82 and C83: two connected sides. *)
From Verif Require Import Base BaseLemmas IfaceModel IfaceSpec IfaceProofs IfaceSys IfaceStd IfaceAnswer IfaceProv ExchangeModel ExchangeSpec ExchangeProofs.
From Coq Require Import ZifyBool ZifyNat Lia.
Open Scope string_scope.
Open Scope list_scope.

(** Answers of a side. *)
Section Ans.
  Context {X : Type} (load_ok : msg -> bool) (reg_ok : bool) (more : string -> option (target X))
    (own_env : msg) (own_conf : json).
  Notation ev := (peer_eval load_ok reg_ok more own_env own_conf).
  Context (OK : forall k t, more k = Some t -> t_key t = k /\ reserved k = false).

  Lemma peer_ok k t : ev k = Some t -> t_key t = k /\ reserved k = false.
  Proof.
    unfold peer_eval. destruct (eq_dec k "env") as [->|]; [intros H; injection H as <-; split; reflexivity|].
    destruct (eq_dec k "config") as [->|]; [intros H; injection H as <-; split; reflexivity|].
    destruct (more k) as [u|] eqn:E; [|discriminate]. intros H; injection H as <-. exact (OK _ _ E).
  Qed.

  Lemma gather_subs d : forall ts ig, dict d -> collect ev d = Some (ts, ig) ->
    forall s s' subs, gather s ts = (s', Some subs) ->
    (forall e, dget "env" d = Some (JObj e) ->
       dget "env" subs = Some (if v_env (fst s) then [] else own_env) /\
       (v_env (fst s) = None -> load_ok e = true /\ reg_ok = true)) /\
    (forall o, dget "config" d = Some (JObj o) ->
       dget "config" subs = Some (if v_conf (fst s) then [] else [("config", own_conf)]) /\
       (v_conf (fst s) = None -> dget "config" o <> None)).
  Proof.
    induction d as [|[k j] d IH]; intros ts ig N Hc s s' subs Hg; cbn [collect] in Hc; [split; intros ? H; discriminate H|].
    unfold dict, dkeys in N. cbn in N. inversion N as [|? ? N1 N2]; subst. fold (dkeys d) in N1, N2. fold (dict d) in N2.
    unfold peer_eval in Hc at 1. destruct (eq_dec k "env") as [->|Ne].
    { cbn [on_fst h_env t_prep t_key] in Hc. destruct j; cbn [as_object] in Hc; try discriminate.
      destruct (collect ev d) as [[ts' ig']|]; [|discriminate]. injection Hc as <- <-.
      cbn [gather on_fst t_run] in Hg. destruct s as [p x]. cbn [fst snd] in *. unfold h_env in Hg. cbn [t_run] in Hg.
      specialize (IH _ _ N2 eq_refl). apply dget_None_notin in N1. unfold set_peer_env in Hg.
      destruct p as [ve r c cr]; cbn [v_env v_ready v_conf v_cready] in *.
      assert (G : exists p2 b s2 subs2, gather (p2, x) ts' = (s2, Some subs2) /\ subs = ("env", b) :: subs2 /\ v_conf p2 = c /\
                 b = (if ve then [] else own_env) /\ (ve = None -> load_ok o = true /\ reg_ok = true)).
      { destruct ve as [e|]; [|destruct (load_ok o); [destruct reg_ok|]].
        all: match type of Hg with context [gather ?z ?t] => destruct (gather z t) as [s2 [l|]] eqn:G end; try discriminate.
        all: injection Hg as <- <-; eexists _, _, _, _; (split; [exact G|]); (split; [reflexivity|]); (split; [reflexivity|]);
          (split; [reflexivity|]); intros; try discriminate; auto. }
      destruct G as (p2 & b & s2 & subs2 & G & -> & Hc2 & -> & Hl). destruct (IH _ _ _ G) as [_ B]. cbn [fst] in B. rewrite Hc2 in B. split.
      - intros e He. cbn [dget] in He |- *. destruct (eq_dec "env" "env"); [|congruence]. injection He as <-. split; [reflexivity|exact Hl].
      - intros o2 Ho. cbn [dget] in Ho |- *. destruct (eq_dec "config" "env"); [discriminate|]. apply B. exact Ho. }
    destruct (eq_dec k "config") as [->|Nc].
    { cbn [on_fst h_config t_prep t_key] in Hc. destruct j; cbn [as_object] in Hc; try discriminate.
      destruct (collect ev d) as [[ts' ig']|]; [|discriminate]. injection Hc as <- <-.
      cbn [gather on_fst t_run] in Hg. destruct s as [p x]. cbn [fst snd] in *. unfold h_config in Hg. cbn [t_run] in Hg.
      specialize (IH _ _ N2 eq_refl). apply dget_None_notin in N1.
      destruct p as [ve r c cr]; cbn [v_env v_ready v_conf v_cready] in *.
      assert (G : exists p2 b s2 subs2, gather (p2, x) ts' = (s2, Some subs2) /\ subs = ("config", b) :: subs2 /\ v_env p2 = ve /\
                 b = (if c then [] else [("config", own_conf)]) /\ (c = None -> dget "config" o <> None)).
      { destruct c as [c|]; [|destruct (dget "config" o) as [c|]].
        all: match type of Hg with context [gather ?z ?t] => destruct (gather z t) as [s2 [l|]] eqn:G end; try discriminate.
        all: injection Hg as <- <-; eexists _, _, _, _; (split; [exact G|]); (split; [reflexivity|]); (split; [reflexivity|]);
          (split; [reflexivity|]); intros; discriminate. }
      destruct G as (p2 & b & s2 & subs2 & G & -> & Hc2 & -> & Hl). destruct (IH _ _ _ G) as [B _]. cbn [fst] in B. rewrite Hc2 in B. split.
      - intros o2 Ho. cbn [dget] in Ho |- *. destruct (eq_dec "env" "config"); [discriminate|]. apply B. exact Ho.
      - intros e He. cbn [dget] in He |- *. destruct (eq_dec "config" "config"); [|congruence]. injection He as <-. split; [reflexivity|exact Hl]. }
    assert (D1 : dget "env" ((k, j) :: d) = dget "env" d) by (cbn [dget]; destruct (eq_dec "env" k); [congruence|reflexivity]).
    assert (D2 : dget "config" ((k, j) :: d) = dget "config" d) by (cbn [dget]; destruct (eq_dec "config" k); [congruence|reflexivity]).
    rewrite D1, D2.
    destruct (more k) as [t|] eqn:Em.
    { cbn [on_snd t_prep t_key] in Hc. destruct (t_prep t j) as [ib|]; [|discriminate].
      destruct (collect ev d) as [[ts' ig']|]; [|discriminate]. injection Hc as <- <-.
      cbn [gather on_snd t_run] in Hg. destruct s as [p x]. cbn [fst snd] in *. destruct (t_run t x ib) as [x' ob].
      destruct (gather (p, x') ts') as [s2 o2] eqn:G. destruct ob as [b|]; [|discriminate]. destruct o2 as [l|]; [|discriminate].
      injection Hg as <- <-. destruct (IH _ _ N2 eq_refl _ _ _ G) as [A B]. destruct (OK _ _ Em) as [-> _].
      assert (E1 : dget "env" ((k, b) :: l) = dget "env" l) by (cbn [dget]; destruct (eq_dec "env" k); [congruence|reflexivity]).
      assert (E2 : dget "config" ((k, b) :: l) = dget "config" l) by (cbn [dget]; destruct (eq_dec "config" k); [congruence|reflexivity]).
      rewrite E1, E2. split; assumption. }
    destruct (collect ev d) as [[ts' ig']|]; [|discriminate].
    destruct (reserved k) eqn:Er; injection Hc as <- <-.
    - cbn [gather] in Hg. destruct (gather s ts') as [s2 [l|]] eqn:G; [|discriminate]. injection Hg as <- <-.
      destruct (IH _ _ N2 eq_refl _ _ _ G) as [A B].
      cbn [dget]. destruct (eq_dec "env" k); [congruence|]. destruct (eq_dec "config" k); [congruence|]. split; assumption.
    - exact (IH _ _ N2 eq_refl _ _ _ Hg).
  Qed.

  (** A reply to a message that brings an environment or a configuration. *)
  Lemma reply_parts s st d s' st' m ok : dict d -> own_env <> [] ->
    process_json ev s st d = (s', st', [m], ok) ->
    (forall e, dget "env" d = Some (JObj e) ->
       dget "env" m = (if v_env (fst s) then None else Some (JObj own_env)) /\
       (v_env (fst s) = None -> load_ok e = true /\ reg_ok = true)) /\
    (forall o, dget "config" d = Some (JObj o) ->
       dget "config" m = (if v_conf (fst s) then None else Some (JObj [("config", own_conf)])) /\
       (v_conf (fst s) = None -> dget "config" o <> None)).
  Proof.
    intros N Ho P.
    assert (ok = true) as ->.
    { unfold process_json in P. destruct (collect ev d) as [[ts ig]|]; [|discriminate].
      destruct (gather s ts) as [s1 [subs|]]; [|discriminate].
      destruct (handle_reserved st d (answer subs ig)) as [st1 [[resp [|]]|]]; try discriminate.
      destruct resp; [discriminate|]. destruct (send_json st1 (p :: resp)) as [st2 [m'|]]; [|discriminate]. injection P as _ _ _ <-. reflexivity. }
    assert (NR : not_a_response st d).
    { apply process_cases in P as [_ [P|(m' & _ & NM & _)]]; [discriminate|]. intros z Cz. destruct (dget z (i_waiting st)) as [r|] eqn:W; [|reflexivity].
      destruct (NM z r). split; [apply carries_iff; exact Cz|exact W]. }
    destruct (process_answer ev s st d s' st' [m] N NR P) as (ts & ig & s1 & subs & a & Hc & Hg & A1 & A2 & [[_ H]|(_ & m' & H & Hm)]); [discriminate|].
    injection H as <-.
    destruct (gather_subs d ts ig N Hc s s1 subs Hg) as [E C].
    destruct (subs_facts ev peer_ok s d ts ig s1 subs N Hc Hg) as (NS & _).
    assert (Ha : forall k, k <> k_id -> dget k a = dget k (answer subs ig)).
    { intros k Hk. destruct (dget k_id d) as [j|] eqn:Ed; [rewrite (A2 j eq_refl); apply dget_dset_ne; exact Hk|rewrite (A1 eq_refl); reflexivity]. }
    split.
    - intros e He. destruct (E e He) as [Q R]. split; [|exact R]. rewrite Hm by discriminate. rewrite Ha by discriminate.
      rewrite answer_get by (assumption || discriminate). rewrite Q. destruct (v_env (fst s)); [reflexivity|]. destruct own_env; [congruence|reflexivity].
    - intros o Hx. destruct (C o Hx) as [Q R]. split; [|exact R]. rewrite Hm by discriminate. rewrite Ha by discriminate.
      rewrite answer_get by (assumption || discriminate). rewrite Q. destruct (v_conf (fst s)); reflexivity.
  Qed.

  (** A configuration message without the entry is never answered. *)
  Lemma no_config_no_reply s st d o : dict d -> v_conf (fst s) = None -> dget "config" d = Some (JObj o) -> dget "config" o = None ->
    snd (fst (process_json ev s st d)) = [] /\ snd (process_json ev s st d) = false /\ snd (fst (fst (process_json ev s st d))) = st.
  Proof.
    intros N Hv Hd Ho. unfold process_json. destruct (collect ev d) as [[ts ig]|] eqn:Ec; [|auto].
    destruct (gather s ts) as [s1 [subs|]] eqn:Eg; [|auto].
    destruct (gather_subs d ts ig N Ec s s1 subs Eg) as [_ C]. destruct (C o Hd) as [_ R]. destruct (R Hv Ho).
  Qed.

  Lemma NoDup_dset {K V} {KD : EqDec K} (k : K) (v : V) d : NoDup (dkeys d) -> NoDup (dkeys (dset k v d)).
  Proof.
    intros N. destruct (dget k d) as [w|] eqn:E; [erewrite dkeys_dset_in by exact E; exact N|].
    rewrite dset_notin by exact E. unfold dkeys in *. rewrite map_app. cbn. apply NoDup_app; [exact N|repeat constructor; intros []|].
    intros x Hx [<-|[]]. apply dget_None_notin in E. contradiction.
  Qed.
  Lemma answer_dict subs ig : dict (answer subs ig).
  Proof.
    unfold answer, dict.
    assert (F : forall (l : list (string * msg)) d, NoDup (dkeys d) ->
      NoDup (dkeys (fold_left (fun d (kb : string * msg) => match snd kb with [] => d | _ => dset (fst kb) (JObj (snd kb)) d end) l d))).
    { induction l as [|[k b] l IH]; intros d N; cbn [fold_left fst snd]; [exact N|]. apply IH. destruct b; [exact N|apply NoDup_dset; exact N]. }
    destruct ig; [|apply NoDup_dset]; apply F; constructor.
  Qed.
End Ans.

(** ** Two sides *)
Section Two.
  Context {X : Type} (load_ok : side -> msg -> bool) (reg_ok : side -> bool) (more : side -> string -> option (target X))
    (own_env : side -> msg) (own_conf : side -> json) (x0 : side -> X).
  Definition pev (w : side) := peer_eval (load_ok w) (reg_ok w) (more w) (own_env w) (own_conf w).
  Definition psys : @sys (pst * X) := sys_new (fun w => (p_new, x0 w)).
  Notation run := (sys_run pev psys).
  Definition known_to (y : @sys (pst * X)) (w : side) : pst := fst (fst (sy_if y w)).

  (** Messages are dictionaries. *)
  Definition dicts (h : list sev) : Prop :=
    forall w d f, In (EvWait w d f) h \/ In (EvSend w d f) h -> dict d.

  Lemma send_json_dict st d st' m : send_json st d = (st', Some m) -> dict d -> dict m.
  Proof.
    unfold send_json. destruct (i_logs st); [intros H; injection H as <- <-; auto|].
    destruct (dmem k_log d); intros H; [discriminate|]. injection H as <- <-. apply NoDup_dset.
  Qed.

  Lemma emitted_dict (y : @sys (pst * X)) e : (forall w d f, e = EvWait w d f \/ e = EvSend w d f -> dict d) ->
    forall m, In m (emitted pev y e) -> dict m.
  Proof.
    intros De m Hm. destruct e as [w x|w d f|w d f|w r|w r|w]; cbn [emitted] in Hm.
    - destruct (sy_if y w). destruct Hm.
    - assert (D : dict d) by (apply (De w d f); auto). destruct (sy_if y w) as [s st]. cbn [step] in Hm. unfold wait_json in Hm.
      destruct (dmem k_id d); [destruct Hm|]. cbn [id_next] in Hm. cbn [i_waiting] in Hm. destruct (dmem _ (i_waiting st)); [destruct Hm|].
      match type of Hm with context [send_json ?a ?b] => destruct (send_json a b) as [st2 [o|]] eqn:E end; [destruct f|]; try destruct Hm as [<-|[]].
      + destruct Hm.
      + eapply send_json_dict; [exact E|]. apply NoDup_dset. exact D.
      + destruct Hm.
    - assert (D : dict d) by (apply (De w d f); auto). destruct (sy_if y w) as [s st]. cbn [step] in Hm.
      destruct (send_json st d) as [st2 [o|]] eqn:E; [destruct f|]; cbn in Hm; try tauto. destruct Hm as [<-|[]].
      eapply send_json_dict; eauto.
    - destruct Hm.
    - destruct Hm.
    - destruct (sy_in y w) as [|q rest]; [destruct Hm|]. destruct (sy_if y w) as [s st]. cbn [step] in Hm.
      unfold process_json in Hm. destruct (collect (pev w) q) as [[ts ig]|]; [|destruct Hm].
      destruct (gather s ts) as [s1 [subs|]]; [|destruct Hm].
      destruct (handle_reserved st q (answer subs ig)) as [st1 [[resp b]|]] eqn:HR; [|destruct Hm].
      destruct b; [|destruct Hm]. destruct resp as [|kv resp]; [destruct Hm|].
      destruct (send_json st1 (kv :: resp)) as [st2 [o|]] eqn:E; cbn in Hm; [|tauto]. destruct Hm as [<-|[]].
      eapply send_json_dict; [exact E|].
      apply reserved_cases in HR as [_ [(_ & _ & _ & _ & [H|(resp' & H & A & B)])|(? & ? & ? & _ & _ & _ & _ & _ & [H|(? & H)])]]; try discriminate.
      injection H as <-. destruct (dget k_id q) as [j|].
      + rewrite (B j eq_refl). apply NoDup_dset. apply answer_dict.
      + rewrite (A eq_refl). apply answer_dict.
  Qed.

  (** Queues are first in, first out. *)
  Lemma step_queues y e w :
    sy_in y w ++ (if side_eqb (actor e) (other w) then emitted pev y e else []) =
    (match e with EvDeliver v => if side_eqb v w then firstn 1 (sy_in y w) else [] | _ => [] end) ++ sy_in (sys_step pev y e) w.
  Proof.
    destruct (step_shape pev y e) as (_ & F2 & F3). remember (actor e) as v eqn:Ev.
    destruct (side_cases w v) as [->| ->].
    - assert (side_eqb v (other v) = false) as -> by (destruct v; reflexivity). rewrite app_nil_r.
      destruct F3 as [(m & rest & -> & Hin & Hin' & _)|[(o & Ho & Hin' & _)|(-> & H & _)]].
      + assert (side_eqb v v = true) as -> by (destruct v; reflexivity). rewrite Hin, Hin'. reflexivity.
      + rewrite Hin'. destruct e; try reflexivity. cbn [actor] in Ev. subst w.
        destruct (sy_in y v) as [|m rest] eqn:E; [destruct (side_eqb v v); reflexivity|].
        exfalso. cbn [sys_step] in Hin'. rewrite E in Hin'. set (y1 := mkSys _ _) in Hin'.
        destruct (step (pev v) (sy_if y1 v) (ORecv m)) as [[x out] ok] eqn:Es.
        destruct (local_fields pev y1 v _ _ _ _ Es) as (_ & _ & F & _). rewrite F in Hin'. cbn [y1 sy_in] in Hin'. rewrite fupd_eq in Hin'.
        clear - Hin'. revert m Hin'. induction rest as [|a l IH]; intros m H; [discriminate|]. injection H as -> H. eapply IH; eauto.
      + rewrite H. destruct (side_eqb v v) eqn:Es; [|reflexivity]. cbn [sys_step] in H.
        destruct (sy_in y v) as [|m rest] eqn:E; [reflexivity|]. exfalso.
        set (y1 := mkSys (sy_if y) (fupd (sy_in y) v rest)) in H. pose proof (f_equal (fun y => sy_in y v) H) as K. cbn beta in K.
        destruct (step (pev v) (sy_if y1 v) (ORecv m)) as [[x out] ok] eqn:Es'.
        destruct (local_fields pev y1 v _ _ _ _ Es') as (_ & _ & F & _). rewrite F in K. cbn [y1 sy_in] in K. rewrite fupd_eq, E in K.
        clear - K. revert m K. induction rest as [|a l IH]; intros m H; [discriminate|]. injection H as -> H. eapply IH; eauto.
    - rewrite other_other. assert (side_eqb v v = true) as -> by (destruct v; reflexivity). rewrite F2.
      destruct e; try reflexivity. cbn [actor] in Ev. subst w. destruct v; reflexivity.
  Qed.

  Lemma got_sent h : forall y w, got pev w y h ++ sy_in (sys_run pev y h) w = sy_in y w ++ sent_by pev (other w) y h.
  Proof.
    induction h as [|e h IH]; intros y w; [cbn; rewrite app_nil_r; reflexivity|].
    unfold sys_run. cbn [fold_left got sent_by]. fold (sys_run pev (sys_step pev y e) h).
    rewrite <- app_assoc, IH, app_assoc, <- step_queues, <- app_assoc. destruct e; reflexivity.
  Qed.

  Lemma prun_snoc h e : run (h ++ [e]) = sys_step pev (run h) e.
  Proof. unfold sys_run. rewrite fold_left_app. reflexivity. Qed.

  Lemma queue_dict h : dicts h -> forall w m, In m (sy_in (run h) w) -> dict m.
  Proof.
    induction h as [|e h IH] using rev_ind; intros D w m Hm; [destruct Hm|].
    rewrite prun_snoc in Hm. pose proof (step_queues (run h) e w) as Q.
    assert (In m (sy_in (run h) w ++ (if side_eqb (actor e) (other w) then emitted pev (run h) e else []))) as H.
    { rewrite Q. apply in_app_iff. auto. }
    apply in_app_iff in H as [H|H].
    - apply (IH (fun v d f K => D v d f (match K with or_introl a => or_introl (in_or_app _ _ _ (or_introl a)) | or_intror a => or_intror (in_or_app _ _ _ (or_introl a)) end)) w m H).
    - destruct (side_eqb _ _); [|destruct H]. eapply emitted_dict; [|exact H].
      intros v d f [->| ->]; apply (D v d f); [left|right]; apply in_app_iff; right; left; reflexivity.
  Qed.

  Lemma step_known y e w : (forall m, In m (sy_in y w) -> dict m) ->
    known_to (sys_step pev y e) w =
    match e with
    | EvDeliver v => if side_eqb v w then match sy_in y w with [] => known_to y w | m :: _ => after_msg (load_ok w) (reg_ok w) (more w) (known_to y w) m end
                     else known_to y w
    | _ => known_to y w
    end.
  Proof.
    intros D. unfold known_to.
    assert (L : forall (y : @sys (pst * X)) v o, (forall d, o <> ORecv d) -> fst (fst (sy_if (local pev y v o) w)) = fst (fst (sy_if y w))).
    { intros y1 v o Ho. destruct (step (pev v) (sy_if y1 v) o) as [[x out] ok] eqn:Es.
      destruct (local_fields pev y1 v _ _ _ _ Es) as (F1 & F2 & _). destruct (side_cases w v) as [->| ->]; [|rewrite F2; reflexivity].
      rewrite F1. pose proof (step_after (load_ok v) (reg_ok v) (more v) (own_env v) (own_conf v) (sy_if y1 v) o) as S.
      unfold step_st in S. fold (pev v) in S. rewrite Es in S. cbn [fst] in S. rewrite S by (intros d E; destruct (Ho d E)).
      destruct o; try reflexivity. destruct (Ho d eq_refl). }
    destruct e as [v x|v d f|v d f|v r|v r|v]; try (apply L; intros; discriminate).
    cbn [sys_step]. destruct (side_cases w v) as [->| ->].
    - assert (side_eqb v v = true) as -> by (destruct v; reflexivity). destruct (sy_in y v) as [|m rest] eqn:E; [reflexivity|].
      set (y1 := mkSys _ _). destruct (step (pev v) (sy_if y1 v) (ORecv m)) as [[x out] ok] eqn:Es.
      destruct (local_fields pev y1 v _ _ _ _ Es) as (F1 & _). rewrite F1.
      pose proof (step_after (load_ok v) (reg_ok v) (more v) (own_env v) (own_conf v) (sy_if y1 v) (ORecv m)) as S.
      unfold step_st in S. fold (pev v) in S. rewrite Es in S. cbn [fst] in S. rewrite S; [reflexivity|].
      intros d Ed. injection Ed as <-. apply D. left. reflexivity.
    - assert (side_eqb v (other v) = false) as -> by (destruct v; reflexivity). destruct (sy_in y v) as [|m rest]; [reflexivity|].
      set (y1 := mkSys _ _). destruct (step (pev v) (sy_if y1 v) (ORecv m)) as [[x out] ok] eqn:Es.
      destruct (local_fields pev y1 v _ _ _ _ Es) as (_ & F2 & _). rewrite F2. reflexivity.
  Qed.

  Lemma dicts_snoc h e : dicts (h ++ [e]) -> dicts h /\ (forall w d f, e = EvWait w d f \/ e = EvSend w d f -> dict d).
  Proof.
    intros D. split.
    - intros w d f [K|K]; apply (D w d f); [left|right]; apply in_app_iff; auto.
    - intros w d f [->| ->]; apply (D w d f); [left|right]; apply in_app_iff; right; left; reflexivity.
  Qed.
  Lemma dicts_app a b : dicts (a ++ b) -> dicts a.
  Proof. intros D w d f [K|K]; apply (D w d f); [left|right]; apply in_app_iff; auto. Qed.

  Lemma got_snoc h e w y : got pev w y (h ++ [e]) = got pev w y h ++
    match e with EvDeliver v => if side_eqb v w then firstn 1 (sy_in (sys_run pev y h) w) else [] | _ => [] end.
  Proof.
    revert y. induction h as [|x h IH]; intros y; cbn [app got]; [rewrite app_nil_r; reflexivity|].
    rewrite IH, <- app_assoc. reflexivity.
  Qed.

  Lemma known_got h w : dicts h ->
    v_env (known_to (run h) w) = first_of (env_in (load_ok w) (more w)) (got pev w psys h) /\
    v_conf (known_to (run h) w) = first_of (conf_in (more w)) (got pev w psys h) /\
    ready_ok (reg_ok w) (known_to (run h) w).
  Proof.
    induction h as [|e h IH] using rev_ind; intros D; [cbn; repeat split; cbn; congruence|].
    destruct (dicts_snoc _ _ D) as [Dh De]. destruct (IH Dh) as (A & B & C).
    rewrite prun_snoc, step_known by (intros m Hm; eapply queue_dict; eauto). rewrite got_snoc, !first_of_app.
    assert (Keep : v_env (known_to (run h) w) = or_first (first_of (env_in (load_ok w) (more w)) (got pev w psys h)) None /\
                   v_conf (known_to (run h) w) = or_first (first_of (conf_in (more w)) (got pev w psys h)) None /\
                   ready_ok (reg_ok w) (known_to (run h) w)).
    { rewrite <- A, <- B. split; [destruct (v_env _); reflexivity|]. split; [destruct (v_conf _); reflexivity|exact C]. }
    destruct e as [v x|v d f|v d f|v r|v r|v]; cbn [first_of]; try exact Keep.
    destruct (side_eqb v w); cbn [first_of firstn]; [|exact Keep].
    destruct (sy_in (run h) w) as [|m rest]; cbn [first_of firstn]; [exact Keep|].
    destruct (after_msg_fields (load_ok w) (reg_ok w) (more w) (known_to (run h) w) m) as [F1 F2]. rewrite F1, F2, A, B.
    split; [destruct (env_in _ _ m); reflexivity|]. split; [destruct (conf_in _ m); reflexivity|]. apply ready_after. exact C.
  Qed.

  Lemma known_stays h h' w : dicts (h ++ h') ->
    (forall e, v_env (known_to (run h) w) = Some e -> v_env (known_to (run (h ++ h')) w) = Some e) /\
    (forall c, v_conf (known_to (run h) w) = Some c -> v_conf (known_to (run (h ++ h')) w) = Some c).
  Proof.
    induction h' as [|e h' IH] using rev_ind; intros D; [rewrite app_nil_r; auto|].
    rewrite app_assoc in D |- *. destruct (dicts_snoc _ _ D) as [Dh _]. destruct (IH Dh) as [A B].
    rewrite prun_snoc, step_known by (intros m Hm; eapply queue_dict; eauto).
    assert (K : forall m, (forall e0, v_env (known_to (run (h ++ h')) w) = Some e0 -> v_env (after_msg (load_ok w) (reg_ok w) (more w) (known_to (run (h ++ h')) w) m) = Some e0) /\
                (forall e0, v_conf (known_to (run (h ++ h')) w) = Some e0 -> v_conf (after_msg (load_ok w) (reg_ok w) (more w) (known_to (run (h ++ h')) w) m) = Some e0)).
    { intros m. destruct (after_msg_fields (load_ok w) (reg_ok w) (more w) (known_to (run (h ++ h')) w) m) as [-> ->].
      split; intros e0 ->; reflexivity. }
    split; intros e0 H; [apply A in H|apply B in H]; destruct e; auto;
      (destruct (side_eqb _ _); [|exact H]); (destruct (sy_in _ _) as [|m rest]; [exact H|]); apply K; exact H.
  Qed.
End Two.
