(** Lemmas for C82 and C83: one side. *)
From Verif Require Import Base BaseLemmas IfaceModel IfaceSpec IfaceProofs IfaceSys IfaceStd IfaceAnswer IfaceProv ExchangeModel ExchangeSpec.
From Coq Require Import ZifyBool ZifyNat Lia.
Open Scope string_scope.
Open Scope list_scope.

Definition or_first {A} (a b : option A) : option A := match a with Some _ => a | None => b end.

Section One.
  Context {X : Type} (load_ok : msg -> bool) (reg_ok : bool) (more : string -> option (target X))
    (own_env : msg) (own_conf : json).
  Notation ev := (peer_eval load_ok reg_ok more own_env own_conf).
  Notation env_in := (env_in load_ok more).
  Notation conf_in := (conf_in more).

  Lemma collect_runs d : (exists r, collect ev d = Some r) <-> runs_handlers more d = true.
  Proof.
    induction d as [|[k j] d IH]; cbn [collect]; unfold runs_handlers; cbn [forallb fst snd].
    - split; eauto.
    - fold (runs_handlers more d). rewrite andb_true_iff. unfold peer_eval at 1. unfold acceptable.
      destruct (eq_dec k "env") as [->|].
      { cbn [on_fst h_env t_prep t_key]. destruct j; cbn [as_object]; split; try (intros [r H]; discriminate); try (intros [H _]; discriminate).
        - intros [r H]. split; [reflexivity|]. apply IH. destruct (collect ev d); [eauto|discriminate].
        - intros [_ H]. apply IH in H as [[ts ig] ->]. eauto. }
      destruct (eq_dec k "config") as [->|].
      { cbn [on_fst h_config t_prep t_key]. destruct j; cbn [as_object]; split; try (intros [r H]; discriminate); try (intros [H _]; discriminate).
        - intros [r H]. split; [reflexivity|]. apply IH. destruct (collect ev d); [eauto|discriminate].
        - intros [_ H]. apply IH in H as [[ts ig] ->]. eauto. }
      destruct (more k) as [t|].
      { cbn [on_snd t_prep t_key]. destruct (t_prep t j); split; try (intros [r H]; discriminate); try (intros [H _]; discriminate).
        - intros [r H]. split; [reflexivity|]. apply IH. destruct (collect ev d); [eauto|discriminate].
        - intros [_ H]. apply IH in H as [[ts ig] ->]. eauto. }
      split.
      + intros [r H]. split; [reflexivity|]. apply IH. destruct (collect ev d); [eauto|discriminate].
      + intros [_ H]. apply IH in H as [[ts ig] ->]. destruct (reserved k); eauto.
  Qed.

  (** What one message does to what is known. *)
  Definition env_val (d : msg) : option msg :=
    match dget "env" d with Some (JObj e) => if load_ok e then Some e else None | _ => None end.
  Definition conf_val (d : msg) : option json :=
    match dget "config" d with Some (JObj o) => dget "config" o | _ => None end.
  Definition conf_got (d : msg) : option json := match conf_val d with Some c => stored c | None => None end.

  Definition after (p : pst) (d : msg) : pst :=
    mkPst (or_first (v_env p) (env_val d))
      (match v_env p with Some _ => v_ready p | None => match env_val d with Some _ => if reg_ok then true else v_ready p | None => v_ready p end end)
      (or_first (v_conf p) (conf_got d))
      (match v_conf p with Some _ => v_cready p | None => match conf_val d with Some _ => true | None => v_cready p end end).

  Lemma env_val_none d : dget "env" d = None -> env_val d = None.
  Proof. unfold env_val. intros ->. reflexivity. Qed.
  Lemma conf_val_none d : dget "config" d = None -> conf_val d = None.
  Proof. unfold conf_val. intros ->. reflexivity. Qed.
  Lemma env_val_cons k j d : k <> "env" -> env_val ((k, j) :: d) = env_val d.
  Proof. unfold env_val. cbn [dget]. intros H. destruct (eq_dec "env" k); [congruence|reflexivity]. Qed.
  Lemma conf_val_cons k j d : k <> "config" -> conf_val ((k, j) :: d) = conf_val d.
  Proof. unfold conf_val. cbn [dget]. intros H. destruct (eq_dec "config" k); [congruence|reflexivity]. Qed.

  Lemma gather_after d : forall ts ig, dict d -> collect ev d = Some (ts, ig) ->
    forall s, fst (fst (gather s ts)) = after (fst s) d.
  Proof.
    induction d as [|[k j] d IH]; intros ts ig N Hc s; cbn [collect] in Hc.
    - injection Hc as <- <-. cbn [gather fst]. destruct s as [p x]. cbn [fst]. unfold after, or_first, env_val, conf_got, conf_val. cbn [dget].
      destruct p as [[e|] r [c|] cr]; reflexivity.
    - unfold dict, dkeys in N. cbn in N. inversion N as [|? ? N1 N2]; subst. fold (dkeys d) in N1, N2. fold (dict d) in N2.
      unfold peer_eval in Hc at 1. destruct (eq_dec k "env") as [->|Ne].
      { cbn [on_fst h_env t_prep t_key] in Hc. destruct j; cbn [as_object] in Hc; try discriminate.
        destruct (collect ev d) as [[ts' ig']|]; [|discriminate]. injection Hc as <- <-.
        cbn [gather on_fst t_run]. destruct s as [p x]. cbn [fst snd].
        apply dget_None_notin in N1. pose proof (env_val_none _ N1) as Ev.
        assert (Ec : conf_val (("env", JObj o) :: d) = conf_val d) by (apply conf_val_cons; discriminate).
        assert (Ee : env_val (("env", JObj o) :: d) = if load_ok o then Some o else None).
        { unfold env_val. cbn [dget]. destruct (eq_dec "env" "env"); [reflexivity|congruence]. }
        unfold h_env. cbn [t_run]. unfold set_peer_env.
        specialize (IH _ _ N2 eq_refl). unfold after, conf_got in IH. unfold after, conf_got. rewrite Ee, Ec.
        destruct p as [[e|] r c cr]; cbn [v_env v_ready v_conf v_cready] in *.
        - match goal with |- context [gather ?z ts'] => specialize (IH z); destruct (gather z ts') as [s2 o2] end.
          cbn [fst] in IH |- *. rewrite IH. cbn [v_env v_ready v_conf v_cready or_first]. reflexivity.
        - destruct (load_ok o); [destruct reg_ok|].
          all: match goal with |- context [gather ?z ?t] => specialize (IH z); destruct (gather z t) as [s2 o2] end.
          all: cbn [fst] in IH |- *; rewrite IH; cbn [v_env v_ready v_conf v_cready or_first]; rewrite ?Ev; reflexivity. }
      destruct (eq_dec k "config") as [->|Nc].
      { cbn [on_fst h_config t_prep t_key] in Hc. destruct j; cbn [as_object] in Hc; try discriminate.
        destruct (collect ev d) as [[ts' ig']|]; [|discriminate]. injection Hc as <- <-.
        cbn [gather on_fst t_run]. destruct s as [p x]. cbn [fst snd].
        apply dget_None_notin in N1. pose proof (conf_val_none _ N1) as Ev.
        assert (Ec : env_val (("config", JObj o) :: d) = env_val d) by (apply env_val_cons; discriminate).
        assert (Ee : conf_val (("config", JObj o) :: d) = dget "config" o).
        { unfold conf_val. cbn [dget]. destruct (eq_dec "config" "config"); [reflexivity|congruence]. }
        unfold h_config. cbn [t_run].
        specialize (IH _ _ N2 eq_refl). unfold after, conf_got in IH. unfold after, conf_got. rewrite Ee, Ec.
        destruct p as [e r [c|] cr]; cbn [v_env v_ready v_conf v_cready] in *.
        - match goal with |- context [gather ?z ts'] => specialize (IH z); destruct (gather z ts') as [s2 o2] end.
          cbn [fst] in IH |- *. rewrite IH. cbn [v_env v_ready v_conf v_cready or_first]. reflexivity.
        - destruct (dget "config" o) as [[]|]; cbn [stored].
          all: match goal with |- context [gather ?z ?t] => specialize (IH z); destruct (gather z t) as [s2 o2] end.
          all: cbn [fst] in IH |- *; rewrite IH; cbn [v_env v_ready v_conf v_cready or_first]; rewrite ?Ev; reflexivity. }
      unfold after, conf_got. rewrite (env_val_cons k j d Ne), (conf_val_cons k j d Nc). fold (conf_got d). fold (after (fst s) d).
      destruct (more k) as [t|].
      { cbn [on_snd t_prep t_key] in Hc. destruct (t_prep t j) as [ib|]; [|discriminate].
        destruct (collect ev d) as [[ts' ig']|]; [|discriminate]. injection Hc as <- <-.
        cbn [gather on_snd t_run]. destruct s as [p x]. cbn [fst snd]. destruct (t_run t x ib) as [x' ob].
        specialize (IH _ _ N2 eq_refl (p, x')). destruct (gather (p, x') ts') as [s2 o2]. exact IH. }
      destruct (collect ev d) as [[ts' ig']|]; [|discriminate].
      destruct (reserved k); injection Hc as <- <-.
      + specialize (IH _ _ N2 eq_refl s). cbn [gather]. destruct (gather s ts') as [s2 o2]. exact IH.
      + exact (IH _ _ N2 eq_refl s).
  Qed.

  Definition after_msg (p : pst) (d : msg) : pst := if runs_handlers more d then after p d else p.

  Lemma process_after s st d : dict d -> fst (fst (fst (fst (process_json ev s st d)))) = after_msg (fst s) d.
  Proof.
    intros N. unfold process_json, after_msg.
    destruct (collect ev d) as [[ts ig]|] eqn:Ec.
    - rewrite (proj1 (collect_runs d)) by eauto.
      pose proof (gather_after d ts ig N Ec s) as G. destruct (gather s ts) as [s1 [subs|]]; cbn [fst] in G; [|exact G].
      destruct (handle_reserved st d (answer subs ig)) as [st1 [[resp [|]]|]]; try exact G.
      destruct resp; [exact G|]. destruct (send_json st1 (p :: resp)) as [st2 [m|]]; exact G.
    - destruct (runs_handlers more d) eqn:R; [|reflexivity]. apply collect_runs in R as [r R]. rewrite Ec in R. discriminate.
  Qed.

  Lemma step_after x o : (forall d, o = ORecv d -> dict d) ->
    fst (fst (step_st ev x o)) = match o with ORecv d => after_msg (fst (fst x)) d | _ => fst (fst x) end.
  Proof.
    intros N. unfold step_st. destruct x as [s st]. destruct o; cbn [step fst].
    - reflexivity.
    - destruct (send_json st d) as [st' [m|]]; [destruct fail|]; reflexivity.
    - destruct (wait_json st d fail) as [[st' out] ok]. reflexivity.
    - pose proof (process_after s st d (N d eq_refl)) as P.
      destruct (process_json ev s st d) as [[[s' st'] out] ok]. exact P.
    - reflexivity.
    - reflexivity.
  Qed.

  Lemma after_msg_fields p d : v_env (after_msg p d) = or_first (v_env p) (env_in d) /\
    v_conf (after_msg p d) = or_first (v_conf p) (conf_in d).
  Proof.
    unfold after_msg, ExchangeSpec.env_in, ExchangeSpec.conf_in, conf_entry. destruct (runs_handlers more d).
    { split; [reflexivity|]. unfold after, conf_got. cbn [v_conf]. fold (conf_val d). destruct (conf_val d) as [[]|]; reflexivity. }
    destruct p as [[e|] r [c|] cr]; split; reflexivity.
  Qed.

  (** What is ready follows what is known. *)
  Definition ready_ok (p : pst) : Prop :=
    v_ready p = (if v_env p then reg_ok else false) /\ (v_conf p <> None -> v_cready p = true).
  Lemma ready_after p d : ready_ok p -> ready_ok (after_msg p d).
  Proof.
    intros [A B]. unfold after_msg. destruct (runs_handlers more d); [|split; assumption].
    unfold ready_ok, after. cbn [v_ready v_env v_conf v_cready]. destruct (v_env p); cbn [or_first].
    - split; [exact A|]. destruct (v_conf p); cbn [or_first]; [exact B|]. unfold conf_got. destruct (conf_val d); [reflexivity|congruence].
    - split.
      + destruct (env_val d); [destruct reg_ok; [reflexivity|exact A]|exact A].
      + destruct (v_conf p); cbn [or_first]; [exact B|]. unfold conf_got. destruct (conf_val d); [reflexivity|congruence].
  Qed.
  Definition has_entry (d : msg) : bool := match conf_entry more d with Some _ => true | None => false end.
  Lemma cready_after p d : ready_ok p -> v_cready (after_msg p d) = v_cready p || has_entry d.
  Proof.
    intros [_ B]. unfold after_msg, has_entry, conf_entry. destruct (runs_handlers more d); [|rewrite orb_false_r; reflexivity].
    unfold after. cbn [v_cready]. fold (conf_val d). destruct (v_conf p); [rewrite B by discriminate; reflexivity|].
    destruct (conf_val d); [rewrite orb_true_r|rewrite orb_false_r]; reflexivity.
  Qed.

  Lemma first_of_app {A} (f : msg -> option A) a b : first_of f (a ++ b) = or_first (first_of f a) (first_of f b).
  Proof. induction a as [|d a IH]; cbn; [reflexivity|]. destruct (f d); [reflexivity|exact IH]. Qed.
  Lemma or_first_assoc {A} (a b c : option A) : or_first (or_first a b) c = or_first a (or_first b c).
  Proof. destruct a; reflexivity. Qed.

  Lemma run_after ops : forall x, (forall d, In d (received ops) -> dict d) ->
    v_env (fst (fst (run ev x ops))) = or_first (v_env (fst (fst x))) (first_of env_in (received ops)) /\
    v_conf (fst (fst (run ev x ops))) = or_first (v_conf (fst (fst x))) (first_of conf_in (received ops)) /\
    (ready_ok (fst (fst x)) -> ready_ok (fst (fst (run ev x ops))) /\
       v_cready (fst (fst (run ev x ops))) = v_cready (fst (fst x)) || existsb has_entry (received ops)).
  Proof.
    induction ops as [|o ops IH]; intros x N.
    - cbn. rewrite orb_false_r. destruct (fst (fst x)) as [[e|] r [c|] cr]; auto.
    - unfold run. cbn [fold_left]. fold (run ev (step_st ev x o) ops).
      assert (N' : forall d, In d (received ops) -> dict d).
      { intros d H. apply N. destruct o; cbn; auto. }
      destruct (IH (step_st ev x o) N') as (A & B & C).
      pose proof (step_after x o) as St. rewrite A, B.
      destruct o; try (rewrite St in * by (intros; discriminate); auto).
      rewrite St in * by (intros d0 E; injection E as <-; apply N; left; reflexivity).
      cbn [received first_of]. destruct (after_msg_fields (fst (fst x)) d) as [F1 F2]. rewrite F1, F2.
      split; [rewrite or_first_assoc; destruct (env_in d); reflexivity|].
      split; [rewrite or_first_assoc; destruct (conf_in d); reflexivity|].
      intros R. destruct (C (ready_after _ d R)) as [C1 C2]. split; [exact C1|]. rewrite C2, (cready_after _ _ R), <- orb_assoc. reflexivity.
  Qed.
End One.
