(** Lemmas about registration (ConfigModel). *)
From Coq Require Import ZifyBool ZifyNat Lia.
From Verif Require Import Base BaseLemmas ConfigModel ConfigSpec.

Section Claims.
  Context {conn info : Type}.
  Context (full : list string -> string) (snake : string -> string).
  Context (make : string -> string -> info -> option conn) (serve : string -> info -> bool).
  Notation arb := (@arb conn info).
  Notation run := (a_run full snake make serve).
  Notation step := (a_step full snake make serve).
  Notation claims := (claims full snake make serve).
  Notation claim := (claim full make).

  Definition taken (a : arb) (n : string) : bool := dmem n (a_conns a) || dmem n (a_defer a).

  (** What a name resolves to. *)
  Definition holds (a : arb) (n : string) (o : option (@object conn)) : Prop :=
    match o with
    | None => dget n (a_conns a) = None /\ dget n (a_defer a) = None
    | Some (Now c) => dget n (a_conns a) = Some c /\ dget n (a_defer a) = None
    | Some (Later r) =>
        dget n (a_defer a) = Some r /\
        (dget n (a_conns a) = None \/ (r <> None /\ dget n (a_conns a) = r))
    end.

  Definition AInv (a : arb) (cl : list (string * object)) : Prop :=
    (forall n, holds a n (dget n cl)) /\
    a_queue a = dvals (a_conns a) /\ NoDup (dkeys (a_conns a)) /\ NoDup (dkeys (a_defer a)) /\
    (a_awaited a = false -> forall n, dget n (a_conns a) = None \/ dget n (a_defer a) = None).

  Lemma ainv_init t : AInv (arb_init t) [].
  Proof.
    unfold AInv, arb_init, holds; cbn. repeat split; try constructor; auto.
  Qed.

  Lemma nodup_snoc {A} (l : list A) x : NoDup l -> ~ In x l -> NoDup (l ++ [x]).
  Proof.
    induction l as [|y l IH]; cbn; intros N I; [constructor; [intros []|constructor]|].
    inversion N; subst. constructor; [rewrite in_app_iff; cbn; intuition congruence|]. apply IH; tauto.
  Qed.

  Lemma taken_claimed a cl n : AInv a cl -> taken a n = dmem n cl.
  Proof.
    intros (H & _). specialize (H n). unfold taken, dmem.
    destruct (dget n cl) as [[c|r]|]; cbn in H; destruct H as [H1 H2]; rewrite ?H1, ?H2;
      [reflexivity|rewrite orb_true_r; reflexivity|reflexivity].
  Qed.

  Lemma same_inv (a a' : arb) cl : AInv a cl -> a_conns a' = a_conns a -> a_defer a' = a_defer a ->
    a_awaited a' = a_awaited a -> a_queue a' = a_queue a -> AInv a' cl.
  Proof.
    unfold AInv, holds. intros (H1 & H2 & H3 & H4 & H5) E1 E2 E3 E4. rewrite E1, E2, E3, E4.
    repeat split; auto.
  Qed.

  Lemma reg_inv a cl names o : AInv a cl ->
    AInv (fst (register_connection full names o a)) (cl ++ [(full names, o)]) /\
    snd (register_connection full names o a) = negb (dmem (full names) cl).
  Proof.
    intros I. pose proof (taken_claimed a cl (full names) I) as T. unfold register_connection.
    set (n := full names) in *.
    destruct I as (H & Hq & Hn & Hd & Hw).
    rewrite <- T. unfold taken.
    destruct (dmem n (a_conns a)) eqn:M1; [|destruct (dmem n (a_defer a)) eqn:M2].
    1,2: cbn [negb andb orb fst snd]; split; [|reflexivity];
      split; [|auto]; intros k; rewrite dget_app; specialize (H k);
      destruct (dget k cl) eqn:G; [exact H|]; cbn [dget];
      destruct (eq_dec k n) as [->|]; [|exact H];
      exfalso; cbn in H; destruct H as [H1 H2]; unfold dmem in *; rewrite ?H1, ?H2 in *; discriminate.
    cbn [negb andb orb fst snd]. split; [|reflexivity].
    apply dmem_false in M1, M2.
    assert (NC : dget n cl = None).
    { specialize (H n). destruct (dget n cl) as [[c|r]|]; [|  |reflexivity]; cbn in H; destruct H; congruence. }
    destruct o as [c|r]; cbn [put_conn].
    - unfold put_conn; split; [|split; [|split; [|split]]]; cbn [a_conns a_defer a_awaited a_queue].
      + intros k. rewrite dget_app. specialize (H k). cbn [dget]. unfold holds in *. cbn [a_conns a_defer].
        destruct (eq_dec k n) as [->|Ne].
        * rewrite NC. rewrite dget_dset_eq. auto.
        * rewrite dget_dset_ne by exact Ne. destruct (dget k cl); exact H.
      + rewrite dset_notin by exact M1. unfold dvals. rewrite map_app. cbn. rewrite Hq. reflexivity.
      + rewrite dset_notin by exact M1. rewrite dkeys_app. apply nodup_snoc; [exact Hn|].
        apply dget_None_notin. exact M1.
      + exact Hd.
      + intros W k. destruct (eq_dec k n) as [->|Ne]; [right; exact M2|]. rewrite dget_dset_ne by exact Ne. auto.
    - split; [|split; [|split; [|split]]]; cbn [a_conns a_defer a_awaited a_queue].
      + intros k. rewrite dget_app. specialize (H k). cbn [dget]. unfold holds in *. cbn [a_conns a_defer].
        destruct (eq_dec k n) as [->|Ne].
        * rewrite NC. rewrite dget_dset_eq. auto.
        * rewrite dget_dset_ne by exact Ne. destruct (dget k cl); exact H.
      + exact Hq.
      + exact Hn.
      + rewrite dset_notin by exact M2. rewrite dkeys_app. apply nodup_snoc; [exact Hd|].
        apply dget_None_notin. exact M2.
      + intros W k. destruct (eq_dec k n) as [->|Ne]; [left; exact M1|]. rewrite dget_dset_ne by exact Ne. auto.
  Qed.

  Definition now_of (d : list (string * option conn)) : list (string * conn) :=
    flat_map (fun kv => match snd kv with Some c => [(fst kv, c)] | None => [] end) d.

  Lemma put_deferred_ok d : forall a : arb, NoDup (dkeys d) ->
    (forall n, In n (dkeys d) -> dget n (a_conns a) = None) ->
    let a' := put_deferred d a in
    a_conns a' = a_conns a ++ now_of d /\ a_queue a' = a_queue a ++ dvals (now_of d) /\
    a_defer a' = a_defer a /\ a_awaited a' = a_awaited a /\ a_made a' = a_made a /\
    a_structs a' = a_structs a /\ a_tasks a' = a_tasks a /\ a_peers a' = a_peers a.
  Proof.
    induction d as [|[n [c|]] d IH]; intros a N F; cbn [put_deferred now_of flat_map].
    - cbn. rewrite !app_nil_r. repeat split.
    - inversion N as [|? ? N1 N2]; subst.
      assert (M : dget n (a_conns a) = None) by (apply F; left; reflexivity).
      destruct (IH (put_conn n c a) N2) as (A & B & C & D & E & G & H & I).
      { intros k K. cbn [put_conn a_conns]. unfold put_conn; cbn [a_conns]. rewrite dget_dset_ne.
        - apply F. right. exact K.
        - intros ->. exact (N1 K). }
      cbv zeta in *. rewrite A, B, C, D, E, G, H, I. unfold put_conn; cbn.
      rewrite dset_notin by exact M. rewrite <- !app_assoc. repeat split.
    - inversion N; subst. cbn [snd app]. apply IH; [assumption|]. intros k K. apply F. right. exact K.
  Qed.

  Lemma now_of_dget (d : list (string * option conn)) n : all_made d = true -> dget n (now_of d) =
    match dget n d with Some r => r | None => None end.
  Proof.
    induction d as [|[k [c|]] d IH]; cbn; intros M; [reflexivity| |discriminate].
    destruct (eq_dec n k); [reflexivity|]. apply IH. exact M.
  Qed.
  Lemma now_of_keys (d : list (string * option conn)) : all_made d = true -> dkeys (now_of d) = dkeys d.
  Proof.
    induction d as [|[k [c|]] d IH]; cbn; intros M; [reflexivity| |discriminate].
    unfold dkeys in *. cbn. f_equal. apply IH. exact M.
  Qed.
  Lemma dget_made (d : list (string * option conn)) n r : all_made d = true -> dget n d = Some r -> r <> None.
  Proof.
    induction d as [|[k x] d IH]; cbn; [discriminate|]. intros M. apply andb_prop in M as [M1 M2].
    destruct (eq_dec n k); [|apply IH; exact M2]. intros [= <-]. destruct x; discriminate.
  Qed.

  Lemma init_inv a cl : AInv a cl -> AInv (fst (init_connections a)) cl.
  Proof.
    intros I. unfold init_connections. destruct (a_defer a) as [|x d0] eqn:D; [exact I|].
    rewrite <- D in *. set (d := a_defer a) in *. destruct (a_awaited a) eqn:W; [exact I|].
    destruct I as (H & Hq & Hn & Hd & Hw).
    set (a1 := mkArb _ _ _ _ _ _ _ _ _ _ _ _ _).
    destruct (all_made d) eqn:M; cbn [fst].
    - destruct (put_deferred_ok d a1 Hd) as (A & B & C & E & _).
      { intros n K. cbn. destruct (Hw W n) as [X|X]; [exact X|]. apply dget_None_notin in X. contradiction. }
      split; [|split; [|split; [|split]]].
      + intros n. specialize (H n). unfold holds in *. rewrite A, C. cbn [a1 a_conns a_defer].
        fold d in H. fold d.
        rewrite dget_app, (now_of_dget d n M).
        destruct (dget n cl) as [[c|r]|]; destruct H as [H1 H2]; rewrite ?H1, ?H2.
        * auto.
        * split; [reflexivity|]. right. split; [eapply dget_made; eauto|].
          destruct H2 as [-> |[H2 H3]]; [reflexivity|]. rewrite H3. destruct r; congruence.
        * auto.
      + rewrite A, B. cbn [a1 a_conns a_queue]. unfold dvals in *. rewrite map_app, Hq. reflexivity.
      + rewrite A. cbn [a1 a_conns]. rewrite dkeys_app, (now_of_keys d M).
        assert (Dj : forall n, In n (dkeys (a_conns a)) -> ~ In n (dkeys d)).
        { intros n K1 K2. destruct (Hw W n) as [X|X]; apply dget_None_notin in X; contradiction. }
        clear - Hn Hd Dj. induction (dkeys (a_conns a)) as [|y l IH]; cbn; [exact Hd|].
        inversion Hn; subst. constructor.
        * rewrite in_app_iff. intros [K|K]; [contradiction|]. apply (Dj y); [left; reflexivity|exact K].
        * apply IH; [assumption|]. intros n K. apply Dj. right. exact K.
      + rewrite C. exact Hd.
      + rewrite E. cbn. discriminate.
    - split; [exact H|]. repeat split; auto; discriminate.
  Qed.

  Lemma step_inv a cl o : AInv a cl ->
    AInv (fst (step a o)) (cl ++ match claim a o with Some c => [c] | None => [] end).
  Proof.
    intros I. destruct o; cbn [a_step claim]; rewrite ?app_nil_r.
    - unfold bool_res. cbn [fst]. apply reg_inv. exact I.
    - unfold factory_client. destruct (dget factory (a_cfacs a)) as [f|]; [|rewrite app_nil_r; exact I].
      destruct defer.
      + destruct (reg_inv a cl (f_spaces f ++ [name]) (Later (make (f_class f) name args)) I) as [R _].
        destruct (register_connection _ _ _ _) as [a' b]. exact R.
      + destruct (make (f_class f) name args) as [c|]; [|rewrite app_nil_r; exact I].
        set (a1 := mkArb _ _ _ _ _ _ _ _ _ _ _ _ _).
        assert (I1 : AInv a1 cl) by (eapply same_inv; [exact I|reflexivity..]).
        destruct (reg_inv a1 cl (f_spaces f ++ [name]) (Now c) I1) as [R _].
        destruct (register_connection _ _ _ _) as [a' b]. exact R.
    - unfold bool_res, register_factory. destruct (_ && _); cbn [fst]; [|exact I].
      eapply same_inv; [exact I|reflexivity..].
    - unfold factory_server. destruct (dget factory (a_cfacs a)) as [f|]; [|exact I].
      destruct (serve _ _); [|exact I]. eapply same_inv; [exact I|reflexivity..].
    - unfold bool_res, factory_task. destruct (dget factory (a_tfacs a)); [|exact I].
      destruct (dmem _ _); [exact I|]. eapply same_inv; [exact I|reflexivity..].
    - unfold bool_res, factory_struct. destruct (dget factory (a_sfacs a)); [|exact I].
      destruct (dmem _ _); [exact I|]. eapply same_inv; [exact I|reflexivity..].
    - unfold bool_res, factory_process. destruct (dget factory (a_pfacs a)); [|exact I].
      destruct (dmem _ _); [exact I|]. eapply same_inv; [exact I|reflexivity..].
    - pose proof (init_inv a cl I) as R. destruct (init_connections a) as [a' ok]. exact R.
  Qed.

  Lemma run_inv ops : forall a cl, AInv a cl -> AInv (fst (run a ops)) (cl ++ claims a ops).
  Proof.
    induction ops as [|o ops IH]; intros a cl I; cbn [a_run ConfigSpec.claims]; [rewrite app_nil_r; exact I|].
    pose proof (step_inv a cl o I) as S. destruct (step a o) as [a1 r] eqn:E. cbn [fst] in *.
    specialize (IH a1 _ S). rewrite <- app_assoc in IH. destruct (run a1 ops) as [a2 rs]. exact IH.
  Qed.

  Lemma run_app ops1 : forall ops2 a,
    fst (run a (ops1 ++ ops2)) = fst (run (fst (run a ops1)) ops2) /\
    snd (run a (ops1 ++ ops2)) = snd (run a ops1) ++ snd (run (fst (run a ops1)) ops2) /\
    claims a (ops1 ++ ops2) = claims a ops1 ++ claims (fst (run a ops1)) ops2.
  Proof.
    induction ops1 as [|o ops1 IH]; intros ops2 a; cbn [app a_run ConfigSpec.claims fst snd]; [auto|].
    destruct (step a o) as [a1 r] eqn:E. cbn [fst]. destruct (IH ops2 a1) as (A & B & C).
    destruct (run a1 ops1) as [a2 rs]. cbn [fst snd] in *.
    destruct (run a1 (ops1 ++ ops2)) as [a3 rs3]. cbn [fst snd] in *.
    rewrite A, B, C, <- app_assoc. auto.
  Qed.
  Lemma run_length ops : forall a, List.length (snd (run a ops)) = List.length ops.
  Proof.
    induction ops as [|o ops IH]; intros a; [reflexivity|]. cbn [a_run]. destruct (step a o) as [a1 r].
    specialize (IH a1). destruct (run a1 ops). cbn in *. lia.
  Qed.

  Lemma claim_result a cl o n x : AInv a cl -> claim a o = Some (n, x) ->
    snd (step a o) = RBool (negb (dmem n cl)).
  Proof.
    intros I C. destruct o; cbn [claim a_step] in *; try discriminate.
    - injection C as <- <-. unfold bool_res. cbn [snd]. f_equal. apply reg_inv. exact I.
    - unfold factory_client. destruct (dget factory (a_cfacs a)) as [f|]; [|discriminate].
      destruct defer.
      + injection C as <- <-.
        destruct (reg_inv a cl (f_spaces f ++ [name]) (Later (make (f_class f) name args)) I) as [_ R].
        destruct (register_connection _ _ _ _) as [a' b]. cbn in *. congruence.
      + destruct (make (f_class f) name args) as [c|]; [|discriminate]. injection C as <- <-.
        set (a1 := mkArb _ _ _ _ _ _ _ _ _ _ _ _ _).
        assert (I1 : AInv a1 cl) by (eapply same_inv; [exact I|reflexivity..]).
        destruct (reg_inv a1 cl (f_spaces f ++ [name]) (Now c) I1) as [_ R].
        destruct (register_connection _ _ _ _) as [a' b]. cbn in *. congruence.
  Qed.
  Lemma conns_mono a cl o n c : AInv a cl -> dget n (a_conns a) = Some c ->
    dget n (a_conns (fst (step a o))) = Some c.
  Proof.
    intros I D.
    assert (R : forall (b : arb) names x, a_conns b = a_conns a ->
      dget n (a_conns (fst (register_connection full names x b))) = Some c).
    { intros b names x E. unfold register_connection. rewrite E.
      destruct (dmem (full names) (a_conns a)) eqn:M; cbn [negb andb]; [cbn [fst]; rewrite E; exact D|].
      destruct (negb _); cbn [fst]; [|rewrite E; exact D].
      destruct x; unfold put_conn; cbn [a_conns]; rewrite ?E; [|exact D].
      rewrite dget_dset_ne; [exact D|].
      intros ->. apply dmem_false in M. congruence. }
    destruct o; cbn [a_step].
    - unfold bool_res. cbn [fst]. apply R. reflexivity.
    - unfold factory_client. destruct (dget factory (a_cfacs a)) as [f|]; [|exact D].
      destruct defer.
      + specialize (R a (f_spaces f ++ [name]) (Later (make (f_class f) name args)) eq_refl).
        destruct (register_connection _ _ _ _). exact R.
      + destruct (make (f_class f) name args) as [c'|]; [|exact D].
        set (a1 := mkArb _ _ _ _ _ _ _ _ _ _ _ _ _).
        specialize (R a1 (f_spaces f ++ [name]) (Now c') eq_refl).
        destruct (register_connection _ _ _ _). exact R.
    - unfold bool_res, register_factory. destruct (_ && _); exact D.
    - unfold factory_server. destruct (dget factory (a_cfacs a)) as [f|]; [|exact D].
      destruct (serve _ _); exact D.
    - unfold bool_res, factory_task. destruct (dget factory (a_tfacs a)); [|exact D].
      destruct (dmem _ _); exact D.
    - unfold bool_res, factory_struct. destruct (dget factory (a_sfacs a)); [|exact D].
      destruct (dmem _ _); exact D.
    - unfold bool_res, factory_process. destruct (dget factory (a_pfacs a)); [|exact D].
      destruct (dmem _ _); exact D.
    - unfold init_connections. destruct (a_defer a) as [|x d0] eqn:E; [exact D|]. rewrite <- E.
      destruct (a_awaited a) eqn:W; [exact D|].
      destruct I as (H & Hq & Hn & Hd & Hw).
      set (a1 := mkArb _ _ _ _ _ _ _ _ _ _ _ _ _).
      destruct (all_made (a_defer a)) eqn:M; cbn [fst]; [|exact D].
      destruct (put_deferred_ok (a_defer a) a1 Hd) as (A & _).
      { intros k K. cbn. destruct (Hw W k) as [X|X]; [exact X|]. apply dget_None_notin in X. contradiction. }
      rewrite A, dget_app. cbn [a1 a_conns]. rewrite D. reflexivity.
  Qed.
  Lemma conns_mono_run ops : forall a cl n c, AInv a cl -> dget n (a_conns a) = Some c ->
    dget n (a_conns (fst (run a ops))) = Some c.
  Proof.
    induction ops as [|o ops IH]; intros a cl n c I D; cbn [a_run]; [exact D|].
    pose proof (conns_mono a cl o n c I D) as D1. pose proof (step_inv a cl o I) as I1.
    destruct (step a o) as [a1 r]. cbn [fst] in *. specialize (IH a1 _ n c I1 D1).
    destruct (run a1 ops). exact IH.
  Qed.
  Lemma init_all a cl n r : AInv a cl -> snd (step a AInit) = RBool true ->
    dget n (a_defer a) = Some r ->
    r <> None /\ dget n (a_conns (fst (step a AInit))) = r.
  Proof.
    intros (H & Hq & Hn & Hd & Hw). cbn [a_step]. unfold init_connections.
    destruct (a_defer a) as [|x d0] eqn:E; [discriminate|]. rewrite <- E in *.
    destruct (a_awaited a) eqn:W; [discriminate|].
    set (a1 := mkArb _ _ _ _ _ _ _ _ _ _ _ _ _).
    destruct (all_made (a_defer a)) eqn:M; cbn [fst snd]; [|discriminate]. intros _ D.
    split; [eapply dget_made; eauto|].
    destruct (put_deferred_ok (a_defer a) a1 Hd) as (A & _).
    { intros k K. cbn. destruct (Hw eq_refl k) as [X|X]; [exact X|]. apply dget_None_notin in X. contradiction. }
    rewrite A, dget_app. cbn [a1 a_conns].
    destruct (Hw eq_refl n) as [X|X]; [|congruence]. rewrite X, (now_of_dget _ _ M), D. reflexivity.
  Qed.

  Lemma put_deferred_same d : forall a : arb,
    a_defer (put_deferred d a) = a_defer a /\ a_awaited (put_deferred d a) = a_awaited a.
  Proof.
    induction d as [|[n [c|]] d IH]; intros a; cbn [put_deferred]; [auto| |apply IH].
    destruct (IH (put_conn n c a)) as [-> ->]. auto.
  Qed.
  (** Once awaited, with something deferred, for ever. *)
  Definition spent (a : arb) : Prop := a_defer a <> [] /\ a_awaited a = true.
  Lemma spent_step a o : spent a -> spent (fst (step a o)).
  Proof.
    intros [S1 S2].
    assert (R : forall (b : arb) names x, a_defer b = a_defer a -> a_awaited b = a_awaited a ->
      spent (fst (register_connection full names x b))).
    { intros b names x E1 E2. unfold register_connection, spent.
      destruct (_ && _); cbn [fst]; [|rewrite E1, E2; auto].
      destruct x; unfold put_conn; cbn [a_defer a_awaited]; rewrite ?E1, ?E2; [auto|].
      split; [|exact S2]. destruct (a_defer a) as [|[k v] d]; [contradiction|]. cbn.
      destruct (eq_dec _ _); discriminate. }
    destruct o; cbn [a_step].
    - unfold bool_res. cbn [fst]. apply R; reflexivity.
    - unfold factory_client. destruct (dget factory (a_cfacs a)) as [f|]; [|split; assumption].
      destruct defer.
      + specialize (R a (f_spaces f ++ [name]) (Later (make (f_class f) name args)) eq_refl eq_refl).
        destruct (register_connection _ _ _ _). exact R.
      + destruct (make (f_class f) name args) as [c'|]; [|split; assumption].
        set (a1 := mkArb _ _ _ _ _ _ _ _ _ _ _ _ _).
        specialize (R a1 (f_spaces f ++ [name]) (Now c') eq_refl eq_refl).
        destruct (register_connection _ _ _ _). exact R.
    - unfold bool_res, register_factory. destruct (_ && _); split; assumption.
    - unfold factory_server. destruct (dget factory (a_cfacs a)) as [f|]; [|split; assumption].
      destruct (serve _ _); split; assumption.
    - unfold bool_res, factory_task. destruct (dget factory (a_tfacs a)); [|split; assumption].
      destruct (dmem _ _); split; assumption.
    - unfold bool_res, factory_struct. destruct (dget factory (a_sfacs a)); [|split; assumption].
      destruct (dmem _ _); split; assumption.
    - unfold bool_res, factory_process. destruct (dget factory (a_pfacs a)); [|split; assumption].
      destruct (dmem _ _); split; assumption.
    - unfold init_connections. destruct (a_defer a) as [|x d0] eqn:E; [contradiction|]. rewrite S2.
      cbn [fst]. unfold spent. rewrite E. auto.
  Qed.
  Lemma spent_run ops : forall a, spent a -> spent (fst (run a ops)).
  Proof.
    induction ops as [|o ops IH]; intros a S; cbn [a_run]; [exact S|].
    pose proof (spent_step a o S) as S1. destruct (step a o) as [a1 r]. specialize (IH a1 S1).
    destruct (run a1 ops). exact IH.
  Qed.
  Lemma spent_init a : a_defer a <> [] -> spent (fst (step a AInit)).
  Proof.
    intros D. cbn [a_step]. unfold init_connections, spent. destruct (a_defer a) as [|x d0] eqn:E; [contradiction|].
    destruct (a_awaited a) eqn:W; cbn [fst]; [rewrite E; auto|].
    destruct (all_made _); cbn [fst]; [|cbn; auto].
    destruct (put_deferred_same (x :: d0) (mkArb (a_conns a) (x :: d0) true (a_queue a) (a_made a ++ made_of (x :: d0))
                    (a_cfacs a) (a_tfacs a) (a_sfacs a) (a_pfacs a) (a_servers a) (a_tasks a)
                    (a_structs a) (a_peers a))) as [-> ->]. cbn. auto.
  Qed.
  Lemma spent_raises a : spent a -> snd (step a AInit) = RRaise.
  Proof.
    intros [S1 S2]. cbn [a_step]. unfold init_connections. destruct (a_defer a); [contradiction|].
    rewrite S2. reflexivity.
  Qed.
End Claims.

Section Process.
  Context {conn info : Type}.
  Context (full : list string -> string) (snake : string -> string).
  Context (make : string -> string -> info -> option conn) (serve : string -> info -> bool).
  Context (imports : string -> option (fkind * string)).
  Notation arb := (@arb conn info).
  Notation named := (named snake).
  Notation clash := (clash snake).

  (** The dictionaries of factories hold these entries. *)
  Definition FInv (a : arb) (es : list (fkind * fac)) : Prop :=
    forall k n, dget n (facs k a) = named k n es.

  Lemma finv_same (a a' : arb) es : (forall k, facs k a' = facs k a) -> FInv a es -> FInv a' es.
  Proof. intros H F k n. rewrite H. apply F. Qed.

  Lemma named_app k n es es' :
    named k n (es ++ es') = match named k n es with Some f => Some f | None => named k n es' end.
  Proof.
    induction es as [|[k' f] es IH]; cbn; [reflexivity|]. destruct (_ && _); [reflexivity|exact IH].
  Qed.
  Lemma kind_eqb_eq k k' : kind_eqb k k' = true <-> k = k'.
  Proof. destruct k, k'; cbn; split; congruence. Qed.

  Definition apart (x y : fkind * fac) : Prop :=
    fst x = fst y -> ~ clash (f_class (snd x)) (f_class (snd y)).

  Lemma named_apart k cls s es :
    (named k cls es = None /\ named k (snake cls) es = None) <->
    (forall y, In y es -> apart y (k, mkFac cls s)).
  Proof.
    unfold apart, clash. cbn [fst snd f_class]. induction es as [|[k' f] es IH]; cbn [ConfigSpec.named In].
    { split; [intros _ y []|auto]. }
    split.
    - intros [H1 H2] y [<-|I].
      + cbn [fst snd]. intros -> C. assert (kind_eqb k k = true) as K by (apply kind_eqb_eq; reflexivity).
        rewrite K in H1, H2. cbn [andb] in H1, H2.
        destruct (String.eqb_spec cls (f_class f)); [discriminate|].
        destruct (String.eqb_spec cls (snake (f_class f))); [discriminate|].
        destruct (String.eqb_spec (snake cls) (f_class f)); [discriminate|].
        destruct (String.eqb_spec (snake cls) (snake (f_class f))); [discriminate|].
        intuition congruence.
      + apply IH; [|exact I]. destruct (_ && _); [discriminate|]. destruct (_ && _); [discriminate|]. auto.
    - intros H. assert (H' : forall y, In y es -> fst y = k ->
        ~ (f_class (snd y) = cls \/ f_class (snd y) = snake cls \/ snake (f_class (snd y)) = cls \/ snake (f_class (snd y)) = snake cls))
        by (intros y I; apply H; right; exact I).
      apply IH in H' as [H1 H2]. rewrite H1, H2. specialize (H (k', f) (or_introl eq_refl)). cbn [fst snd] in H.
      destruct (kind_eqb k k') eqn:K; cbn [andb]; [|auto]. apply kind_eqb_eq in K. specialize (H (eq_sym K)).
      destruct (String.eqb_spec cls (f_class f)); [exfalso; apply H; auto|].
      destruct (String.eqb_spec cls (snake (f_class f))); [exfalso; apply H; auto|].
      destruct (String.eqb_spec (snake cls) (f_class f)); [exfalso; apply H; auto|].
      destruct (String.eqb_spec (snake cls) (snake (f_class f))); [exfalso; apply H; auto|].
      auto.
  Qed.

  (** Everything but the factories is the same. *)
  Definition keeps (a a' : arb) : Prop :=
    a_conns a' = a_conns a /\ a_defer a' = a_defer a /\ a_awaited a' = a_awaited a /\
    a_queue a' = a_queue a /\ a_made a' = a_made a /\ a_servers a' = a_servers a /\
    a_tasks a' = a_tasks a /\ a_structs a' = a_structs a /\ a_peers a' = a_peers a.
  Lemma keeps_refl a : keeps a a.
  Proof. repeat split. Qed.
  Lemma keeps_trans a b c : keeps a b -> keeps b c -> keeps a c.
  Proof.
    intros (A1&A2&A3&A4&A5&A6&A7&A8&A9) (B1&B2&B3&B4&B5&B6&B7&B8&B9). repeat split; congruence.
  Qed.

  Lemma facs_with k k' d (a : arb) : facs k (with_facs k' d a) = if kind_eqb k k' then d else facs k a.
  Proof. destruct k, k'; reflexivity. Qed.

  Lemma reg_factory k cls s a es : FInv a es ->
    let '(a', ok) := register_factory snake k cls s a in
    keeps a a' /\
    (ok = true <-> forall y, In y es -> apart y (k, mkFac cls s)) /\
    (ok = true -> FInv a' (es ++ [(k, mkFac cls s)])).
  Proof.
    intros F. pose proof (named_apart k cls s es) as NA. rewrite <- !F in NA. unfold register_factory, dmem.
    destruct (dget cls (facs k a)) eqn:D1.
    { split; [apply keeps_refl|]. split; [|discriminate]. split; [discriminate|].
      intros H. apply NA in H as [H _]. discriminate. }
    destruct (dget (snake cls) (facs k a)) eqn:D2.
    { split; [apply keeps_refl|]. split; [|discriminate]. split; [discriminate|].
      intros H. apply NA in H as [_ H]. discriminate. }
    cbn [negb andb]. split; [repeat split|].
    split; [split; [intros _; apply NA; auto|reflexivity]|]. intros _ k1 n.
    rewrite facs_with, named_app, <- F. cbn [ConfigSpec.named f_class].
    destruct (kind_eqb k1 k) eqn:K; cbn [andb].
    - apply kind_eqb_eq in K. subst k1. rewrite !dget_dset.
      destruct (eq_dec n (snake cls)) as [->|N1].
      + rewrite D2, String.eqb_refl, orb_true_r. reflexivity.
      + destruct (eq_dec n cls) as [->|N2].
        * rewrite D1, String.eqb_refl. reflexivity.
        * destruct (String.eqb_spec n cls); [contradiction|].
          destruct (String.eqb_spec n (snake cls)); [contradiction|]. cbn.
          destruct (dget n (facs k a)); reflexivity.
    - destruct (dget n (facs k1 a)); reflexivity.
  Qed.

  Fixpoint fresh (es0 es : list (fkind * fac)) : Prop :=
    match es with
    | [] => True
    | x :: es' => (forall y, In y es0 -> apart y x) /\ fresh (es0 ++ [x]) es'
    end.
  Lemma fresh_pairs es : forall es0, fresh es0 es <->
    (ForallOrdPairs apart es /\ forall y x, In y es0 -> In x es -> apart y x).
  Proof.
    induction es as [|x es IH]; intros es0; cbn [fresh].
    { split; [intros _; split; [constructor|intros ? ? _ []]|auto]. }
    rewrite IH. split.
    - intros (H1 & H2 & H3). split.
      + constructor; [|exact H2]. rewrite Forall_forall. intros z Z. apply H3; [|exact Z].
        apply in_or_app. right. left. reflexivity.
      + intros y z Y [<-|Z]; [apply H1; exact Y|]. apply H3; [|exact Z]. apply in_or_app. left. exact Y.
    - intros (H1 & H2). inversion H1 as [|? ? P Q]; subst. rewrite Forall_forall in P. split.
      + intros y Y. apply H2; [exact Y|left; reflexivity].
      + split; [exact Q|]. intros y z Y Z. apply in_app_or in Y as [Y|[<-|[]]].
        * apply H2; [exact Y|right; exact Z].
        * apply P. exact Z.
  Qed.

  Lemma existsb_in n l : existsb (String.eqb n) l = true <-> In n l.
  Proof.
    rewrite existsb_exists. split.
    - intros (x & I & E). apply String.eqb_eq in E. subst. exact I.
    - intros I. exists n. split; [exact I|apply String.eqb_refl].
  Qed.

  Lemma do_fac l : forall names a es0, FInv a es0 ->
    let '(a', ok) := do_factories snake imports names l a in
    keeps a a' /\
    (ok = true -> exists es, entries imports (once names l) = Some es /\ fresh es0 es /\ FInv a' (es0 ++ es)) /\
    (forall es, entries imports (once names l) = Some es -> fresh es0 es -> ok = true).
  Proof.
    induction l as [|[p s] l IH]; intros names a es0 F; cbn [do_factories once].
    { split; [apply keeps_refl|]. split; [|auto]. intros _. exists []. rewrite app_nil_r. cbn. auto. }
    destruct (existsb (String.eqb p) names) eqn:X.
    { apply existsb_in in X. destruct (in_dec string_dec p names); [|contradiction]. apply IH. exact F. }
    destruct (in_dec string_dec p names) as [Y|Y]; [apply existsb_in in Y; congruence|].
    unfold register_module_factory. cbn [entries]. unfold import_entry. cbn [fst snd].
    destruct (imports p) as [[k cls]|].
    2: { split; [apply keeps_refl|]. split; [discriminate|]. intros es [=]. }
    pose proof (reg_factory k cls s a es0 F) as R.
    destruct (register_factory snake k cls s a) as [a1 ok]. destruct R as (R1 & R2 & R3).
    destruct ok.
    - specialize (R3 eq_refl). specialize (IH (p :: names) a1 _ R3).
      destruct (do_factories snake imports (p :: names) l a1) as [a' ok']. destruct IH as (I1 & I2 & I3).
      split; [eapply keeps_trans; eassumption|]. split.
      + intros T. destruct (I2 T) as (es & E & Fr & Fi). rewrite E. exists ((k, mkFac cls s) :: es).
        split; [reflexivity|]. split.
        * cbn [fresh]. split; [apply R2; reflexivity|exact Fr].
        * rewrite <- app_assoc in Fi. exact Fi.
      + intros es E Fr. destruct (entries imports (once (p :: names) l)) as [es'|]; [|discriminate].
        injection E as <-. cbn [fresh] in Fr. eapply I3; [reflexivity|]. apply Fr.
    - split; [exact R1|]. split; [discriminate|]. intros es E Fr.
      destruct (entries imports (once (p :: names) l)) as [es'|]; [|discriminate].
      injection E as <-. cbn [fresh] in Fr. destruct Fr as [Fr _]. apply R2 in Fr. discriminate.
  Qed.

  (** ** Clients *)
  Definition tables (a a' : arb) : Prop :=
    (forall k, facs k a' = facs k a) /\ a_awaited a' = a_awaited a /\
    a_servers a' = a_servers a /\ a_tasks a' = a_tasks a /\ a_structs a' = a_structs a /\
    a_peers a' = a_peers a.
  Lemma tables_refl a : tables a a.
  Proof. repeat split. Qed.
  Lemma tables_trans a b c : tables a b -> tables b c -> tables a c.
  Proof.
    intros (A1&A2&A3&A4&A5&A6) (B1&B2&B3&B4&B5&B6). split; [intros k; rewrite B1; apply A1|].
    repeat split; congruence.
  Qed.

  Definition client_ok (es : list (fkind * fac)) (c : string * string * info * bool) : Prop :=
    let '(factory, name, args, defer) := c in
    exists f, named KConn factory es = Some f /\ (defer = false -> make (f_class f) name args <> None).
  Notation cname := (client_name full snake).
  Notation cnow := (clients_now full snake make).
  Notation clater := (clients_later full snake make).

  Lemma client_step es a c : FInv a es ->
    let '(factory, name, args, defer) := c in
    let '(a', r) := factory_client full make factory name args defer a in
    tables a a' /\
    (r = RBool true <-> client_ok es c /\ taken a (cname es c) = false) /\
    (r = RBool true -> a_conns a' = a_conns a ++ cnow es c /\ a_defer a' = a_defer a ++ clater es c /\
       forall n, taken a' n = taken a n || (if string_dec n (cname es c) then true else false)).
  Proof.
    destruct c as [[[factory name] args] defer]. intros F. unfold factory_client.
    pose proof (F KConn factory) as N. cbn [facs] in N. rewrite N.
    unfold client_ok, cname, cnow, clater, client_name.
    destruct (named KConn factory es) as [f|].
    2: { split; [apply tables_refl|]. split; [|discriminate]. split; [discriminate|].
         intros [(f & X & _) _]. discriminate. }
    set (n := full (f_spaces f ++ [name])).
    assert (K : forall (b : arb) o, a_conns b = a_conns a -> a_defer b = a_defer a ->
       snd (register_connection full (f_spaces f ++ [name]) o b) = negb (taken a n)).
    { intros b o E1 E2. unfold register_connection. fold n. rewrite E1, E2. unfold taken.
      destruct (dmem n (a_conns a)), (dmem n (a_defer a)); reflexivity. }
    destruct defer.
    - specialize (K a (Later (make (f_class f) name args)) eq_refl eq_refl).
      unfold register_connection in K |- *. fold n in K |- *.
      destruct (negb (dmem n (a_conns a)) && negb (dmem n (a_defer a))) eqn:M; cbn [snd] in K.
      + apply andb_prop in M as [M1 M2]. apply negb_true_iff in M1, M2. apply dmem_false in M1, M2.
        split; [repeat split; intros []; reflexivity|].
        split.
        * split; [|reflexivity]. intros _. split; [|destruct (taken a n); [discriminate|reflexivity]].
          exists f. split; [reflexivity|discriminate].
        * intros _. cbn [a_conns a_defer]. rewrite dset_notin by exact M2. rewrite app_nil_r.
          split; [reflexivity|]. split; [reflexivity|]. intros k. unfold taken. cbn [a_conns a_defer].
          unfold dmem. rewrite dget_app. cbn [dget].
          destruct (eq_dec k n) as [Ek|Ne]; destruct (string_dec k n) as [E|E]; try contradiction; try rewrite Ek.
          -- rewrite M1, M2. reflexivity.
          -- rewrite orb_false_r. destruct (dget k (a_defer a)); reflexivity.
      + split; [apply tables_refl|]. split; [|discriminate]. split; [discriminate|].
        intros [_ T]. rewrite T in K. discriminate.
    - destruct (make (f_class f) name args) as [c|] eqn:Mk.
      + set (a1 := mkArb _ _ _ _ _ _ _ _ _ _ _ _ _).
        specialize (K a1 (Now c) eq_refl eq_refl). unfold register_connection in K |- *. fold n in K |- *.
        cbn [a1 a_conns a_defer] in K |- *.
        destruct (negb (dmem n (a_conns a)) && negb (dmem n (a_defer a))) eqn:M; cbn [snd] in K.
        * apply andb_prop in M as [M1 M2]. apply negb_true_iff in M1, M2. apply dmem_false in M1, M2.
          split; [repeat split; intros []; reflexivity|].
          split.
          -- split; [|reflexivity]. intros _. split; [|destruct (taken a n); [discriminate|reflexivity]].
             exists f. split; [reflexivity|]. intros _. rewrite Mk. discriminate.
          -- intros _. unfold put_conn. cbn [a1 a_conns a_defer]. rewrite dset_notin by exact M1. rewrite app_nil_r.
             split; [reflexivity|]. split; [reflexivity|]. intros k. unfold taken. cbn [a_conns a_defer].
             unfold dmem. rewrite dget_app. cbn [dget].
             destruct (eq_dec k n) as [Ek|Ne]; destruct (string_dec k n) as [E|E]; try contradiction; try rewrite Ek.
             ++ rewrite M1, M2. reflexivity.
             ++ rewrite orb_false_r. destruct (dget k (a_conns a)); reflexivity.
        * split; [repeat split; intros []; reflexivity|]. split; [|discriminate]. split; [discriminate|].
          intros [_ T]. rewrite T in K. discriminate.
      + split; [apply tables_refl|]. split; [|discriminate]. split; [discriminate|].
        intros [(f' & X & Y) _]. injection X as <-. rewrite Mk in Y. exfalso. apply Y; reflexivity.
  Qed.

  Lemma do_clients_ok es l : forall a, FInv a es ->
    let '(a', ok) := do_clients full make l a in
    tables a a' /\
    (ok = true <-> Forall (client_ok es) l /\ NoDup (map (cname es) l) /\
                   forall n, In n (map (cname es) l) -> taken a n = false) /\
    (ok = true -> a_conns a' = a_conns a ++ flat_map (cnow es) l /\
                  a_defer a' = a_defer a ++ flat_map (clater es) l).
  Proof.
    induction l as [|c l IH]; intros a F; cbn [do_clients map flat_map].
    { split; [apply tables_refl|]. split; [|rewrite !app_nil_r; auto].
      split; [|reflexivity]. intros _. repeat split; try constructor. intros ? []. }
    pose proof (client_step es a c F) as S. destruct c as [[[factory name] args] defer].
    set (c := (factory, name, args, defer)) in *.
    destruct (factory_client full make factory name args defer a) as [a1 r].
    destruct S as (S1 & S2 & S3).
    assert (F1 : FInv a1 es) by (intros k n; destruct S1 as [S1 _]; rewrite S1; apply F).
    destruct (match r with RBool true => true | _ => false end) eqn:R.
    - assert (r = RBool true) as -> by (destruct r as [[]|]; congruence || discriminate).
      destruct (proj1 S2 eq_refl) as [C1 C2]. destruct (S3 eq_refl) as (E1 & E2 & E3).
      specialize (IH a1 F1). destruct (do_clients full make l a1) as [a' ok]. destruct IH as (I1 & I2 & I3).
      split; [eapply tables_trans; eassumption|]. split.
      + rewrite I2. split.
        * intros (H1 & H2 & H3). split; [constructor; assumption|]. split.
          -- constructor; [|exact H2]. intros X. specialize (H3 _ X). rewrite E3 in H3.
             destruct (string_dec (cname es c) (cname es c)); [|contradiction].
             rewrite orb_true_r in H3. discriminate.
          -- intros n [<-|X]; [exact C2|]. specialize (H3 _ X). rewrite E3 in H3.
             apply orb_false_elim in H3. apply H3.
        * intros (H1 & H2 & H3). inversion H1; subst. inversion H2 as [|? ? N1 N2]; subst. split; [assumption|].
          split; [exact N2|]. intros n X. rewrite E3. rewrite (H3 n (or_intror X)).
          destruct (string_dec n (cname es c)) as [->|]; [contradiction|reflexivity].
      + intros T. destruct (I3 T) as [J1 J2]. rewrite J1, J2, E1, E2, <- !app_assoc. auto.
    - assert (E : (match r with RBool true => do_clients full make l a1 | _ => (a1, false) end) = (a1, false)).
      { destruct r as [[]|]; [discriminate|reflexivity|reflexivity]. }
      rewrite E. split; [exact S1|]. split; [|discriminate]. split; [discriminate|].
      intros (H1 & H2 & H3). inversion H1; subst.
      assert (X : r = RBool true) by (apply S2; split; [assumption|]; apply H3; left; reflexivity).
      rewrite X in R. discriminate.
  Qed.

  (** ** Servers *)
  Definition server_ok (es : list (fkind * fac)) (s : string * info) : Prop :=
    exists f, named KConn (fst s) es = Some f /\ serve (f_class f) (snd s) = true.
  Definition with_servers (d : list (string * info)) (a : arb) : arb :=
    mkArb (a_conns a) (a_defer a) (a_awaited a) (a_queue a) (a_made a)
          (a_cfacs a) (a_tfacs a) (a_sfacs a) (a_pfacs a) d (a_tasks a) (a_structs a) (a_peers a).

  Lemma do_servers_ok es l : forall a, FInv a es ->
    let '(a', ok) := do_servers serve l a in
    (ok = true <-> Forall (server_ok es) l) /\
    (ok = true -> a' = with_servers (a_servers a ++ map (fun s => (class_of snake KConn es (fst s), snd s)) l) a).
  Proof.
    induction l as [|[factory args] l IH]; intros a F; cbn [do_servers map].
    { split; [split; [constructor|reflexivity]|]. intros _. rewrite app_nil_r. destruct a; reflexivity. }
    unfold factory_server. pose proof (F KConn factory) as N. cbn [facs] in N. rewrite N.
    unfold class_of at 1. cbn [fst snd].
    destruct (named KConn factory es) as [f|] eqn:Nm.
    2: { split; [|discriminate]. split; [discriminate|]. intros H. inversion H as [|? ? (f & X & _)]; subst.
         cbn in X. congruence. }
    destruct (serve (f_class f) args) eqn:Sv.
    2: { split; [|discriminate]. split; [discriminate|]. intros H. inversion H as [|? ? (g & X & Y)]; subst.
         cbn in X, Y. congruence. }
    set (a1 := mkArb _ _ _ _ _ _ _ _ _ _ _ _ _).
    specialize (IH a1). assert (F1 : FInv a1 es) by (apply (finv_same a); [intros []; reflexivity|exact F]).
    specialize (IH F1). destruct (do_servers serve l a1) as [a' ok]. destruct IH as [I1 I2]. split.
    - rewrite I1. split; [intros H; constructor; [|exact H]|intros H; inversion H; assumption].
      exists f. auto.
    - intros T. rewrite (I2 T). unfold with_servers; cbn. rewrite <- app_assoc. reflexivity.
  Qed.

  (** ** Tasks, structs, processes *)
  Section Each.
    Context (k : fkind) (tbl : arb -> list (string * (string * info)))
            (put : list (string * (string * info)) -> arb -> arb)
            (reg : string -> string -> info -> arb -> arb * bool).
    Context (reg_eq : forall factory name i a, reg factory name i a =
               match dget factory (facs k a) with
               | Some f => if dmem name (tbl a) then (a, false)
                           else (put (dset name (f_class f, i) (tbl a)) a, true)
               | None => (a, false)
               end)
            (tbl_put : forall d a, tbl (put d a) = d)
            (put_put : forall d d' a, put d (put d' a) = put d a)
            (put_tbl : forall a, put (tbl a) a = a)
            (facs_put : forall j d a, facs j (put d a) = facs j a).

    Lemma do_each_ok es l : forall a, FInv a es ->
      let '(a', ok) := do_each reg l a in
      (ok = true <-> Forall (known snake k es) l /\ NoDup (map entry_name l) /\
                     forall n, In n (map entry_name l) -> dget n (tbl a) = None) /\
      (ok = true -> a' = put (tbl a ++ map (object_of snake k es) l) a).
    Proof.
      induction l as [|[[factory name] i] l IH]; intros a F; cbn [do_each map].
      { split; [|intros _; rewrite app_nil_r, put_tbl; reflexivity].
        split; [|reflexivity]. intros _. repeat split; try constructor. intros ? []. }
      rewrite reg_eq. pose proof (F k factory) as N. rewrite N.
      unfold object_of at 1, class_of at 1. unfold entry_name at 1 3. cbn [fst snd].
      destruct (named k factory es) as [f|] eqn:Nm.
      2: { split; [|discriminate]. split; [discriminate|]. intros (H & _). inversion H as [|? ? X]; subst.
           unfold known in X. cbn in X. congruence. }
      destruct (dmem name (tbl a)) eqn:M.
      { split; [|discriminate]. split; [discriminate|]. intros (_ & _ & H).
        specialize (H name (or_introl eq_refl)). unfold dmem in M. rewrite H in M. discriminate. }
      apply dmem_false in M. rewrite dset_notin by exact M.
      set (a1 := put _ a).
      assert (F1 : FInv a1 es) by (intros j n; unfold a1; rewrite facs_put; apply F).
      specialize (IH a1 F1). destruct (do_each reg l a1) as [a' ok]. destruct IH as [I1 I2].
      unfold a1 in I1, I2. rewrite tbl_put in I1, I2. split.
      - rewrite I1. split.
        + intros (H1 & H2 & H3). split; [constructor; [|exact H1]; unfold known; cbn; congruence|]. split.
          * constructor; [|exact H2]. intros X. specialize (H3 _ X). rewrite dget_app, M in H3. cbn in H3.
            destruct (eq_dec name name); [discriminate|contradiction].
          * intros n [<-|X]; [exact M|]. specialize (H3 _ X). rewrite dget_app in H3.
            destruct (dget n (tbl a)); [discriminate|reflexivity].
        + intros (H1 & H2 & H3). inversion H1; subst. inversion H2 as [|? ? N1 N2]; subst.
          split; [assumption|]. split; [exact N2|]. intros n X. rewrite dget_app, (H3 n (or_intror X)). cbn.
          destruct (eq_dec n name) as [->|]; [contradiction|reflexivity].
      - intros T. rewrite (I2 T). rewrite put_put, <- app_assoc. reflexivity.
    Qed.
  End Each.

  Definition with_tasks d (a : arb) : arb :=
    mkArb (a_conns a) (a_defer a) (a_awaited a) (a_queue a) (a_made a)
          (a_cfacs a) (a_tfacs a) (a_sfacs a) (a_pfacs a) (a_servers a) d (a_structs a) (a_peers a).
  Definition with_structs d (a : arb) : arb :=
    mkArb (a_conns a) (a_defer a) (a_awaited a) (a_queue a) (a_made a)
          (a_cfacs a) (a_tfacs a) (a_sfacs a) (a_pfacs a) (a_servers a) (a_tasks a) d (a_peers a).
  Definition with_peers d (a : arb) : arb :=
    mkArb (a_conns a) (a_defer a) (a_awaited a) (a_queue a) (a_made a)
          (a_cfacs a) (a_tfacs a) (a_sfacs a) (a_pfacs a) (a_servers a) (a_tasks a) (a_structs a) d.

  Lemma each_task es l a : FInv a es ->
    let '(a', ok) := do_each factory_task l a in
    (ok = true <-> Forall (known snake KTask es) l /\ NoDup (map entry_name l) /\
                   forall n, In n (map entry_name l) -> dget n (a_tasks a) = None) /\
    (ok = true -> a' = with_tasks (a_tasks a ++ map (object_of snake KTask es) l) a).
  Proof.
    apply (do_each_ok KTask a_tasks with_tasks factory_task); try reflexivity.
    all: intros []; reflexivity.
  Qed.
  Lemma each_struct es l a : FInv a es ->
    let '(a', ok) := do_each factory_struct l a in
    (ok = true <-> Forall (known snake KStruct es) l /\ NoDup (map entry_name l) /\
                   forall n, In n (map entry_name l) -> dget n (a_structs a) = None) /\
    (ok = true -> a' = with_structs (a_structs a ++ map (object_of snake KStruct es) l) a).
  Proof.
    apply (do_each_ok KStruct a_structs with_structs factory_struct); try reflexivity.
    all: intros []; reflexivity.
  Qed.
  Lemma each_peer es l a : FInv a es ->
    let '(a', ok) := do_each factory_process l a in
    (ok = true <-> Forall (known snake KPeer es) l /\ NoDup (map entry_name l) /\
                   forall n, In n (map entry_name l) -> dget n (a_peers a) = None) /\
    (ok = true -> a' = with_peers (a_peers a ++ map (object_of snake KPeer es) l) a).
  Proof.
    apply (do_each_ok KPeer a_peers with_peers factory_process); try reflexivity.
    all: intros []; reflexivity.
  Qed.

  (** ** The whole configuration, for a fresh arbiter. *)
  Lemma finv_init t : FInv (arb_init t) [].
  Proof. intros [] n; reflexivity. Qed.

  Lemma process_ok t g :
    let '(a, ok) := process_config full snake make serve imports g (arb_init t) in
    (ok = true <-> exists es, valid full snake make serve imports (fst t) g es) /\
    (forall es, ok = true -> valid full snake make serve imports (fst t) g es ->
      a_conns a = flat_map (cnow es) (g_clients g) /\
      a_defer a = flat_map (clater es) (g_clients g) /\ a_awaited a = false /\
      a_servers a = map (fun s => (class_of snake KConn es (fst s), snd s)) (g_servers g) /\
      a_tasks a = t :: map (object_of snake KTask es) (g_tasks g) /\
      a_structs a = map (object_of snake KStruct es) (g_structs g) /\
      a_peers a = map (object_of snake KPeer es) (g_procs g)).
  Proof.
    unfold process_config, andthen.
    pose proof (do_fac (g_facs g) [] (arb_init t) [] (finv_init t)) as H1.
    destruct (do_factories snake imports [] (g_facs g) (arb_init t)) as [a1 ok1].
    destruct H1 as (K1 & H1 & H1').
    destruct ok1.
    2: { split; [|discriminate]. split; [discriminate|]. intros (es & V). destruct V as (V1 & V2 & _).
         apply (H1' es V1). apply fresh_pairs. split; [exact V2|]. intros y x []. }
    destruct (H1 eq_refl) as (es & E & Fr & F1). cbn [app] in F1.
    assert (Uniq : forall es', valid full snake make serve imports (fst t) g es' -> es' = es).
    { intros es' (V1 & _). congruence. }
    apply fresh_pairs in Fr as [Fr _].
    destruct K1 as (C1 & C2 & C3 & C4 & C5 & C6 & C7 & C8 & C9).
    pose proof (do_clients_ok es (g_clients g) a1 F1) as H2.
    destruct (do_clients full make (g_clients g) a1) as [a2 ok2]. destruct H2 as (T2 & O2 & P2).
    assert (Tk : forall n, taken a1 n = false).
    { intros n. unfold taken, dmem. rewrite C1, C2. reflexivity. }
    destruct ok2.
    2: { split; [|discriminate]. split; [discriminate|]. intros (es' & V). pose proof (Uniq es' V) as ->.
         destruct V as (_ & _ & V3 & V4 & _). apply O2. split; [exact V3|]. split; [exact V4|]. auto. }
    destruct (P2 eq_refl) as [P2a P2b]. destruct (proj1 O2 eq_refl) as (O2a & O2b & _).
    destruct T2 as (T2a & T2b & T2c & T2d & T2e & T2f).
    assert (F2 : FInv a2 es) by (intros k n; rewrite T2a; apply F1).
    pose proof (do_servers_ok es (g_servers g) a2 F2) as H3.
    destruct (do_servers serve (g_servers g) a2) as [a3 ok3]. destruct H3 as (O3 & P3).
    destruct ok3.
    2: { split; [|discriminate]. split; [discriminate|]. intros (es' & V). pose proof (Uniq es' V) as ->.
         destruct V as (_ & _ & _ & _ & V5 & _). apply O3. exact V5. }
    pose proof (proj1 O3 eq_refl) as O3a. specialize (P3 eq_refl).
    assert (F3 : FInv a3 es) by (rewrite P3; apply (finv_same a2); [intros []; reflexivity|exact F2]).
    pose proof (each_task es (g_tasks g) a3 F3) as H4.
    destruct (do_each factory_task (g_tasks g) a3) as [a4 ok4]. destruct H4 as (O4 & P4).
    assert (T4 : a_tasks a3 = [t]) by (rewrite P3; cbn; rewrite T2d, C7; reflexivity).
    rewrite T4 in O4, P4.
    assert (N4 : forall n, dget n [t] = None <-> n <> fst t).
    { intros n. destruct t as [tn tv]. cbn. destruct (eq_dec n tn); split; congruence. }
    destruct ok4.
    2: { split; [|discriminate]. split; [discriminate|]. intros (es' & V). pose proof (Uniq es' V) as ->.
         destruct V as (_ & _ & _ & _ & _ & V6 & V7 & _). inversion V7; subst. apply O4.
         split; [exact V6|]. split; [assumption|]. intros n X. apply N4. intros ->. contradiction. }
    destruct (proj1 O4 eq_refl) as (O4a & O4b & O4c). specialize (P4 eq_refl).
    assert (F4 : FInv a4 es) by (rewrite P4; apply (finv_same a3); [intros []; reflexivity|exact F3]).
    pose proof (each_struct es (g_structs g) a4 F4) as H5.
    destruct (do_each factory_struct (g_structs g) a4) as [a5 ok5]. destruct H5 as (O5 & P5).
    assert (T5 : a_structs a4 = []) by (rewrite P4, P3; cbn; rewrite T2e, C8; reflexivity).
    rewrite T5 in O5, P5.
    destruct ok5.
    2: { split; [|discriminate]. split; [discriminate|]. intros (es' & V). pose proof (Uniq es' V) as ->.
         destruct V as (_ & _ & _ & _ & _ & _ & _ & V8 & V9 & _). apply O5. auto. }
    destruct (proj1 O5 eq_refl) as (O5a & O5b & _). specialize (P5 eq_refl).
    assert (F5 : FInv a5 es) by (rewrite P5; apply (finv_same a4); [intros []; reflexivity|exact F4]).
    pose proof (each_peer es (g_procs g) a5 F5) as H6.
    destruct (do_each factory_process (g_procs g) a5) as [a6 ok6]. destruct H6 as (O6 & P6).
    assert (T6 : a_peers a5 = []) by (rewrite P5, P4, P3; cbn; rewrite T2f, C9; reflexivity).
    rewrite T6 in O6, P6.
    split.
    - split.
      + intros ->. destruct (proj1 O6 eq_refl) as (O6a & O6b & _). exists es.
        split; [exact E|]. split; [exact Fr|]. split; [exact O2a|]. split; [exact O2b|]. split; [exact O3a|].
        split; [exact O4a|]. split.
        * constructor; [|exact O4b]. intros X. specialize (O4c _ X). apply N4 in O4c. contradiction.
        * auto.
      + intros (es' & V). pose proof (Uniq es' V) as ->.
        destruct V as (_ & _ & _ & _ & _ & _ & _ & _ & _ & V10 & V11). apply O6. auto.
    - intros es' -> V. pose proof (Uniq es' V) as ->. specialize (P6 eq_refl).
      rewrite P6, P5, P4, P3. cbn. rewrite P2a, P2b, T2b, T2c, C1, C2, C3, C6. cbn. repeat split.
  Qed.
End Process.

(** ** Starting *)
Lemma string_len_app a b : String.length (a ++ b) = (String.length a + String.length b)%nat.
Proof. induction a; cbn; congruence. Qed.
Lemma append_inv p : forall q s t, String.length s = String.length t ->
  (p ++ s)%string = (q ++ t)%string -> p = q /\ s = t.
Proof.
  induction p as [|x p IH]; intros [|y q] s t L E; cbn in *.
  - auto.
  - subst s. cbn in L. rewrite string_len_app in L. lia.
  - subst t. cbn in L. rewrite string_len_app in L. lia.
  - injection E as -> E. destruct (IH q s t L E) as [-> ->]. auto.
Qed.

Lemma register_envs_ok l : forall d : list (string * owner),
  let '(d', ok) := register_envs l d in
  (ok = true <-> NoDup (map fst l) /\ forall n, In n (map fst l) -> dget n d = None) /\
  (ok = true -> d' = d ++ l).
Proof.
  induction l as [|[n o] l IH]; intros d; cbn [register_envs map fst].
  { split; [split; [intros _; split; [constructor|intros ? []]|reflexivity]|]. intros _. rewrite app_nil_r. reflexivity. }
  destruct (dmem n d) eqn:M.
  { split; [|discriminate]. split; [discriminate|]. intros [_ H]. specialize (H n (or_introl eq_refl)).
    unfold dmem in M. rewrite H in M. discriminate. }
  apply dmem_false in M. rewrite dset_notin by exact M. specialize (IH (d ++ [(n, o)])).
  destruct (register_envs l (d ++ [(n, o)])) as [d' ok]. destruct IH as [I1 I2]. split.
  - rewrite I1. split.
    + intros [H1 H2]. split.
      * constructor; [|exact H1]. intros X. specialize (H2 _ X). rewrite dget_app, M in H2. cbn in H2.
        destruct (eq_dec n n); [discriminate|contradiction].
      * intros k [<-|X]; [exact M|]. specialize (H2 _ X). rewrite dget_app in H2.
        destruct (dget k d); [discriminate|reflexivity].
    + intros [H1 H2]. inversion H1 as [|? ? N1 N2]; subst. split; [exact N2|].
      intros k X. rewrite dget_app, (H2 k (or_intror X)). cbn. destruct (eq_dec k n) as [->|]; [contradiction|reflexivity].
  - intros T. rewrite (I2 T), <- app_assoc. reflexivity.
Qed.

Lemma peer_keys greets ps n : In n (map fst (peer_envs greets ps)) ->
  exists p, In p ps /\ (n = (p ++ ".host")%string \/ n = (p ++ ".peer")%string).
Proof.
  unfold peer_envs. induction ps as [|p ps IH]; cbn [flat_map]; [intros []|].
  rewrite map_app, in_app_iff. intros [H|H].
  - destruct (greets p); cbn in H; [|contradiction]. exists p. split; [left; reflexivity|].
    destruct H as [<-|[<-|[]]]; auto.
  - destruct (IH H) as (q & Q & E). exists q. split; [right; exact Q|exact E].
Qed.

Lemma peer_nodup greets ps : NoDup ps -> NoDup (map fst (peer_envs greets ps)).
Proof.
  unfold peer_envs. induction ps as [|p ps IH]; intros N; cbn [flat_map]; [constructor|].
  inversion N as [|? ? N1 N2]; subst. specialize (IH N2). destruct (greets p); [|exact IH].
  assert (NK : forall k, (k = p ++ ".host" \/ k = p ++ ".peer")%string ->
            ~ In k (map fst (flat_map (fun p0 => if greets p0
               then [((p0 ++ ".host")%string, EHost p0); ((p0 ++ ".peer")%string, EPeer p0)] else []) ps))).
  { intros k K X. apply (peer_keys greets) in X as (q & Q & E).
    destruct K as [-> | ->], E as [E|E]; apply append_inv in E; try reflexivity; destruct E as [-> E];
      try discriminate; contradiction. }
  cbn [map fst app]. constructor.
  - intros [X|X].
    + apply append_inv in X; [|reflexivity]. destruct X as [_ X]. discriminate.
    + apply (NK _ (or_introl eq_refl)). exact X.
  - constructor; [|exact IH]. apply NK. right. reflexivity.
Qed.

Lemma register_peers_ok greets ps : forall d, NoDup ps ->
  (forall n, In n (map fst (peer_envs greets ps)) -> dget n d = None) ->
  register_peers greets ps d = d ++ peer_envs greets ps.
Proof.
  induction ps as [|p ps IH]; intros d N F; cbn [register_peers].
  { unfold peer_envs. cbn. rewrite app_nil_r. reflexivity. }
  inversion N as [|? ? N1 N2]; subst. pose proof (peer_nodup greets (p :: ps) N) as ND.
  unfold peer_envs in *. cbn [flat_map] in *. fold (peer_envs greets ps) in *.
  destruct (greets p) eqn:G.
  - set (two := [((p ++ ".host")%string, EHost p); ((p ++ ".peer")%string, EPeer p)]) in *.
    pose proof (register_envs_ok two d) as R. destruct (register_envs two d) as [d' ok]. destruct R as [R1 R2].
    assert (T : ok = true).
    { apply R1. rewrite map_app in ND. split.
      - clear - ND. cbn in *. inversion ND as [|? ? A B]; subst. inversion B as [|? ? C D]; subst.
        constructor; [|constructor; [intros []|constructor]]. intros [X|[]]. apply A. left. exact X.
      - intros n X. apply F. rewrite map_app, in_app_iff. left. exact X. }
    cbn [fst]. rewrite (R2 T), app_assoc. apply IH; [exact N2|].
    intros n X. rewrite dget_app.
    rewrite (F n) by (rewrite map_app, in_app_iff; right; exact X).
    apply dget_None_notin. intros Y. rewrite map_app in ND.
    clear - ND X Y. unfold dkeys in Y. revert ND. generalize dependent (map fst (peer_envs greets ps)).
    intros l X ND. cbn in *. inversion ND as [|? ? A B]; subst. inversion B as [|? ? C D]; subst.
    destruct Y as [<-|[<-|[]]]; [apply A; right; exact X|contradiction].
  - apply IH; [exact N2|exact F].
Qed.

Section Start.
  Context {conn info : Type} (greets : string -> bool).
  Notation arb := (@arb conn info).

  (** The environments there are once everything is started. *)
  Definition envs_of (a : arb) : list (string * owner) :=
    peer_envs greets (map fst (a_peers a))
    ++ map (fun n => (n, EConn n)) (dkeys (a_conns a) ++ dkeys (a_defer a))
    ++ map (fun n => (n, EStruct n)) (dkeys (a_structs a))
    ++ map (fun n => (n, ETask n)) (dkeys (a_tasks a)).

  Lemma keyed {V} (f : string -> owner) (d : list (string * V)) :
    map (fun kv => (fst kv, f (fst kv))) d = map (fun n => (n, f n)) (dkeys d).
  Proof. unfold dkeys. rewrite map_map. reflexivity. Qed.

  Lemma start_ok (a : arb) : NoDup (map fst (a_peers a)) -> a_awaited a = false ->
    NoDup (dkeys (a_conns a) ++ dkeys (a_defer a)) ->
    forall d, snd (start greets a) = Some d <->
      all_made (a_defer a) = true /\ NoDup (map fst (envs_of a)) /\ d = envs_of a.
  Proof.
    intros NP W ND d. unfold start.
    rewrite (register_peers_ok greets _ [] NP) by reflexivity. cbn [app].
    assert (I : let '(a', ok) := init_connections a in ok = all_made (a_defer a) /\
       (ok = true -> dkeys (a_conns a') = dkeys (a_conns a) ++ dkeys (a_defer a) /\
                     a_structs a' = a_structs a /\ a_tasks a' = a_tasks a)).
    { unfold init_connections. destruct (a_defer a) as [|x d0] eqn:E.
      { split; [reflexivity|]. intros _. cbn. rewrite app_nil_r. auto. }
      rewrite <- E in *. rewrite W. set (a1 := mkArb _ _ _ _ _ _ _ _ _ _ _ _ _).
      destruct (all_made (a_defer a)) eqn:M; [|split; [reflexivity|discriminate]].
      split; [reflexivity|]. intros _.
      destruct (put_deferred_ok (a_defer a) a1) as (A & _ & _ & _ & _ & B & C & _).
      { clear - ND. induction (dkeys (a_conns a)); [exact ND|]. inversion ND; auto. }
      { intros n K. cbn. apply dget_None_notin. intros Y. clear - ND K Y.
        unfold dkeys at 1 in Y. fold (dkeys (a_conns a)) in Y.
        induction (dkeys (a_conns a)) as [|z l IH]; [destruct Y|].
        cbn in ND. inversion ND as [|? ? N1 N2]; subst. destruct Y as [->|Y]; [|apply IH; auto].
        apply N1. apply in_or_app. right. exact K. }
      rewrite A, B, C. cbn [a1 a_conns a_structs a_tasks]. rewrite dkeys_app, (now_of_keys _ M). auto. }
    destruct (init_connections a) as [a' ok]. destruct I as [I1 I2]. subst ok.
    destruct (all_made (a_defer a)) eqn:M.
    2: { cbn. split; [discriminate|]. intros [X _]. discriminate. }
    destruct (I2 eq_refl) as (K1 & K2 & K3). rewrite !keyed, K1, K2, K3.
    set (l := map _ (dkeys (a_conns a) ++ dkeys (a_defer a)) ++ _).
    pose proof (register_envs_ok l (peer_envs greets (map fst (a_peers a)))) as R.
    destruct (register_envs l _) as [d' ok']. destruct R as [R1 R2]. cbn [snd].
    change (envs_of a) with (peer_envs greets (map fst (a_peers a)) ++ l). rewrite map_app.
    assert (Q : ok' = true <-> NoDup (map fst (peer_envs greets (map fst (a_peers a))) ++ map fst l)).
    { rewrite R1. pose proof (peer_nodup greets _ NP) as NPK.
      set (pk := map fst (peer_envs _ _)) in *.
      assert (DG : forall n, dget n (peer_envs greets (map fst (a_peers a))) = None <-> ~ In n pk).
      { intros n. apply dget_None_notin. }
      split.
      - intros [H1 H2]. clearbody pk. clear - NPK H1 H2 DG. 
        assert (H3 : forall n, In n (map fst l) -> ~ In n pk) by (intros n X; apply DG; auto).
        clear DG H2. induction pk as [|z pk IH]; [exact H1|]. cbn. inversion NPK; subst. constructor.
        + rewrite in_app_iff. intros [X|X]; [contradiction|]. apply (H3 z X). left. reflexivity.
        + apply IH; [assumption|]. intros n X Y. apply (H3 n X). right. exact Y.
      - intros H. assert (H' : NoDup (map fst l) /\ forall n, In n (map fst l) -> ~ In n pk).
        { clear - H. induction pk as [|z pk IH]; [split; [exact H|intros ? ? []]|]. cbn in H.
          inversion H as [|? ? N1 N2]; subst. destruct (IH N2) as [A B]. split; [exact A|].
          intros n X [->|Y]; [|apply (B n X Y)]. apply N1. apply in_or_app. right. exact X. }
        destruct H' as [A B]. split; [exact A|]. intros n X. apply DG. auto. }
    destruct ok'.
    - rewrite (R2 eq_refl). split.
      + intros [= <-]. split; [reflexivity|]. split; [apply Q; reflexivity|reflexivity].
      + intros (_ & _ & ->). reflexivity.
    - split; [discriminate|]. intros (_ & X & _). apply Q in X. discriminate.
  Qed.
End Start.

(** ** Files *)
Lemma load_files_ok direct packaged pkgs paths : forall loaded,
  load_files direct packaged pkgs loaded paths =
  (if forallb (fun p => match locate direct packaged pkgs p with Some _ => true | None => false end) paths
   then Some (fold_left (fun l f => if existsb (String.eqb f) l then l else l ++ [f])
                (flat_map (fun p => match locate direct packaged pkgs p with Some f => [f] | None => [] end) paths) loaded)
   else None).
Proof.
  induction paths as [|p paths IH]; intros loaded; [reflexivity|].
  cbn [load_files forallb flat_map]. destruct (locate direct packaged pkgs p) as [f|]; [|reflexivity].
  rewrite IH. reflexivity.
Qed.

Lemma existsb_In n l : existsb (String.eqb n) l = true <-> In n l.
Proof.
  rewrite existsb_exists. split.
  - intros (x & I & E). apply String.eqb_eq in E. subst. exact I.
  - intros I. exists n. split; [exact I|apply String.eqb_refl].
Qed.

Lemma nodup_snoc_r (l : list string) f :
  rev (nodup string_dec (rev (l ++ [f]))) =
  if existsb (String.eqb f) l then rev (nodup string_dec (rev l)) else rev (nodup string_dec (rev l)) ++ [f].
Proof.
  rewrite rev_app_distr. cbn [rev app nodup]. destruct (in_dec string_dec f (rev l)) as [I|I].
  - apply in_rev in I. apply existsb_In in I. rewrite I. reflexivity.
  - destruct (existsb (String.eqb f) l) eqn:E; [|reflexivity].
    apply existsb_In in E. apply in_rev in E. contradiction.
Qed.

Lemma fold_once fs : forall pre,
  fold_left (fun l f => if existsb (String.eqb f) l then l else l ++ [f]) fs (rev (nodup string_dec (rev pre)))
  = rev (nodup string_dec (rev (pre ++ fs))).
Proof.
  induction fs as [|f fs IH]; intros pre; cbn [fold_left]; [rewrite app_nil_r; reflexivity|].
  assert (E : existsb (String.eqb f) (rev (nodup string_dec (rev pre))) = existsb (String.eqb f) pre).
  { apply eq_true_iff_eq. rewrite !existsb_In, <- in_rev, nodup_In, <- in_rev. reflexivity. }
  rewrite E. change (f :: fs) with ([f] ++ fs). rewrite app_assoc, <- IH, nodup_snoc_r. reflexivity.
Qed.

(** ** Searching *)
Section SearchProofs.
  Context {conn : Type} {CD : EqDec conn} (kind : conn -> bool).

  Lemma by_names_ok table found : (forall n, In n found -> dget n table <> None) ->
    exists l, by_names kind table found = Some l /\
      l = filter kind (flat_map (fun n => match dget n table with Some c => [c] | None => [] end) found).
  Proof.
    induction found as [|n found IH]; intros H; cbn [by_names flat_map]; [eauto|].
    destruct IH as (l & -> & E); [intros k K; apply H; right; exact K|].
    destruct (dget n table) as [c|] eqn:D; [|exfalso; apply (H n); [left; reflexivity|exact D]].
    eexists. split; [reflexivity|]. cbn. rewrite E. reflexivity.
  Qed.

  Lemma by_manager_ok managed : forall seen,
    NoDup (by_manager kind seen managed) /\
    forall c, In c (by_manager kind seen managed) <-> kind c = true /\ In c managed /\ ~ In c seen.
  Proof.
    induction managed as [|c managed IH]; intros seen; cbn [by_manager].
    { split; [constructor|]. cbn. tauto. }
    unfold memb. destruct (in_dec eq_dec c seen) as [S|S]; cbn [negb]; rewrite ?andb_false_r, ?andb_true_r.
    - destruct (IH seen) as [N I]. split; [exact N|]. intros x. rewrite I. cbn. split; [tauto|].
      intros (K & [->|M] & X); [contradiction|tauto].
    - destruct (kind c) eqn:K.
      + destruct (IH (c :: seen)) as [N I]. split.
        * constructor; [|exact N]. rewrite I. cbn. tauto.
        * intros x. cbn. rewrite I. cbn. split.
          -- intros [<-|(A & B & C)]; [tauto|]. tauto.
          -- intros (A & [->|B] & C); [left; reflexivity|]. destruct (eq_dec c x); [left; assumption|].
             right. repeat split; auto. tauto.
      + destruct (IH seen) as [N I]. split; [exact N|]. intros x. rewrite I. cbn. split; [tauto|].
        intros (A & [->|M] & X); [congruence|tauto].
  Qed.
End SearchProofs.

(** ** Data *)
Lemma fold_dset_get {A} (l : list (string * A)) : forall r key, NoDup (dkeys l) ->
  dget key (fold_left (fun r kv => dset (fst kv) (snd kv) r) l r) =
  match dget key l with Some v => Some v | None => dget key r end.
Proof.
  induction l as [|[k v] l IH]; intros r key N; [reflexivity|]. inversion N as [|? ? N1 N2]; subst.
  cbn [fold_left fst snd]. rewrite IH by exact N2. cbn [dget]. destruct (eq_dec key k) as [->|Ne].
  - assert (D : dget k l = None) by (apply dget_None_notin; exact N1). rewrite D, dget_dset_eq. reflexivity.
  - rewrite dget_dset_ne by exact Ne. reflexivity.
Qed.
Lemma fold_dset_id {A} (l : list (string * A)) : forall r, NoDup (dkeys r ++ dkeys l) ->
  fold_left (fun r kv => dset (fst kv) (snd kv) r) l r = r ++ l.
Proof.
  induction l as [|[k v] l IH]; intros r N; cbn [fold_left fst snd]; [rewrite app_nil_r; reflexivity|].
  assert (D : dget k r = None).
  { apply dget_None_notin. intros X. cbn in N. apply NoDup_remove_2 in N. apply N. apply in_or_app. left. exact X. }
  rewrite dset_notin by exact D. rewrite IH, <- app_assoc; [reflexivity|].
  rewrite dkeys_app, <- app_assoc. exact N.
Qed.
Lemma fold_skip_get {A} (l : list (string * A)) : forall r key, NoDup (dkeys l) ->
  dget key (fold_left (fun r kv => if String.eqb (fst kv) "config" then r else dset (fst kv) (snd kv) r) l r) =
  if String.eqb key "config" then dget key r else
  match dget key l with Some v => Some v | None => dget key r end.
Proof.
  induction l as [|[k v] l IH]; intros r key N; cbn [fold_left fst snd dget].
  { destruct (String.eqb key "config"); reflexivity. }
  inversion N as [|? ? N1 N2]; subst. rewrite IH by exact N2.
  destruct (String.eqb_spec key "config") as [->|Ne].
  - destruct (String.eqb_spec k "config"); [reflexivity|]. apply dget_dset_ne. congruence.
  - destruct (eq_dec key k) as [->|Nk].
    + assert (D : dget k l = None) by (apply dget_None_notin; exact N1). rewrite D.
      destruct (String.eqb_spec k "config"); [contradiction|]. apply dget_dset_eq.
    + destruct (String.eqb k "config"); [reflexivity|]. rewrite dget_dset_ne by exact Nk. reflexivity.
Qed.
