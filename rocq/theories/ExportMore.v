(** When exporting succeeds, and what a new channel is (C79). *)
From Coq Require Import QArith ZifyBool ZifyNat.
From Verif Require Import Base BaseLemmas PrimModel PrimSpec PrimProofs ScalingModel FieldModel RegistryModel RegistrySpec
  RegistryProofs EnumModel EnvModel EnvSpec EnvProofs EnvWf EnvLife ExportModel ExportSpec ExportProofs ExportLoad ExportRound
  ExportFinal.
Open Scope Z_scope.

Section More.
  Context (valid validE word : string -> bool).
  Context (int_of : string -> option Z) (float_of : string -> option flo)
    (bool_of : string -> option bool) (fround : kind -> flo -> flo).
  Context {C : Type} (cdefault : C -> option num).

  (** Registers have a field. *)
  Definition NE (e : env) : Prop := forall b bf, nth_error (e_bfs e) b = Some bf -> bf_fields bf <> [].

  Lemma adds_bfs enums l : forall e ok,
    e_bfs (fst (fold_left (fun (acc : env * bool) b =>
                 let '(e, ok) := acc in if ok then mgr_add valid enums e b else (e, false)) l (e, ok))) = e_bfs e.
  Proof.
    induction l as [|b l IH]; intros e ok; [reflexivity|]. cbn [fold_left]. destruct ok; [|apply IH].
    assert (H : e_bfs (fst (mgr_add valid enums e b)) = e_bfs e).
    { unfold mgr_add. destruct (nth_error (e_bfs e) b) as [bf|]; [|reflexivity].
      match goal with |- context [fold_left _ _ (?x, true)] => set (e1 := x) end.
      pose proof (mgr_fields_rest valid enums (List.length (e_mgr e)) (bf_fields bf) e1 true) as R. rewrite (proj1 (proj2 (proj2 R))). reflexivity. }
    destruct (mgr_add valid enums e b) as [e1 ok1]. rewrite IH. exact H.
  Qed.
  Lemma finalize_bfs enums e strict : e_bfs (fst (e_finalize valid enums e strict)) = e_bfs e.
  Proof.
    unfold e_finalize. pose proof (adds_bfs enums (e_toadd e) e true) as H.
    destruct (fold_left _ (e_toadd e) (e, true)) as [e1 ok]. cbn [fst] in H.
    destruct ok; [|exact H]. cbn [negb]. destruct (strict && e_finalized e1); exact H.
  Qed.

  Lemma ne_add e r f : NE e ->
    (forall r b, dget r (e_byprim e) = Some b -> nth_error (e_bfs e) b <> None) -> NE (fst (e_add_field e r f)).
  Proof.
    intros H Hb. unfold e_add_field. destruct (e_cell e r); [|exact H]. destruct (negb _); [exact H|].
    assert (U : forall bfs b bf, nth_error bfs b = Some bf ->
      (forall b' bf', b' <> b -> nth_error bfs b' = Some bf' -> bf_fields bf' <> []) ->
      forall b' bf', nth_error (upd bfs b (mkBf (bf_ref bf) (dset (fl_name f) f (bf_fields bf)))) b' = Some bf' -> bf_fields bf' <> []).
    { intros bfs b bf Hbf K b' bf' E. destruct (Nat.eq_dec b b') as [<-|Hne].
      - rewrite (upd_eq _ _ _ _ Hbf) in E. injection E as <-. cbn. destruct (bf_fields bf) as [|[m w] l]; cbn; [discriminate|].
        destruct (eq_dec _ _); discriminate.
      - rewrite upd_ne in E by exact Hne. eapply K; [|exact E]. congruence. }
    destruct (dget r (e_byprim e)) as [b|].
    - destruct (nth_error (e_bfs e) b) as [bf|] eqn:Hbf; [|exact H]. destruct (dmem _ _); [exact H|].
      unfold NE. cbn [fst e_bfs]. apply U; [exact Hbf|]. intros b' bf' _. apply H.
    - cbn [e_bfs]. rewrite nth_error_app2 by lia. rewrite Nat.sub_diag. cbn [nth_error bf_fields dmem dget].
      unfold NE. cbn [fst e_bfs]. apply (U (e_bfs e ++ [mkBf r []]) (List.length (e_bfs e)) (mkBf r [])).
      + rewrite nth_error_app2 by lia. rewrite Nat.sub_diag. reflexivity.
      + intros b' bf' Hne E. destruct (lt_dec b' (List.length (e_bfs e))) as [L|L].
        * rewrite nth_error_app1 in E by exact L. eapply H; exact E.
        * rewrite nth_error_app2 in E by lia. destruct (b' - List.length (e_bfs e))%nat as [|[|]] eqn:Q; [lia|discriminate|discriminate].
  Qed.

  Lemma channel_bfs x name r cmd en desc ctl d :
    e_bfs (x_env (fst (x_channel valid word fround cdefault x name r cmd en desc ctl d))) = e_bfs (x_env x).
  Proof.
    assert (P : forall e r d, e_bfs (put_default fround e r d) = e_bfs e).
    { intros e r0 d0. unfold put_default. destruct d0; [|reflexivity]. destruct (e_cell e r0); [|reflexivity].
      destruct (cell_set fround _ _); reflexivity. }
    assert (Q : forall enums e, e_bfs (fst (e_channel valid enums e name r cmd en)) = e_bfs e).
    { intros enums e. unfold e_channel. destruct (e_finalized e); [reflexivity|]. destruct (negb _); [reflexivity|].
      destruct (r_register _ _ _ _) as [n [[i|]| |]]; try reflexivity. destruct (dmem _ _); [reflexivity|].
      destruct en as [k|]; [destruct (enums k)|]; reflexivity. }
    unfold x_channel. destruct (e_finalized _); [reflexivity|]. destruct (e_cell _ r); [|reflexivity].
    destruct (r_register _ _ _ _) as [n [[i|]| |]]; try reflexivity. destruct (_ && _); [|reflexivity].
    specialize (Q (enums_of (x_enums x)) (x_env x)). destruct (e_channel _ _ _ _ _ _ _) as [e' ok]. cbn [fst] in Q.
    destruct (dmem _ _); cbn [fst x_env with_env]; [exact Q|]. rewrite P. exact Q.
  Qed.

  Lemma ne_step g x o : XI valid word fround cdefault g x -> NE (x_env x) ->
    NE (x_env (fst (x_step valid word int_of float_of bool_of fround cdefault x o))).
  Proof.
    intros X H. destruct o as [n r cmd en desc ctl d|o]; cbn [x_step].
    { unfold NE. rewrite channel_bfs. exact H. }
    destruct o; try (unfold NE; rewrite channel_bfs; exact H); cbn [step].
    - exact H.
    - pose proof (ne_add (x_env x) r f H) as N. destruct (e_add_field (x_env x) r f) as [e ok]. cbn [fst with_env x_env] in *.
      apply N. intros r0 b Hb. destruct (w_byprim _ _ (i_wf _ _ _ _ (xi_env _ _ _ _ _ _ X)) r0 b Hb) as (bf & -> & _). discriminate.
    - pose proof (finalize_bfs (enums_of (x_enums x)) (x_env x) strict) as F.
      destruct (e_finalize _ _ _ _) as [e ok]. cbn [fst with_env x_env] in *. unfold NE. rewrite F. exact H.
    - unfold e_set_bypass. destruct (_ && _); exact H.
    - destruct (e_set _ _ _ _ _ _ _ _) as [e1|] eqn:Q; [|exact H]. cbn [fst with_env x_env].
      apply set_shape in Q as (r & c & _ & ->). exact H.
    - destruct (handle _ _ _ _ _ _ _) as [[e1 rp] calls] eqn:Q. cbn [fst with_env x_env].
      apply handle_same_shape in Q. unfold NE. rewrite Q. exact H.
  Qed.

  Lemma ne_reachable (fi : forall k f, fround k (fround k f) = fround k f) (f0 : forall k, fround k (FFin 0) = FFin 0)
    g x : x_reachable valid word int_of float_of bool_of fround cdefault g x -> NE (x_env x).
  Proof.
    intros [ops <-]. unfold x_run. generalize (xi_new valid word fround cdefault g).
    assert (N : NE (x_env (@x_new C g))) by (intros [|b] bf H; discriminate). revert N. generalize (@x_new C g).
    induction ops as [|o ops IH]; intros x N X; [exact N|]. cbn [fold_left]. apply IH; [eapply ne_step; eauto|apply xi_step; auto].
  Qed.

  Lemma opt_map_total {A B} (f : A -> option B) l : (forall a, In a l -> f a <> None) -> exists bs, opt_map f l = Some bs.
  Proof.
    induction l as [|a l IH]; intros H; [eexists; reflexivity|]. cbn.
    destruct (f a) eqn:E; [|exfalso; apply (H a); [left; reflexivity|exact E]].
    destruct IH as [bs ->]; [intros; apply H; right; assumption|]. eexists; reflexivity.
  Qed.
  Lemma opt_map_some {A B} (f : A -> option B) l bs a : opt_map f l = Some bs -> In a l -> f a <> None.
  Proof.
    intros H Ha. apply opt_map_inv in H. apply In_nth_error in Ha as [i Hi].
    destruct (Forall2_nth _ _ _ H i a Hi) as (b & _ & E). congruence.
  Qed.

  Lemma export_iff (fi : forall k f, fround k (fround k f) = fround k f) (f0 : forall k, fround k (FFin 0) = FFin 0)
    g x re : x_reachable valid word int_of float_of bool_of fround cdefault g x ->
    forall e ok, e_finalize valid (enums_of g) (x_env x) false = (e, ok) ->
    ((exists d, x_export valid x re = (with_env x e, Some d)) <->
     ok = true /\ forall n, In n (m_names (r_map (e_names e))) -> exists v, e_value e (inl n) re true = Ok v).
  Proof.
    intros R e ok F. pose proof (xi_reachable valid word int_of float_of bool_of fround cdefault fi f0 g x R) as X.
    pose proof (ne_reachable fi f0 g x R) as N. pose proof X as [G I M B].
    pose proof (ei_finalize valid fround (enums_of g) (x_env x) false I) as [I1 R1]. rewrite F in I1, R1. cbn [fst] in I1, R1.
    pose proof (xi_er valid word fround cdefault g x e X I1 R1) as X2.
    assert (Nb : NE e). { unfold NE. pose proof (finalize_bfs (enums_of g) (x_env x) false) as Q. rewrite F in Q. cbn [fst] in Q. rewrite Q. exact N. }
    unfold x_export. rewrite G, F. destruct ok; cbn [negb]; [|split; [intros [d H]; discriminate|intros [H _]; discriminate]].
    destruct (opt_map_total (chan_dict (with_env x e)) (e_chans e)) as [cs ->].
    { intros [n ch] H. apply In_dget in H; [|apply I1].
      destruct (xi_meta _ _ _ _ _ _ X2 n ch H) as (m & c & A1 & A2 & _). unfold chan_dict. cbn [fst snd]. rewrite A1, A2. discriminate. }
    destruct (opt_map_total (regs_dict e) (e_mgr e)) as [fs ->].
    { intros b H. assert (Hb : (b < List.length (e_bfs e))%nat) by (apply (w_toadd _ _ (i_wf _ _ _ _ I1)); apply (i_mgr _ _ _ _ I1); exact H).
      unfold regs_dict. destruct (nth_error (e_bfs e) b) as [bf|] eqn:Hbf; [|apply nth_error_None in Hbf; lia].
      destruct (w_bfs _ _ (i_wf _ _ _ _ I1) b bf Hbf) as (_ & c & Hc & K). rewrite Hc.
      pose proof (Nb b bf Hbf) as Ne. destruct (bf_fields bf) as [|[n f] l]; [congruence|].
      destruct (K n f) as [_ Ok]; [cbn; destruct (eq_dec n n); congruence|].
      pose proof (w_cells _ _ (i_wf _ _ _ _ I1) _ _ Hc) as Co. unfold field_ok in Ok. repeat (apply andb_prop in Ok as [Ok ?]).
      destruct c as [k sc [z|fl]]; [discriminate|]. cbn in *. exfalso. unfold cell_ok in Co. cbn in Co.
      destruct k; try discriminate; cbn in Co; try congruence; intuition congruence. }
    split.
    - intros [d H]. split; [reflexivity|]. intros n Hn.
      destruct (values e re) as [vs|] eqn:V; [|discriminate].
      unfold values in V. match type of V with option_map _ ?o = _ => destruct o as [all|] eqn:A end; [|discriminate].
      pose proof (opt_map_some _ _ _ n A Hn) as Q. cbv beta in Q. destruct (e_value e (inl n) re true) as [v|]; [eauto|congruence].
    - intros [_ H]. unfold values.
      match goal with |- context [option_map _ (opt_map ?f ?l)] => destruct (opt_map_total f l) as [vs ->] end.
      { intros n Hn. destruct (H n Hn) as [v ->]. discriminate. }
      cbn [option_map]. eexists; reflexivity.
  Qed.

  Lemma created g x name r cmd en desc ctl d x' : XI valid word fround cdefault g x ->
    x_channel valid word fround cdefault x name r cmd en desc ctl d = (x', true) ->
    exists c c' i, e_cell (x_env x) r = Some c /\ e_cell (x_env x') r = Some c' /\
      m_identifier (r_map (e_names (x_env x'))) name = Some i /\
      channel_view x' (inl name) =
        Some (i, c_kind c, cmd, en, match desc with Some EmptyString => None | _ => desc end, ctl, dflt cdefault d ctl) /\
      match dflt cdefault d ctl with
      | None => c' = c
      | Some n => cell_set fround c n = Ok c'
      end.
  Proof.
    intros X H. pose proof X as [G I M B].
    pose proof (i_wf _ _ _ _ I) as W. unfold x_channel in H.
    destruct (e_finalized (x_env x)) eqn:Fin; [discriminate|].
    destruct (e_cell (x_env x) r) as [c|] eqn:Hc; [|discriminate].
    destruct (r_register valid (e_names (x_env x)) name None) as [n out] eqn:R.
    destruct out as [[i|]| |]; try discriminate.
    destruct (chan_schema word (c_kind c) i en && default_fits (c_kind c) (dflt cdefault d ctl)) eqn:Sc; [|discriminate].
    apply andb_prop in Sc as [_ Df].
    destruct (register_known valid (x_env x) name n (Ret (Some i)) (w_names _ _ W) R) as (_ & _ & Kn).
    specialize (Kn i eq_refl).
    unfold e_channel in H. rewrite Fin, R in H.
    assert (Lt : Nat.ltb r (List.length (e_heap (x_env x))) = true).
    { apply Nat.ltb_lt. apply nth_error_Some. unfold e_cell in Hc. congruence. }
    rewrite Lt in H. cbn [negb e_chans with_names] in H. destruct (dmem name (e_chans (x_env x))) eqn:D; [discriminate|].
    set (en' := match en with Some k => enums_of (x_enums x) k | None => None end).
    assert (E : x' = mkX (put_default fround (with_chans (with_names (x_env x) n) (dset name (mkChan r cmd en') (e_chans (x_env x)))) r (dflt cdefault d ctl))
                  (dset name (mkMeta i en (keep_desc desc) ctl (dflt cdefault d ctl)) (x_meta x)) (x_enums x)).
    { unfold en'. destruct en as [k|]; [destruct (enums_of (x_enums x) k)|]; injection H as <-; reflexivity || discriminate. }
    assert (Ks : e_cell (with_chans (with_names (x_env x) n) (dset name (mkChan r cmd en') (e_chans (x_env x)))) r = Some c) by exact Hc.
    clear H. set (e1 := with_chans (with_names (x_env x) n) (dset name (mkChan r cmd en') (e_chans (x_env x)))) in *.
    assert (P : exists c', e_cell (put_default fround e1 r (dflt cdefault d ctl)) r = Some c' /\ c_kind c' = c_kind c /\
      match dflt cdefault d ctl with None => c' = c | Some n => cell_set fround c n = Ok c' end).
    { unfold put_default. destruct (dflt cdefault d ctl) as [dv|]; [|exists c; auto]. rewrite Ks.
      destruct (cell_set fround c dv) as [c'|] eqn:S.
      - exists c'. split; [|split; [eapply cell_set_ok; eauto|reflexivity]]. unfold e_cell. cbn.
        apply (upd_eq _ _ _ _ Ks).
      - exfalso. unfold cell_set in S. destruct c as [k s w]; cbn in *. unfold default_fits in Df.
        destruct dv; cbn in *; destruct k; cbn in *; discriminate. }
    assert (Sh : same_shape e1 (put_default fround e1 r (dflt cdefault d ctl))).
    { unfold put_default. destruct (dflt cdefault d ctl); [|apply same_shape_refl]. rewrite Ks. destruct (cell_set fround c _); [apply same_shape_put|apply same_shape_refl]. }
    destruct P as (c' & P1 & P2 & P3). subst x'. set (e2 := put_default fround e1 r (dflt cdefault d ctl)) in *.
    exists c, c', i. split; [reflexivity|]. split; [exact P1|]. cbn [x_env x_meta]. split; [|split; [|exact P3]].
    - rewrite Sh. exact Kn.
    - unfold channel_view. cbn [x_env x_meta].
      assert (Nm : e_name e2 (inl name) = Some name).
      { rewrite Sh. cbn. unfold m_name_str, dmem. rewrite Kn. reflexivity. }
      rewrite Nm. replace (dget name (e_chans e2)) with (Some (mkChan r cmd en')).
      2:{ rewrite Sh. cbn. rewrite dget_dset. destruct (eq_dec name name); congruence. }
      rewrite dget_dset. destruct (eq_dec name name); [|congruence]. cbn [ch_ref ch_cmd]. rewrite P1, P2. reflexivity.
  Qed.
End More.
