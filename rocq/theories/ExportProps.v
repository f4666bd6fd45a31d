(** Property C79: an environment survives being exported and loaded. *)
From Coq Require Import QArith ZifyBool ZifyNat.
From Verif Require Import Base BaseLemmas PrimModel PrimSpec ScalingModel FieldModel FieldSpec FieldProofs RegistryModel RegistrySpec
  EnumModel EnumSpec EnvModel EnvSpec EnvProofs EnvWf EnvLife ExportModel ExportSpec ExportProofs ExportLoad ExportRound
  ExportApply ExportBuild ExportFinal ExportMore.
Open Scope Z_scope.

Section Props.
  Context (valid validE word : string -> bool).
  Context (int_of : string -> option Z) (float_of : string -> option flo)
    (bool_of : string -> option bool) (fround : kind -> flo -> flo).
  Context {C : Type} (cdefault : C -> option num).
  Notation export := (x_export valid).
  Notation load := (x_load valid validE word int_of float_of bool_of fround cdefault).
  Notation reachable := (x_reachable valid word int_of float_of bool_of fround cdefault).

  (** C79, for the environments the exported form can carry ([portable]): after
      any history, loading what was exported succeeds and gives a finalized
      environment in which every name and identifier, enumeration, channel, bit
      field and value is what it was.
      Missing: environments that are not portable, for which it is false (the
      theorems below). *)
  Theorem C79_reload_partial :
    (forall k f, fround k (fround k f) = fround k f) -> (forall k, fround k (FFin 0) = FFin 0) ->
    forall g x re x1 d,
      ereg_ok validE g -> reachable g x ->
      export x re = (x1, Some d) -> portable word x1 re ->
      exists x', load d = Some x' /\ same_view int_of bool_of x1 x' /\ e_finalized (x_env x') = true.
  Proof.
    intros F1 F2 g x re x1 d G R X P. eapply (round_trip _ _ _ _ _ _ _ _ g); [|apply ereg_facts; exact G|exact P].
    eapply (export_facts valid word int_of float_of bool_of); [|exact X]. eapply xi_reachable; eauto.
  Qed.

  (** C79.  A call that creates a channel and returns gives a channel with the
      type of the primitive and all that was asked for (no empty description);
      its primitive holds the default value, if there is one. *)
  Theorem C79_created :
    (forall k f, fround k (fround k f) = fround k f) -> (forall k, fround k (FFin 0) = FFin 0) ->
    forall g x name r cmd en desc ctl d x',
      reachable g x ->
      x_step valid word int_of float_of bool_of fround cdefault x (XChannel name r cmd en desc ctl d) = (x', true) ->
      exists c c' i, e_cell (x_env x) r = Some c /\ e_cell (x_env x') r = Some c' /\
        m_identifier (r_map (e_names (x_env x'))) name = Some i /\
        channel_view x' (inl name) =
          Some (i, c_kind c, cmd, en, match desc with Some EmptyString => None | _ => desc end, ctl,
                match d, ctl with Some n, _ => Some n | None, Some c => cdefault c | None, None => None end) /\
        match (match d, ctl with Some n, _ => Some n | None, Some c => cdefault c | None, None => None end) with
        | None => c' = c
        | Some n => cell_set fround c n = Ok c'
        end.
  Proof.
    intros F1 F2 g x name r cmd en desc ctl d x' R H. cbn [x_step] in H.
    assert (E : (match d, ctl with Some n, _ => Some n | None, Some c => cdefault c | None, None => None end) = dflt cdefault d ctl)
      by (destruct d, ctl; reflexivity).
    rewrite E. eapply (created valid word fround cdefault); [|exact H]. eapply xi_reachable; eauto.
  Qed.

  (** C79.  Exporting succeeds exactly if finalizing does and every name that
      is registered then has a value. *)
  Theorem C79_export_exact :
    (forall k f, fround k (fround k f) = fround k f) -> (forall k, fround k (FFin 0) = FFin 0) ->
    forall g x re e ok, reachable g x -> e_finalize valid (enums_of g) (x_env x) false = (e, ok) ->
      ((exists x1 d, export x re = (x1, Some d)) <->
       ok = true /\ forall n, m_identifier (r_map (e_names e)) n <> None ->
         exists v, e_value e (inl n) re true = Ok v).
  Proof.
    intros F1 F2 g x re e ok R H.
    pose proof (export_iff valid word int_of float_of bool_of fround cdefault F1 F2 g x re R e ok H) as Q.
    assert (N : forall n, In n (m_names (r_map (e_names e))) <-> m_identifier (r_map (e_names e)) n <> None).
    { intros n. unfold m_names, m_identifier. split.
      - intros K. apply in_map_iff in K as ([n' i] & <- & K). cbn. intros Z. apply dget_None_notin in Z. apply Z.
        apply in_map_iff. exists (n', i). auto.
      - intros K. destruct (dget n (m_rev (r_map (e_names e)))) as [i|] eqn:Z; [|congruence].
        apply dget_In in Z. apply in_map_iff. exists (n, i). auto. }
    split.
    - intros (x1 & d & X). destruct Q as [Q _]. destruct Q as [Q1 Q2].
      + exists d. rewrite X. f_equal. unfold x_export in X. destruct R as [ops Rx].
        assert (G : x_enums x = g).
        { pose proof (xi_reachable valid word int_of float_of bool_of fround cdefault F1 F2 g x (ex_intro _ ops Rx)) as XI0. apply XI0. }
        rewrite G, H in X. destruct ok; cbn [negb] in X; [|discriminate]. congruence.
      + split; [exact Q1|]. intros n Hn. apply Q2, N, Hn.
    - intros [Q1 Q2]. destruct Q as [_ Q]. destruct Q as [d Hd]; [|eauto].
      split; [exact Q1|]. intros n Hn. apply Q2, N, Hn.
  Qed.

  (** C79.  Exporting changes no stored value and no channel. *)
  Theorem C79_export_keeps :
    forall (x x1 : xenv C) re o, export x re = (x1, o) ->
      e_heap (x_env x1) = e_heap (x_env x) /\ e_chans (x_env x1) = e_chans (x_env x) /\
      x_meta x1 = x_meta x /\ x_enums x1 = x_enums x.
  Proof.
    intros x x1 re o. unfold x_export, e_finalize.
    pose proof (adds_heap valid (enums_of (x_enums x)) (e_toadd (x_env x)) (x_env x) true) as Hh.
    pose proof (adds_chans valid (enums_of (x_enums x)) (e_toadd (x_env x)) (x_env x) true) as Hc.
    unfold adds in Hc. apply proj1 in Hc. revert Hh Hc.
    destruct (fold_left _ (e_toadd (x_env x)) (x_env x, true)) as [e ok]. cbn [fst]. intros Hh Hc.
    destruct ok; cbn [negb andb]; intros H; injection H as <- <-; cbn; auto.
  Qed.

  (** C79.  The scaling of a channel is not exported: no channel of a loaded
      environment is scaled. *)
  Theorem C79_scaling_lost :
    forall d x', load d = Some x' -> forall r c, e_cell (x_env x') r = Some c -> c_scaling c = [].
  Proof. apply load_plain. Qed.

  (** C79.  Every export adds the registers once more: the second of two
      exports lists each of them one time more than the first. *)
  Theorem C79_registers_repeat :
    forall (x x1 x2 : xenv C) re re' d d',
      export x re = (x1, Some d) -> export x1 re' = (x2, Some d') ->
      e_toadd (x_env x1) = e_toadd (x_env x) /\
      List.length (jv_fields d') = (List.length (jv_fields d) + List.length (e_toadd (x_env x)))%nat.
  Proof.
    assert (K : forall (x x1 : xenv C) re d, export x re = (x1, Some d) ->
              e_toadd (x_env x1) = e_toadd (x_env x) /\
              List.length (e_mgr (x_env x1)) = (List.length (e_mgr (x_env x)) + List.length (e_toadd (x_env x)))%nat /\
              List.length (jv_fields d) = List.length (e_mgr (x_env x1))).
    { intros x x1 re d. unfold x_export, e_finalize.
      pose proof (adds_mgr valid (enums_of (x_enums x)) (e_toadd (x_env x)) (x_env x) true) as Hh.
      destruct (fold_left _ (e_toadd (x_env x)) (x_env x, true)) as [e ok]. cbn [fst snd] in Hh.
      destruct ok; cbn [negb andb]; [|discriminate]. destruct (Hh eq_refl) as [H1 H2].
      cbn [e_chans e_mgr]. destruct (opt_map (chan_dict _) _) as [cs|]; [|discriminate].
      match goal with |- context [opt_map (regs_dict ?q) ?l] => destruct (opt_map (regs_dict q) l) as [fs|] eqn:Ef end; [|discriminate].
      destruct (values _ _) as [vs|]; [|discriminate].
      intros H; injection H as <- <-. cbn. apply opt_map_inv in Ef. apply Forall2_len in Ef. auto. }
    intros x x1 x2 re re' d d' H1 H2. apply K in H1 as (A1 & A2 & A3), H2 as (B1 & B2 & B3).
    split; [exact A1|]. rewrite B3, B2, A1, A3. reflexivity.
  Qed.
End Props.
Print Assumptions C79_reload_partial.
Print Assumptions C79_created.
Print Assumptions C79_export_exact.
Print Assumptions C79_export_keeps.
Print Assumptions C79_scaling_lost.
Print Assumptions C79_registers_repeat.

(** ** What is false without [portable] *)

(** Numbers written in decimal are not needed here; names are runtimepy's. *)
Definition xq_int (_ : string) : option Z := None.
Definition xq_flo (_ : string) : option flo := None.
Definition xq_bool (s : string) : option bool :=
  if String.eqb s "true" then Some true else if String.eqb s "false" then Some false else None.
Definition xq_word (s : string) : bool := valid_name s.
Definition xq_dflt (_ : unit) : option num := None.
Definition xq_run := x_run valid_name xq_word xq_int xq_flo xq_bool (fun _ f => f) xq_dflt.
Definition xq_load := x_load valid_name valid_name xq_word xq_int xq_flo xq_bool (fun _ f => f) xq_dflt.
Definition xq_export := @x_export valid_name unit.
Definition xq_reach := x_reachable valid_name xq_word xq_int xq_flo xq_bool (fun _ f => f) xq_dflt.

(** An integer enumeration [mode] and a boolean one [onoff]. *)
Definition xq_items : list (string * RegistryModel.item epay) :=
  match e_new_int valid_name [ByName "idle" 1; ByName "busy" 5],
        e_new_bool valid_name [ByName "on" true; ByName "off" false] with
  | Some a, Some b => [("mode"%string, mkItem 1 ("uint8"%string, a)); ("onoff"%string, mkItem 2 ("bool"%string, b))]
  | _, _ => []
  end.
Definition xq_g : ereg :=
  match g_new valid_name xq_items with Some g => g | None => mkRegistry [] (mkNreg (mkNmap [] [] []) 1) end.

Lemma xq_g_ok : ereg_ok valid_name xq_g.
Proof.
  exists xq_g. split; [|split; [reflexivity|split]].
  - exists xq_items, xq_g, []. split; [|split; [vm_compute; reflexivity|reflexivity]].
    vm_compute. repeat constructor; cbn; intuition discriminate.
  - repeat constructor.
  - repeat constructor; cbn; try lia.
    + exists (snd (i_payload (snd (nth 0 xq_items (EmptyString, mkItem 0 (EmptyString, EBool (mkNmap [] [] []))))))), [].
      split; [|vm_compute; reflexivity].
      left. exists [ByName "idle" 1; ByName "busy" 5]. vm_compute. reflexivity.
    + exists (snd (i_payload (snd (nth 1 xq_items (EmptyString, mkItem 0 (EmptyString, EBool (mkNmap [] [] []))))))), [].
      split; [|vm_compute; reflexivity].
      right. exists [ByName "on" true; ByName "off" false]. vm_compute. reflexivity.
Qed.

(** Channels with and without enumeration, of each type, one with a default
    value, and a register with two fields, one with an enumeration. *)
Definition xq_ops : list (xop unit) :=
  [XOther (OPrim U8 []); XChannel "state" 0%nat true (Some (inl "mode"%string)) (Some "current"%string) None (Some (NInt 1));
   XOther (OPrim Float []); XChannel "level" 1%nat false None None None None;
   XOther (OPrim KBool []); XChannel "flag" 2%nat true (Some (inr 2)) None None None;
   XOther (OPrim U16 []);
   XOther (OAddField 3%nat (mkField "low" 0 4 None true None));
   XOther (OAddField 3%nat (mkField "kind" 4 3 (Some (inl "mode"%string)) false (Some "which"%string)));
   XOther (OFinalize true);
   XOther (OSet (inl "state"%string) (CStr "busy") true);
   XOther (OSet (inl "level"%string) (CNum (NFlo (FFin (5 # 2)))) true);
   XOther (OSet (inl "flag"%string) (CStr "on") true);
   XOther (OSet (inl "low"%string) (CNum (NInt 9)) true);
   XOther (OSet (inl "kind"%string) (CStr "busy") true)].
Definition xq_env : xenv unit := xq_run (x_new xq_g) xq_ops.

Definition xq_x1 : xenv unit := Eval vm_compute in fst (xq_export xq_env true).
Lemma xq_portable re : portable xq_word xq_x1 re.
Proof.
  split.
  - intros n H. vm_compute in H. repeat (destruct H as [<-|H]; [split; [discriminate|apply FieldProofs.lower_chars; vm_compute; reflexivity]|]). destruct H.
  - intros n ch H. apply dget_In in H. vm_compute in H.
    repeat (destruct H as [H|H]; [injection H as <- <-; vm_compute; reflexivity|]). destruct H.
  - intros n ch c H Hc. apply dget_In in H. vm_compute in H.
    repeat (destruct H as [H|H]; [injection H as <- <-; cbn in Hc; injection Hc as <-; cbn; split; [reflexivity|discriminate]|]).
    destruct H.
  - intros n m k H Hk. apply dget_In in H. vm_compute in H.
    repeat (destruct H as [H|H]; [injection H as <- <-; cbn in Hk; first [discriminate Hk|injection Hk as <-; vm_compute; discriminate]|]).
    destruct H.
  - intros _ n ch c en H Hc He. apply dget_In in H. vm_compute in H.
    repeat (destruct H as [H|H]; [injection H as <- <-; cbn in Hc, He; injection Hc as <-; cbn;
      first [discriminate He|injection He as <-; split; [intros [X|[X|X]]; discriminate X|first [discriminate|eauto]]]|]).
    destruct H.
  - intros b bf c Hb Hbf Hc. cbn in Hb.
    repeat (destruct Hb as [Hb|Hb]; [subst b; cbn in Hbf; injection Hbf as <-; cbn in Hc; injection Hc as <-; cbn|]); try destruct Hb.
    all: split; [eexists; constructor|]; split.
    all: try (intros n f [H|[H|[]]]; injection H as <- <-; cbn; repeat split; try lia; reflexivity).
    all: intros n f n' f' [H|[H|[]]] [H'|[H'|[]]]; injection H as <- <-; injection H' as <- <-; cbn; intros Hne;
      try congruence; unfold disjoint, covers; cbn; lia.
Qed.

(** The hypotheses of [C79_reload_partial] hold of it, and what it concludes. *)
Example C79_reload_example :
  exists d, xq_export xq_env true = (xq_x1, Some d) /\
    jv_values d = [("state"%string, CStr "busy"); ("level"%string, CNum (NFlo (FFin (5 # 2)))); ("flag"%string, CStr "on");
                   ("low"%string, CNum (NInt 9)); ("kind"%string, CStr "busy")] /\
    exists x', xq_load d = Some x' /\ same_view xq_int xq_bool xq_x1 x' /\
      e_finalized (x_env x') = true.
Proof.
  eexists. split; [vm_compute; reflexivity|]. split; [vm_compute; reflexivity|].
  unfold xq_load. eapply (C79_reload_partial valid_name valid_name xq_word xq_int xq_flo xq_bool (fun _ f => f) xq_dflt
           (fun _ _ => eq_refl) (fun _ => eq_refl) xq_g xq_env true);
    [exact xq_g_ok|exists xq_ops; unfold xq_env, xq_run; reflexivity|vm_compute; reflexivity|apply xq_portable].
Qed.

Notation xq_of ops := (xq_run (x_new xq_g) ops).

(** Scaling: a channel with scaling 1 + 2 x and raw value 5 is 11; loaded, its
    raw value is 11. *)
Definition xq_scaled : list (xop unit) :=
  [XOther (OPrim U8 [1%Q; 2%Q]); XChannel "a" 0%nat true None None None None;
   XOther (OSet (inl "a"%string) (CNum (NInt 5)) false)].
Theorem C79_scaling_refuted :
  exists x x1 d x', xq_reach xq_g x /\ xq_export x true = (x1, Some d) /\ xq_load d = Some x' /\
    e_value (x_env x1) (inl "a"%string) true false = Ok (CNum (NInt 5)) /\
    e_value (x_env x') (inl "a"%string) true false = Ok (CNum (NInt 11)).
Proof.
  exists (xq_of xq_scaled). do 3 eexists. split; [exists xq_scaled; unfold xq_run; reflexivity|].
  repeat (split; [vm_compute; reflexivity|]). vm_compute; reflexivity.
Qed.

(** A value its enumeration has no name for: exporting raises. *)
Definition xq_unnamed : list (xop unit) :=
  [XOther (OPrim U8 []); XChannel "a" 0%nat true (Some (inl "mode"%string)) None None None].
Theorem C79_unnamed_refuted :
  exists x, xq_reach xq_g x /\ e_value (x_env x) (inl "a"%string) false true = Ok (CNum (NInt 0)) /\
    snd (xq_export x true) = None /\ snd (xq_export x false) <> None.
Proof.
  exists (xq_of xq_unnamed). split; [exists xq_unnamed; unfold xq_run; reflexivity|].
  repeat (split; [vm_compute; reflexivity|]). vm_compute. discriminate.
Qed.

(** A boolean channel with an integer enumeration: what is exported cannot be
    loaded. *)
Definition xq_boolint : list (xop unit) :=
  [XOther (OPrim KBool []); XChannel "a" 0%nat true (Some (inl "mode"%string)) None None (Some (NBool true))].
Theorem C79_bool_enum_refuted :
  exists x x1 d, xq_reach xq_g x /\ xq_export x true = (x1, Some d) /\
    jv_values d = [("a"%string, CStr "idle")] /\ xq_load d = None.
Proof.
  exists (xq_of xq_boolint). do 2 eexists. split; [exists xq_boolint; unfold xq_run; reflexivity|].
  repeat (split; [vm_compute; reflexivity|]). vm_compute; reflexivity.
Qed.

(** NaN is not exported: the loaded channel has its default value. *)
Definition xq_nan : list (xop unit) :=
  [XOther (OPrim Double []); XChannel "a" 0%nat true None None None (Some (NFlo (FFin 1)));
   XOther (OSet (inl "a"%string) (CNum (NFlo FNan)) true)].
Theorem C79_nan_refuted :
  exists x x1 d x', xq_reach xq_g x /\ xq_export x true = (x1, Some d) /\ xq_load d = Some x' /\
    e_value (x_env x1) (inl "a"%string) true true = Ok (CNum (NFlo FNan)) /\
    e_value (x_env x') (inl "a"%string) true true = Ok (CNum (NFlo (FFin 1))).
Proof.
  exists (xq_of xq_nan). do 3 eexists. split; [exists xq_nan; unfold xq_run; reflexivity|].
  repeat (split; [vm_compute; reflexivity|]). vm_compute; reflexivity.
Qed.

(** A name with an upper-case letter can be used but not loaded. *)
Definition xq_upper : list (xop unit) :=
  [XOther (OPrim U8 []); XChannel "A" 0%nat true None None None None].
Theorem C79_upper_refuted :
  exists x x1 d, xq_reach xq_g x /\ xq_export x true = (x1, Some d) /\
    e_value (x_env x1) (inl "A"%string) true true = Ok (CNum (NInt 0)) /\ xq_load d = None.
Proof.
  exists (xq_of xq_upper). do 2 eexists. split; [exists xq_upper; unfold xq_run; reflexivity|].
  repeat (split; [vm_compute; reflexivity|]). vm_compute; reflexivity.
Qed.

(** A channel that could not be created leaves its name behind: exporting
    raises, whatever happens later with the other channels. *)
Definition xq_orphan : list (xop unit) :=
  [XOther (OPrim U8 []); XChannel "a" 0%nat true None None None None;
   XOther (OPrim Half []); XChannel "b" 1%nat true None None None None].
Theorem C79_orphan_refuted :
  exists x, xq_reach xq_g x /\ map fst (e_chans (x_env x)) = ["a"%string] /\
    snd (xq_export x true) = None /\ snd (xq_export x false) = None.
Proof.
  exists (xq_of xq_orphan). split; [exists xq_orphan; unfold xq_run; reflexivity|].
  repeat (split; [vm_compute; reflexivity|]). vm_compute; reflexivity.
Qed.

(** A channel and a bit field on the same primitive are separate when loaded:
    setting the field no longer changes the channel. *)
Definition xq_shared : list (xop unit) :=
  [XOther (OPrim U8 []); XChannel "a" 0%nat true None None None None;
   XOther (OAddField 0%nat (mkField "f" 0 4 None true None)); XOther (OFinalize true)].
Definition xq_after (x : xenv unit) : res cval :=
  e_value (x_env (xq_run x [XOther (OSet (inl "f"%string) (CNum (NInt 3)) true)])) (inl "a"%string) true true.
Theorem C79_shared_refuted :
  exists x x1 d x', xq_reach xq_g x /\ xq_export x true = (x1, Some d) /\ xq_load d = Some x' /\
    xq_after x1 = Ok (CNum (NInt 3)) /\ xq_after x' = Ok (CNum (NInt 0)).
Proof.
  exists (xq_of xq_shared). do 3 eexists. split; [exists xq_shared; unfold xq_run; reflexivity|].
  repeat (split; [vm_compute; reflexivity|]). vm_compute; reflexivity.
Qed.

(** Overlapping bit fields can be added but not loaded. *)
Definition xq_overlap : list (xop unit) :=
  [XOther (OPrim U8 []);
   XOther (OAddField 0%nat (mkField "f" 0 4 None true None));
   XOther (OAddField 0%nat (mkField "h" 2 4 None true None))].
Theorem C79_overlap_refuted :
  exists x x1 d, xq_reach xq_g x /\ xq_export x true = (x1, Some d) /\
    map fst (jv_values d) = ["f"%string; "h"%string] /\ xq_load d = None.
Proof.
  exists (xq_of xq_overlap). do 2 eexists. split; [exists xq_overlap; unfold xq_run; reflexivity|].
  repeat (split; [vm_compute; reflexivity|]). vm_compute; reflexivity.
Qed.

(** When a channel has the name of a bit field, its value is lost. *)
Definition xq_twice : list (xop unit) :=
  [XOther (OPrim U8 []); XChannel "a" 0%nat true None None None None;
   XOther (OSet (inl "a"%string) (CNum (NInt 7)) true); XOther (OPrim U8 []);
   XOther (OAddField 1%nat (mkField "a" 0 4 None true None)); XOther (OFinalize true)].
Definition xq_raw (x : xenv unit) : option stored :=
  match e_get (x_env x) (inl "a"%string) with
  | Some ch => option_map c_raw (e_cell (x_env x) (ch_ref ch))
  | None => None
  end.
Theorem C79_same_name_refuted :
  exists x x1 d x', xq_reach xq_g x /\ xq_export x true = (x1, Some d) /\ xq_load d = Some x' /\
    xq_raw x1 = Some (RI 7) /\ xq_raw x' = Some (RI 0).
Proof.
  exists (xq_of xq_twice). do 3 eexists. split; [exists xq_twice; unfold xq_run; reflexivity|].
  repeat (split; [vm_compute; reflexivity|]). vm_compute; reflexivity.
Qed.

(** A channel of the demonstration environment, and what exporting it needs. *)
Example C79_created_example :
  channel_view xq_env (inl "state"%string) =
    Some (1, U8, true, Some (inl "mode"%string), Some "current"%string, None, Some (NInt 1)) /\
  let '(e, ok) := e_finalize valid_name (enums_of xq_g) (x_env xq_env) false in
  ok = true /\ map (fun n => e_value e (inl n) true true) (m_names (r_map (e_names e))) =
    [Ok (CStr "busy"); Ok (CNum (NFlo (FFin (5 # 2)))); Ok (CStr "on"); Ok (CNum (NInt 9)); Ok (CStr "busy")].
Proof. vm_compute. repeat split. Qed.

(** Exporting twice lists the register twice, and that can still be loaded. *)
Example C79_registers_repeat_example :
  let x1 := fst (xq_export xq_env true) in
  match snd (xq_export xq_env true), snd (xq_export x1 true) with
  | Some d, Some d' =>
      List.length (e_toadd (x_env xq_env)) = 1%nat /\ List.length (jv_fields d) = 2%nat /\
      List.length (jv_fields d') = 3%nat /\
      match xq_load d' with Some x' => e_value (x_env x') (inl "low"%string) true true = Ok (CNum (NInt 9)) | None => False end
  | _, _ => False
  end.
Proof. vm_compute. repeat split. Qed.

Print Assumptions C79_scaling_refuted.
Print Assumptions C79_unnamed_refuted.
Print Assumptions C79_bool_enum_refuted.
Print Assumptions C79_nan_refuted.
Print Assumptions C79_upper_refuted.
Print Assumptions C79_orphan_refuted.
Print Assumptions C79_shared_refuted.
Print Assumptions C79_overlap_refuted.
Print Assumptions C79_same_name_refuted.
