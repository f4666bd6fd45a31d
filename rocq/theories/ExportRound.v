(** The round trip of C79. *)
From Coq Require Import QArith ZifyBool ZifyNat.
From Verif Require Import Base BaseLemmas PrimModel PrimSpec PrimProofs ScalingModel FieldModel FieldSpec FieldProofs
  FieldExportProofs RegistryModel RegistrySpec RegistryProofs EnumModel EnumSpec EnumProofs
  EnvModel EnvSpec EnvProofs EnvWf EnvLife EnvValue ExportModel ExportSpec ExportProofs ExportLoad.
Open Scope Z_scope.

Lemma last_owner_some e n l : forall o, (forall o', last_owner e n l o' = last_owner e n l o) \/
  ((forall b, In b l -> has_name e n b = false) /\ forall o', last_owner e n l o' = o').
Proof.
  unfold last_owner. induction l as [|b l IH]; intros o; [right; split; [intros ? []|reflexivity]|]. cbn [fold_left].
  destruct (has_name e n b) eqn:E; [left; reflexivity|]. destruct (IH o) as [H|[H1 H2]].
  - left. exact H.
  - right. split; [|exact H2]. intros b' [<-|Hb]; auto.
Qed.
Lemma last_owner_none e n l : (forall b, In b l -> has_name e n b = false) -> forall o, last_owner e n l o = o.
Proof.
  unfold last_owner. induction l as [|b l IH]; intros H o; [reflexivity|]. cbn [fold_left].
  rewrite (H b (or_introl eq_refl)). apply IH. intros; apply H; now right.
Qed.
Lemma last_owner_in e n l : forall o b, last_owner e n l o = Some b -> o = Some b \/ In b l.
Proof.
  unfold last_owner. induction l as [|x l IH]; intros o b H; [left; exact H|]. cbn [fold_left] in H.
  apply IH in H as [H|H]; [|right; now right]. destruct (has_name e n x); [|left; exact H].
  injection H as <-. right. now left.
Qed.
Lemma last_owner_ext e e' n l o : (forall b, In b l -> has_name e n b = has_name e' n b) ->
  last_owner e n l o = last_owner e' n l o.
Proof.
  unfold last_owner. revert o. induction l as [|b l IH]; intros o H; [reflexivity|]. cbn [fold_left].
  rewrite (H b (or_introl eq_refl)). apply IH. intros b' Hb. apply H. now right.
Qed.
Lemma last_owner_rel e e' n (R : nat -> nat -> Prop) l l' : Forall2 R l l' ->
  (forall b i, R b i -> has_name e n b = has_name e' n i) -> forall o o', opt_rel R o o' ->
  opt_rel R (last_owner e n l o) (last_owner e' n l' o').
Proof.
  intros F H. unfold last_owner. induction F as [|b i l l' Hr F IH]; intros o o' Ho; [exact Ho|]. cbn [fold_left].
  apply IH. rewrite (H b i Hr). destruct (has_name e' n i); [exact Hr|exact Ho].
Qed.
Lemma dget_nth {V} (d : list (string * V)) n v : NoDup (dkeys d) ->
  (dget n d = Some v <-> exists i, nth_error d i = Some (n, v)).
Proof.
  intros N. split.
  - intros H. apply dget_In in H. apply In_nth_error in H. exact H.
  - intros [i H]. apply In_dget; [exact N|]. eapply nth_error_In; eauto.
Qed.

Lemma indexed_from {A} (l : list A) : forall k i,
  nth_error (combine (seq k (List.length l)) l) i = option_map (fun a => ((k + i)%nat, a)) (nth_error l i).
Proof.
  induction l as [|a l IH]; intros k [|i]; cbn; try reflexivity.
  - rewrite Nat.add_0_r. reflexivity.
  - rewrite IH. rewrite Nat.add_succ_r. reflexivity.
Qed.
Lemma indexed_nth {A} (l : list A) i : nth_error (indexed l) i = option_map (fun a => (i, a)) (nth_error l i).
Proof. unfold indexed. rewrite indexed_from. reflexivity. Qed.

Lemma get_field_owner e k : e_get_field e k =
  match e_name e k with
  | None => None
  | Some n => match owner e n with
              | None => None
              | Some b => match nth_error (e_bfs e) b with
                          | None => None
                          | Some bf => match dget n (bf_fields bf) with
                                       | Some f => Some (bf_ref bf, f) | None => None end
                          end
              end
  end.
Proof.
  unfold e_get_field, owner. destruct (e_name e k) as [n|]; [|reflexivity].
  destruct (dget n (e_lookup e)); reflexivity.
Qed.

Section Round.
  Context (valid validE word : string -> bool).
  Context (int_of : string -> option Z) (float_of : string -> option flo)
    (bool_of : string -> option bool) (fround : kind -> flo -> flo).
  Context {C : Type} (cdefault : C -> option num).
  Context (fround_idem : forall k f, fround k (fround k f) = fround k f)
    (fround_0 : forall k, fround k (FFin 0) = FFin 0).
  Notation XI := (XI valid word fround cdefault).
  Notation same_enum := (same_enum int_of bool_of).

  (** What an export says about the environment it leaves. *)
  Record XD (g : ereg) (x : xenv C) (re : bool) (d : jenv C) : Prop := {
    d_inv : XI g x;
    d_fine : fine (enums_of g) (x_env x) (e_mgr (x_env x));
    d_own : forall n, owner (x_env x) n = last_owner (x_env x) n (e_mgr (x_env x)) None;
    d_chans : Forall2 (fun nc nj => chan_dict x nc = Some nj) (e_chans (x_env x)) (jv_chans d);
    d_regs : Forall2 (fun b j => regs_dict (x_env x) b = Some j) (e_mgr (x_env x)) (jv_fields d);
    d_enums : jv_enums d = map enum_dict (g_items g);
    d_names : jv_names d = m_asdict (r_map (e_names (x_env x)));
    d_enames : jv_enames d = m_asdict (r_map (g_names g));
    d_values : values (x_env x) re = Some (jv_values d)
  }.

  Lemma export_facts g x re x1 d : XI g x -> x_export valid x re = (x1, Some d) -> XD g x1 re d.
  Proof.
    intros X. pose proof X as [G I M B]. unfold x_export. rewrite G.
    pose proof (ei_finalize valid fround (enums_of g) (x_env x) false I) as [I1 R1].
    unfold e_finalize in *. fold (adds valid (enums_of g) (e_toadd (x_env x)) (x_env x, true)) in *.
    destruct (adds valid (enums_of g) (e_toadd (x_env x)) (x_env x, true)) as [e1 ok] eqn:A.
    destruct ok; cbn [negb andb fst snd] in *; [|discriminate].
    set (e2 := mkEnv _ _ _ _ _ _ _ _ _ _ _) in *.
    pose proof (xi_er valid word fround cdefault g x e2 X I1 R1) as X2.
    destruct (opt_map (chan_dict (with_env x e2)) (e_chans e2)) as [cs|] eqn:Ec; [|discriminate].
    destruct (opt_map (regs_dict e2) (e_mgr e2)) as [fs|] eqn:Ef; [|discriminate].
    destruct (values e2 re) as [vs|] eqn:Ev; [|discriminate].
    intros Q; injection Q as <- <-.
    apply (adds_true valid int_of float_of bool_of) in A as (W1 & X1 & F1 & O1 & G1 & H1 & C1 & B1 & P1 & T1 & Fi1 & By1); [|apply I].
    assert (Hn : forall n b, has_name e2 n b = has_name (x_env x) n b).
    { intros n b. unfold has_name. cbn. rewrite B1. reflexivity. }
    split.
    - exact X2.
    - cbn [x_env with_env]. intros b Hb. cbn in Hb. rewrite G1 in Hb.
      assert (Hb' : In b (e_toadd (x_env x))) by (apply in_app_iff in Hb as [Hb|Hb]; [apply (i_mgr _ _ _ _ I); exact Hb|exact Hb]).
      destruct (F1 b Hb') as (bf & Hbf & K). exists bf. split; [exact Hbf|exact K].
    - cbn [x_env with_env]. intros n. change (owner e2 n) with (owner e1 n). rewrite O1.
      rewrite (last_owner_ext e2 (x_env x)) by (intros; apply Hn).
      cbn [e_mgr e2]. rewrite G1. unfold last_owner. rewrite fold_left_app.
      fold (last_owner (x_env x) n (e_mgr (x_env x)) None).
      change (last_owner (x_env x) n (e_toadd (x_env x)) (owner (x_env x) n) =
              last_owner (x_env x) n (e_toadd (x_env x)) (last_owner (x_env x) n (e_mgr (x_env x)) None)).
      destruct (last_owner_some (x_env x) n (e_toadd (x_env x)) None) as [H|[H1' H2]].
      + rewrite (H (owner (x_env x) n)). symmetry. apply H.
      + rewrite !H2.
        assert (H3 : forall b, In b (e_mgr (x_env x)) -> has_name (x_env x) n b = false).
        { intros b Hb. apply H1'. apply (i_mgr _ _ _ _ I). exact Hb. }
        rewrite (last_owner_none _ _ _ H3).
        unfold owner. destruct (dget n (e_lookup (x_env x))) as [i|] eqn:L; [|reflexivity].
        destruct (w_lookup _ _ (i_wf _ _ _ _ I) n i L) as (_ & b & bf & f & Hb & Hbf & Hf & _).
        exfalso. assert (T : has_name (x_env x) n b = true) by (unfold has_name, dmem; rewrite Hbf, Hf; reflexivity).
        rewrite H3 in T; [discriminate|eapply nth_error_In; eauto].
    - cbn [jv_chans]. apply opt_map_inv. exact Ec.
    - apply opt_map_inv. exact Ef.
    - cbn. rewrite G. reflexivity.
    - reflexivity.
    - cbn. rewrite G. reflexivity.
    - exact Ev.
  Qed.
End Round.
