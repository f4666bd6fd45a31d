(** Proofs about protocols: importing an export. *)
From Coq Require Import ZifyBool ZifyNat Lia.
From Verif Require Import Base BaseLemmas PrimModel PrimSpec PrimProofs StringModel ArrayModel
  ArraySpec ArrayProofs ChainModel RegistryModel EnumModel EnumSpec EnumProofs EnumProps FieldModel
  FieldSpec FieldProofs FieldExportProofs FieldProps ProtoModel ProtoSpec ProtoProofs ProtoBuildProofs
  ProtoReplayProofs ProtoSimProofs.

(** ** Elements hold values of their kinds *)
Definition nok (n : node) : Prop := match n with NArr a => Forall p_ok (a_elems a) | _ => True end.
Definition chain_ok (c : chain) : Prop := Forall nok c.

Lemma chain_ok_get c ps x : chain_ok c -> c_get c ps = Some x -> p_ok x.
Proof.
  intros H. unfold c_get. destruct (nth_error c (fst ps)) as [[a|d|d]|] eqn:E; try discriminate.
  intros G. apply nth_error_In in E, G. unfold chain_ok in H. rewrite Forall_forall in H.
  specialize (H _ E). cbn in H. rewrite Forall_forall in H. auto.
Qed.

Lemma repeat_Forall {A} (P : A -> Prop) x n : P x -> Forall P (repeat x n).
Proof. intros H. induction n; cbn; constructor; auto. Qed.

Lemma c_add_ok bo c p l : chain_ok c -> p_ok p -> chain_ok (c_add bo c p l).
Proof.
  intros H P. induction H as [|n c N H IH]; [constructor|]. destruct H as [|m c M H].
  - destruct n as [a|d|d]; cbn [c_add].
    + constructor; [|constructor]. cbn in *. apply Forall_app. split; [exact N|].
      constructor; [exact P|]. apply repeat_Forall, p_copy_ok.
    + constructor; [exact I|]. constructor; [|constructor]. cbn. constructor; [exact P|].
      apply repeat_Forall, p_copy_ok.
    + constructor; [exact I|]. constructor; [|constructor]. cbn. constructor; [exact P|].
      apply repeat_Forall, p_copy_ok.
  - rewrite c_add_cons2. constructor; [exact N|]. apply IH.
Qed.

Lemma set_nth_ok v l : forall e, Forall p_ok l -> Forall p_ok (set_nth e v l).
Proof.
  induction l as [|x l IH]; intros [|e] H; cbn; inversion H; subst; constructor; auto. apply p_set_ok.
Qed.

Lemma c_put_ok c ps v : chain_ok c -> chain_ok (c_put c ps v).
Proof.
  unfold c_put. destruct ps as [i e]. cbn [fst snd]. intros H. revert i.
  induction H as [|n c N H IH]; intros [|i]; cbn; constructor; auto.
  - destruct n; cbn in *; auto. apply set_nth_ok. exact N.
  - apply IH.
Qed.

Lemma from_stream_ok nl c : forall d, chain_ok c -> chain_ok (fst (c_from_stream nl c d)).
Proof.
  induction c as [|n c IH]; intros d H; cbn [c_from_stream]; [constructor|].
  inversion H as [|? ? N H']; subst.
  assert (NK : nok (fst (n_from_stream nl n d))).
  { destruct n as [a|x|x]; cbn [n_from_stream].
    - destruct (stream_read _ _) as [u v]. unfold a_update. destruct (unpack _ _ _ _ _); cbn; [|exact N].
      apply assign_ok. exact N.
    - destruct (stream_read _ _). exact I.
    - destruct (pc_from_stream nl x d) as [[[y [|]] r]|]; exact I. }
  destruct (n_from_stream nl n d) as [n' [r k| |]]; cbn [fst] in NK.
  - specialize (IH r H'). destruct (c_from_stream nl c r) as [c' [r' k'| |]]; constructor; assumption.
  - constructor; assumption.
  - constructor; assumption.
Qed.

(** ** Single facts *)
Lemma fields_of_in l n f : dget n (fields_of l) = Some f -> exists i, In (i, IField f) l.
Proof.
  revert n f. induction l as [|[i it] l IH] using rev_ind; intros n f H; [discriminate|].
  rewrite fields_of_snoc in H. cbn [snd] in H. destruct it as [g|w v].
  - rewrite dget_dset in H. destruct (eq_dec n (fl_name g)).
    + injection H as <-. exists i. apply in_or_app. right. left. reflexivity.
    + apply IH in H as [j Hj]. exists j. apply in_or_app. left. exact Hj.
  - apply IH in H as [j Hj]. exists j. apply in_or_app. left. exact Hj.
Qed.

(** Writing back what a field reads changes nothing. *)
Lemma write_same k b s raw i w v :
  int_kind k b s -> 0 <= w -> 0 <= i -> k_value k raw -> v = bf_read raw i w ->
  fst (bf_write k raw i w v) = raw.
Proof.
  intros Hk Hw Hi Hv ->. apply (value_bits_inj k b s); [exact Hk|apply write_is_value|exact Hv|].
  intros j Hj. rewrite (write_bit k b s) by assumption.
  destruct (Z.leb_spec i j); destruct (Z.ltb_spec j (i + w)); cbn [andb]; try reflexivity.
  rewrite read_bit by lia. replace (j - i <? w) with true by lia. cbn. f_equal. lia.
Qed.

(** A name read from an enumeration translates back. *)
Lemma enum_back valid int_of bool_of e z s : e_reachable valid e ->
  e_get_str e (VInt z) = Some s -> e_get_int int_of bool_of e (VStr s) = Some z.
Proof.
  intros R H.
  destruct (in_dec Z.eq_dec z (map snd (e_pairs e))) as [I|N].
  - apply in_map_iff in I as ([n v] & E & I). cbn in E. subst.
    destruct (C06_enum_translations_agree valid int_of bool_of e R n z I) as (A & _ & B & _). congruence.
  - destruct (C06_enum_unknown_raises valid int_of bool_of e R) as [U _]. destruct (U z N) as [U1 _]. congruence.
Qed.

Lemma all_some_map {A B C} (f : B -> option C) (g : A -> B) l :
  all_some f (map g l) = all_some (fun x => f (g x)) l.
Proof. induction l as [|x l IH]; cbn; [reflexivity|]. rewrite IH. reflexivity. Qed.

Lemma all_some_nth {A B} (f : A -> option B) l : forall m, all_some f l = Some m ->
  List.length m = List.length l /\
  forall i x, nth_error l i = Some x -> exists y, f x = Some y /\ nth_error m i = Some y.
Proof.
  induction l as [|a l IH]; intros m H; cbn in H.
  - injection H as <-. split; [reflexivity|]. intros [|i]; discriminate.
  - destruct (f a) as [b|] eqn:E; [|discriminate]. destruct (all_some f l) as [ys|]; [|discriminate].
    injection H as <-. destruct (IH ys eq_refl) as [L N]. split; [cbn; congruence|].
    intros [|i] x Hx; cbn in *; [injection Hx as <-; eauto|]. auto.
Qed.

Lemma all_some_total {A B} (f : A -> option B) l :
  (exists m, all_some f l = Some m) <-> Forall (fun x => exists y, f x = Some y) l.
Proof.
  induction l as [|a l IH]; cbn.
  - split; [constructor|eauto].
  - split.
    + intros [m H]. destruct (f a) as [b|] eqn:E; [|discriminate]. destruct (all_some f l) as [ys|]; [|discriminate].
      constructor; [eauto|]. apply IH. eauto.
    + intros H. inversion H as [|? ? [y E] H']; subst. apply IH in H' as [m ->]. rewrite E. eauto.
Qed.

Lemma paired_all (f : string -> option val) l m : all_some (paired f) l = Some m ->
  dkeys m = l /\ forall n v, In (n, v) m -> f n = Some v.
Proof.
  revert m. induction l as [|n l IH]; intros m H; cbn in H.
  - injection H as <-. split; [reflexivity|]. intros n v [].
  - unfold paired at 1 in H. destruct (f n) as [v|] eqn:E; [|discriminate]. cbn in H.
    destruct (all_some (paired f) l) as [ys|]; [|discriminate]. injection H as <-.
    destruct (IH ys eq_refl) as [K V]. split; [cbn; f_equal; exact K|].
    intros m w [X|X]; [congruence|auto].
Qed.

Lemma fold_dset_in {V} (l : list (string * V)) : forall d n v, NoDup (dkeys d) ->
  In (n, v) (fold_left (fun d nv => dset (fst nv) (snd nv) d) l d) ->
  In (n, v) l \/ (In (n, v) d /\ ~ In n (dkeys l)).
Proof.
  induction l as [|[m w] l IH]; intros d n v ND H; cbn in H; [right; split; [exact H|intros []]|].
  apply IH in H as [H|[H N]]; [left; right; exact H| |apply NoDup_dset; exact ND].
  apply (In_dget _ _ _ (NoDup_dset m w d ND)) in H. rewrite dget_dset in H.
  destruct (eq_dec n m) as [->|Hn].
  - left. left. congruence.
  - right. split; [apply dget_In; exact H|]. intros [X|X]; [cbn in X; congruence|]. exact (N X).
Qed.

Lemma single_extra l : single l <-> extra l = O.
Proof. destruct l; cbn; [|tauto]. lia. Qed.

Lemma sh_arrays c d : sh c d -> all_arrays c -> all_arrays d.
Proof.
  induction 1 as [|n m c d N H IH]; intros A; [constructor|]. inversion A as [|? ? [a ->] A']; subst.
  constructor; [|apply IH; exact A']. destruct m; cbn in N; try tauto. eauto.
Qed.
Lemma c_add_arrays bo c p l : all_arrays c -> all_arrays (c_add bo c p l).
Proof.
  intros H. induction H as [|n c [a ->] H IH]; [constructor|]. destruct H as [|m c M H].
  - constructor; [eauto|constructor].
  - rewrite c_add_cons2. constructor; [eauto|]. apply IH.
Qed.
Lemma zero_value k : k_value k 0.
Proof. destruct k; cbn; unfold representable; cbn; lia. Qed.
  Lemma made_value k bits ops : int_kind k bits false -> Forall (op_width_ge 1) ops ->
    r_kind (fst (r_run (FieldModel.r_new k) [] ops)) = k /\
    k_value k (r_raw (fst (r_run (FieldModel.r_new k) [] ops))).
  Proof.
    intros Hk Hw. pose proof (run_SInv ops (r_new k) [] (new_SInv k bits false Hk) Hw) as H.
    destruct (int_kind_bits k bits false Hk) as (Eb & P & _).
    pose proof (run_RInv ops (r_new k) [] (new_RInv k ltac:(lia))) as G. cbn zeta in G.
    destruct (r_run (r_new k) [] ops) as [s al]. cbn [fst snd] in *.
    destruct G as (_ & K & _). cbn [r_new r_kind] in K. split; [exact K|].
    rewrite <- K. apply (si_v _ _ H).
  Qed.


Section Proto.
  Context (valid word : string -> bool) (int_of : string -> option Z)
          (bool_of : string -> option bool) (enums : ekey -> option renum)
          (eprim : ekey -> kind) (native_le : bool).

  Notation add_name := (add_name valid).
  Notation g_add := (g_add valid enums).
  Notation pr_step := (pr_step valid int_of bool_of enums eprim native_le).
  Notation pr_run := (pr_run valid int_of bool_of enums eprim native_le).
  Notation pr_set := (pr_set int_of bool_of).
  Notation pr_import := (pr_import valid word int_of bool_of enums eprim).
  Notation PI := (PI enums).

  Definition names_valid (l : list string) : Prop := forall n, smem n l = true -> valid n = true.
  Lemma add_name_valid l n l' : names_valid l -> add_name l n = Some l' ->
    names_valid l' /\ forall m, smem m l' = true -> m = n \/ smem m l = true.
  Proof.
    unfold ProtoModel.add_name. intros V. destruct (smem n l) eqn:E; intros H.
    - injection H as <-. auto.
    - destruct (valid n) eqn:Vn; [|discriminate]. injection H as <-.
      assert (A : forall m, smem m (l ++ [n]) = true -> m = n \/ smem m l = true).
      { intros m. rewrite smem_app, orb_true_iff, smem_one. tauto. }
      split; [|exact A]. intros m Hm. destruct (A m Hm) as [->|X]; auto.
  Qed.

  Lemma add_fields_valid fs : forall names lk en idx names' lk' en', names_valid names ->
    add_fields valid enums names lk en idx fs = Some (names', lk', en') ->
    names_valid names' /\
    forall m, smem m names' = true -> smem m names = true \/ existsb (fun nf => String.eqb m (fst nf)) fs = true.
  Proof.
    induction fs as [|[n f] fs IH]; intros names lk en idx names' lk' en' V H; cbn [add_fields] in H.
    - injection H as <- <- <-. auto.
    - destruct (add_name names n) as [ns|] eqn:E; [|discriminate].
      destruct (add_name_valid _ _ _ V E) as [V1 A1].
      assert (G : forall lk en, add_fields valid enums ns lk en idx fs = Some (names', lk', en') ->
        names_valid names' /\ forall m, smem m names' = true -> smem m names = true \/ existsb (fun nf => String.eqb m (fst nf)) ((n, f) :: fs) = true).
      { intros lk0 en0 H0. destruct (IH _ _ _ _ _ _ _ V1 H0) as [V2 A2]. split; [exact V2|].
        intros m Hm. cbn [existsb fst]. destruct (A2 m Hm) as [X|X].
        - destruct (A1 m X) as [->|Y]; [|auto]. right. rewrite String.eqb_refl. reflexivity.
        - right. rewrite X, orb_true_r. reflexivity. }
      destruct (fl_enum f) as [k|]; [destruct (enums k); [|discriminate]|]; eapply G; exact H.
  Qed.

  Definition made (b : bobj) : Prop :=
    exists k bits ops, int_kind k bits false /\ Forall (op_width_ge 1) ops /\
      b_regs b = r_finalize (fst (r_run (FieldModel.r_new k) [] ops)).

  Record NI (p : proto) : Prop := {
    ni_valid : names_valid (q_names p);
    ni_names : forall n, smem n (q_names p) = true ->
      dmem n (g_lookup (q_mgr p)) = true \/ dmem n (q_reg p) = true;
    ni_arr : all_arrays (q_chain p);
    ni_ok : chain_ok (q_chain p);
    ni_cov : forall ps x, c_get (q_chain p) ps = Some x ->
      (exists b, In b (q_bits p) /\ b_pos b = Some ps) \/ exists n, dget n (q_reg p) = Some ps;
    ni_made : Forall made (q_bits p);
    ni_build : Forall (fun it => it_plain true it /\ match it with BSer _ => False | _ => True end) (q_build p);
    ni_ser : q_ser p = [];
    ni_enum : forall n e, dget n (q_enum p) = Some e -> exists k, enums k = Some e;
    ni_regd : NoDup (dkeys (q_reg p));
    ni_dist : forall b n ps, In b (q_bits p) -> b_pos b = Some ps -> dget n (q_reg p) = Some ps -> False
  }.

  Lemma new_NI id bo : NI (pr_new id bo).
  Proof.
    split; cbn; try (constructor; fail); try discriminate; try (intros ?; discriminate).
    - constructor; [eauto|constructor].
    - constructor; [constructor|constructor].
    - intros [i e] x H. destruct i as [|[|i]], e; discriminate.
  Qed.

  Lemma chain_NI p c : NI p -> sh (q_chain p) c -> chain_ok c -> NI (with_chain p c).
  Proof.
    intros [A1 A2 A3 A4 A5 A6 A7 A8 A9 A10 A11] S O. split; cbn; try assumption.
    - eapply sh_arrays; eassumption.
    - intros ps x H. pose proof (sh_get _ _ S ps) as G. rewrite H in G.
      destruct (c_get (q_chain p) ps) as [y|] eqn:E; [|discriminate]. eapply A5. exact E.
  Qed.

  Lemma step_NI p o p' : PI p -> NI p -> plain_op o ->
    (forall n, In n (field_names [o]) -> dget n (q_reg p) = None) ->
    pr_step p o = Some p' -> NI p'.
  Proof.
    intros HP H Po Fr E. destruct o as [n k e l|k ops|n c l|n v|d]; cbn [ProtoModel.pr_step plain_op] in E, Po.
    - rewrite pr_field_eq in E. destruct (add_name (q_names p) n) as [ns|] eqn:En; [|discriminate].
      destruct (enum_of _ _ _) as [en|] eqn:Ee; [|discriminate]. destruct (kind_of _ k e) as [kd|]; [|discriminate].
      injection E as <-. destruct H as [A1 A2 A3 A4 A5 A6 A7 A8 A9 A10 A11].
      destruct (add_name_valid _ _ _ A1 En) as [V1 V2]. specialize (Fr n (or_introl eq_refl)).
      split; cbn; try assumption.
      + intros m Hm. unfold dmem at 2. rewrite dget_dset. destruct (eq_dec m n); [auto|].
        destruct (V2 m Hm) as [X|X]; [congruence|]. apply A2 in X. exact X.
      + apply c_add_arrays. exact A3.
      + apply c_add_ok; [exact A4|]. unfold p_ok. cbn. apply zero_value.
      + intros ps x G. apply c_add_only in G as [[-> _]|G].
        * right. exists n. apply dget_dset_eq.
        * destruct (A5 ps x G) as [X|[m Hm]]; [auto|]. right. exists m. rewrite dget_dset.
          destruct (eq_dec m n); [congruence|exact Hm].
        * apply single_extra. exact Po.
        * apply (pi_ne _ _ HP).
      + apply Forall_app. split; [exact A7|]. constructor; [|constructor]. split; [|exact I].
        intros _. apply single_extra. exact Po.
      + intros m y. unfold enum_of in Ee. destruct e as [key|].
        * destruct (enums key) as [z|] eqn:Ez; [|discriminate]. injection Ee as <-. rewrite dget_dset.
          destruct (eq_dec m n); [|apply A9]. intros X. injection X as <-. eauto.
        * injection Ee as <-. apply A9.
      + apply NoDup_dset. exact A10.
      + intros b m ps Hb Hps. rewrite dget_dset. destruct (eq_dec m n); [|eauto].
        intros X. injection X as <-. apply In_nth_error in Hb as [i Hi].
        destruct (pi_bits _ _ HP i b Hi) as (ps & x & E1 & E2 & _). rewrite Hps in E1. injection E1 as <-.
        exact (end_pos_fresh _ _ E2).
    - rewrite pr_bits_eq in E. destruct Po as [[bits Hk] Hw].
      destruct (made_value k bits ops Hk Hw) as [Mk Mv]. set (r := fst (r_run _ _ ops)) in *.
      unfold ProtoModel.g_add in E.
      destruct (add_fields _ _ _ _ _ _ _) as [[[ns lk] en]|] eqn:Ef; [|discriminate]. injection E as <-.
      destruct H as [A1 A2 A3 A4 A5 A6 A7 A8 A9 A10 A11].
      destruct (add_fields_valid _ _ _ _ _ _ _ _ A1 Ef) as [V1 V2].
      apply add_fields_some in Ef as (-> & _).
      split; cbn; try assumption.
      + intros m Hm. unfold dmem at 1. rewrite dget_lk_add. destruct (V2 m Hm) as [X|X].
        * destruct (existsb _ (r_fields r)); [auto|]. apply A2 in X. exact X.
        * rewrite X. auto.
      + apply c_add_arrays. exact A3.
      + apply c_add_ok; [exact A4|]. unfold p_ok. cbn. rewrite Mk. exact Mv.
      + intros ps x G. apply c_add_only in G as [[-> _]|G]; [| |reflexivity|apply (pi_ne _ _ HP)].
        * left. eexists. split; [apply in_or_app; right; left; reflexivity|]. reflexivity.
        * destruct (A5 ps x G) as [(b & B1 & B2)|X]; [|auto]. left. exists b. split; [|exact B2].
          apply in_or_app. auto.
      + apply Forall_app. split; [exact A6|]. constructor; [|constructor]. exists k, bits, ops. auto.
      + apply Forall_app. split; [exact A7|]. constructor; [|constructor]. split; exact I.
      + intros b m ps Hb Hps Hm. apply in_app_or in Hb as [Hb|[<-|[]]]; [eauto|].
        cbn in Hps. injection Hps as <-. destruct (pi_reg _ _ HP _ _ Hm) as [x Hx]. exact (end_pos_fresh _ _ Hx).
    - contradiction.
    - injection E as <-. destruct (pr_set p n v) as [p1|] eqn:Es; [|exact H].
      destruct (set_chain _ _ _ _ _ _ Es) as [->|(ps & z & ->)]; [exact H|].
      apply chain_NI; [exact H|apply c_put_sh|]. apply c_put_ok, H.
    - injection E as <-. apply chain_NI; [exact H|apply from_stream_sh|]. apply from_stream_ok, H.
  Qed.

  Lemma step_reg p o p' : pr_step p o = Some p' -> forall n, ~ In n (field_names [o]) ->
    dget n (q_reg p') = dget n (q_reg p).
  Proof.
    intros E m N. destruct o as [n k e l|k ops|n c l|n v|d]; cbn [ProtoModel.pr_step] in E.
    - rewrite pr_field_eq in E. destruct (add_name (q_names p) n) as [ns|] eqn:En; [|discriminate].
      destruct (enum_of _ _ _ _); [|discriminate]. destruct (kind_of _ k e); [|discriminate].
      injection E as <-. cbn. rewrite dget_dset. destruct (eq_dec m n); [|reflexivity].
      exfalso. apply N. left. congruence.
    - rewrite pr_bits_eq in E. destruct (g_add _ _ _ _) as [[ns g]|]; [|discriminate]. injection E as <-. reflexivity.
    - unfold pr_ser in E. destruct (add_name _ _); [|discriminate]. injection E as <-. reflexivity.
    - injection E as <-. destruct (pr_set p n v) as [p1|] eqn:Es; [|reflexivity].
      destruct (set_chain _ _ _ _ _ _ Es) as [->|(ps & z & ->)]; reflexivity.
    - injection E as <-. reflexivity.
  Qed.

  Lemma run_NI ops : forall p p', PI p -> NI p -> Forall plain_op ops -> NoDup (field_names ops) ->
    (forall n, In n (field_names ops) -> dget n (q_reg p) = None) ->
    pr_run p ops = Some p' -> NI p'.
  Proof.
    induction ops as [|o ops IH]; intros p p' HP H Po ND Fr E; cbn [ProtoModel.pr_run] in E.
    - injection E as <-. exact H.
    - destruct (pr_step p o) as [p1|] eqn:E1; [|discriminate]. inversion Po as [|? ? Po1 Po2]; subst.
      assert (FN : field_names (o :: ops) = field_names [o] ++ field_names ops).
      { destruct o; reflexivity. }
      rewrite FN in ND, Fr.
      eapply (IH p1); [eapply step_PI; eassumption| |exact Po2|eapply NoDup_app_r; exact ND| |exact E].
      + eapply step_NI; try eassumption. intros n Hn. apply Fr. apply in_or_app. auto.
      + intros n Hn. rewrite (step_reg _ _ _ E1).
        * apply Fr. apply in_or_app. auto.
        * intros X. destruct o; cbn in X; try contradiction. destruct X as [->|[]].
          cbn in ND. inversion ND; contradiction.
  Qed.
End Proto.
