(** Proofs about protocols: the round trip through an export. *)
From Coq Require Import ZifyBool ZifyNat Lia.
From Verif Require Import Base BaseLemmas PrimModel PrimSpec PrimProofs StringModel ArrayModel
  ArraySpec ArrayProofs ChainModel RegistryModel EnumModel EnumSpec EnumProofs EnumProps FieldModel
  FieldSpec FieldProofs FieldExportProofs FieldProps ProtoModel ProtoSpec ProtoProofs ProtoBuildProofs
  ProtoReplayProofs ProtoSimProofs ProtoImportProofs.

#[local] Opaque strip.

(** ** Imported registers *)
Lemma r_run_app a : forall s al b,
  r_run s al (a ++ b) = let '(s', al') := r_run s al a in r_run s' al' b.
Proof.
  induction a as [|o a IH]; intros s al b; cbn [r_run app]; [reflexivity|].
  destruct (r_step s o) as [s' x]. apply IH.
Qed.

Lemma claim_keeps s w i s' x : r_claim s w i = Some (s', x) ->
  r_kind s' = r_kind s /\ r_raw s' = r_raw s.
Proof.
  unfold r_claim. destruct (r_final s); [discriminate|]. destruct (forallb _ _); [|discriminate].
  intros H. injection H as <- <-. auto.
Qed.

Lemma load_item_value s j s' : k_value (r_kind s) (r_raw s) -> load_item s j = Some s' ->
  r_kind s' = r_kind s /\ k_value (r_kind s') (r_raw s').
Proof.
  intros V. unfold load_item.
  assert (Pd : (if j_value j =? 0 then
          match j_enum j with
          | Some _ => None
          | None => match r_pad s (j_width j) (j_index j) 0 with (s, Some _) => Some s | (_, None) => None end
          end else None) = Some s' -> r_kind s' = r_kind s /\ k_value (r_kind s') (r_raw s')).
  { destruct (j_value j =? 0); [|discriminate]. destruct (j_enum j); [discriminate|]. unfold r_pad.
    destruct (r_claim s (j_width j) (j_index j)) as [[s1 i]|] eqn:E; [|discriminate].
    apply claim_keeps in E as [K R]. destruct (base_ok _ _); [|discriminate]. intros H. injection H as <-.
    cbn [with_maps with_raw r_kind r_raw]. split; [exact K|]. apply store_value. }
  destruct (j_name j) as [n|]; [|exact Pd]. destruct n as [|c n]; [exact Pd|].
  set (nm := String c n).
  destruct (if j_width j =? 1 then r_flag s nm (j_index j) (j_enum j) (j_cmd j) (j_desc j)
            else r_field s nm (j_width j) (j_index j) (j_enum j) (j_cmd j) (j_desc j)) as [s1 r] eqn:E.
  assert (K : r_kind s1 = r_kind s).
  { destruct (j_width j =? 1); revert E; unfold r_flag, r_field.
    - destruct (r_claim _ _ _) as [[s2 i]|] eqn:C; [|intros X; injection X as <- <-; reflexivity].
      apply claim_keeps in C as [K _]. destruct (field_ok _ _ _ _); intros X; injection X as <- <-; exact K.
    - destruct (j_width j =? 1); [intros X; injection X as <- <-; reflexivity|].
      destruct (r_claim _ _ _) as [[s2 i]|] eqn:C; [|intros X; injection X as <- <-; reflexivity].
      apply claim_keeps in C as [K _].
      destruct (field_ok _ _ _ _); [destruct (dmem _ _)|]; intros X; injection X as <- <-; exact K. }
  destruct r; [|discriminate]. destruct (dget nm (r_fields s1)) as [f|]; [|discriminate].
  intros H. injection H as <-. unfold r_write. cbn [with_raw r_kind r_raw]. split; [exact K|]. apply store_value.
Qed.

Lemma load_items_value l : forall s s', k_value (r_kind s) (r_raw s) -> load_items s l = Some s' ->
  k_value (r_kind s') (r_raw s').
Proof.
  induction l as [|j l IH]; intros s s' V H; cbn in H; [injection H as <-; exact V|].
  destruct (load_item s j) as [s1|] eqn:E; [|discriminate].
  destruct (load_item_value s j s1 V E) as [_ V1]. eapply IH; eassumption.
Qed.

Lemma import_value word d s : r_import word d = Some s -> k_value (r_kind s) (r_raw s).
Proof.
  unfold r_import. destruct (schema_ok word d); [|discriminate].
  destruct (load_items _ _) as [s1|] eqn:E; [|discriminate]. intros H. injection H as <-. cbn.
  eapply load_items_value; [|exact E]. cbn. apply zero_value.
Qed.

Lemma strip_strip f : strip (strip f) = strip f.
Proof. reflexivity. Qed.

Lemma chain_ok_of_get c : (forall ps x, c_get c ps = Some x -> p_ok x) -> chain_ok c.
Proof.
  intros H. apply Forall_forall. intros n Hn. apply In_nth_error in Hn as [i Hi].
  destruct n as [a|d|d]; cbn; auto. apply Forall_forall. intros x Hx. apply In_nth_error in Hx as [e He].
  apply (H (i, e)). unfold c_get. cbn [fst snd]. rewrite Hi. exact He.
Qed.

Lemma dget_all_none {V} (l : list (string * V)) : (forall n, dget n l = None) -> l = [].
Proof.
  destruct l as [|[n v] l]; [reflexivity|]. intros H. specialize (H n). cbn in H.
  destruct (eq_dec n n); congruence.
Qed.

Lemma sh_size c d : sh c d -> all_arrays c -> c_length c = c_length d.
Proof.
  induction 1 as [|n m c d N H IH]; intros A; [reflexivity|]. inversion A as [|? ? [a ->] A']; subst.
  cbn [c_length]. rewrite IH by exact A'. f_equal. destruct m; cbn in N; try tauto.
  cbn. apply N.
Qed.

Lemma fold_dset_keys {V} (l : list (string * V)) : forall d n,
  In n (dkeys l) \/ In n (dkeys d) -> In n (dkeys (fold_left (fun d nv => dset (fst nv) (snd nv) d) l d)).
Proof.
  induction l as [|[m w] l IH]; intros d n H; cbn; [destruct H as [[]|H]; exact H|].
  apply IH. cbn in H. destruct H as [[->|H]|H]; [|auto|].
  - right. apply (dget_Some_in _ w). apply dget_dset_eq.
  - right. destruct (dget n (dset m w d)) as [v|] eqn:E; [apply (dget_Some_in _ v); exact E|].
    exfalso. rewrite dget_dset in E. destruct (eq_dec n m); [discriminate|].
    apply dget_None_notin in E. contradiction.
Qed.

Lemma read_one raw i : 0 <= i -> 0 <= raw ->
  z_of_bool (negb (bf_read raw i 1 =? 0)) = bf_read raw i 1.
Proof.
  intros Hi Hr. rewrite read_value by lia. change (2 ^ 1) with 2.
  pose proof (Z.mod_pos_bound (raw / 2 ^ i) 2 ltac:(lia)) as B.
  destruct (Z.eqb_spec ((raw / 2 ^ i) mod 2) 0); cbn; lia.
Qed.

Section Proto.
  Context (valid word : string -> bool) (int_of : string -> option Z)
          (bool_of : string -> option bool) (enums : ekey -> option renum)
          (eprim : ekey -> kind).

  Notation g_load := (g_load valid enums).
  Notation pr_set := (pr_set int_of bool_of).
  Notation set_all := (set_all int_of bool_of).
  Notation pr_init := (pr_init valid enums eprim).
  Notation pr_import := (pr_import valid word int_of bool_of enums eprim).
  Notation PI := (PI enums).
  Notation NI := (NI valid enums).

  Lemma mgr_regs_all p : PI p -> mgr_regs p = Some (map (cur_regs (q_chain p)) (q_bits p)).
  Proof.
    intros H. unfold mgr_regs. rewrite (pi_gf _ _ H).
    assert (G : forall l off pre, q_bits p = pre ++ l -> List.length pre = off ->
      all_some (fun i => option_map (cur_regs (q_chain p)) (nth_error (q_bits p) i)) (seq off (List.length l)) =
      Some (map (cur_regs (q_chain p)) l)).
    { induction l as [|b l IH]; intros off pre E L; [reflexivity|]. cbn [List.length seq all_some map].
      rewrite E at 1. rewrite nth_error_app2, L, Nat.sub_diag by lia. cbn [nth_error option_map].
      rewrite (IH (S off) (pre ++ [b])); [reflexivity| |].
      - rewrite E, <- app_assoc. reflexivity.
      - rewrite app_length. cbn. lia. }
    apply (G (q_bits p) 0%nat []); reflexivity.
  Qed.

  (** What the objects need to be exported and imported. *)
  Record MI (p : proto) : Prop := { mi_ok : chain_ok (q_chain p); mi_made : Forall made (q_bits p) }.
  Lemma ni_mi p : NI p -> MI p.
  Proof. intros H. split; apply H. Qed.

  (** A bit-fields object with its current value is what a history of its own
      leaves. *)
  Lemma cur_made p b : PI p -> MI p -> In b (q_bits p) ->
    exists k bits ops ps x, int_kind k bits false /\ Forall (op_width_ge 1) ops /\
      cur_regs (q_chain p) b = fst (r_run (FieldModel.r_new k) [] ops) /\
      b_pos b = Some ps /\ c_get (q_chain p) ps = Some x /\ p_kind x = k /\
      r_kind (b_regs b) = k /\ cur_regs (q_chain p) b = with_raw (b_regs b) (p_val x).
  Proof.
    intros HP HN Hb. pose proof (mi_made _ HN) as M. rewrite Forall_forall in M.
    destruct (M b Hb) as (k & bits & ops & Hk & Hw & E). apply In_nth_error in Hb as [i Hi].
    destruct (pi_bits _ _ HP i b Hi) as (ps & x & E1 & E2 & E3).
    pose proof (chain_ok_get _ _ _ (mi_ok _ HN) E2) as Ox. unfold p_ok in Ox.
    destruct (made_value k bits ops Hk Hw) as [Mk Mv].
    assert (K : r_kind (b_regs b) = k) by (rewrite E; exact Mk).
    assert (C : cur_regs (q_chain p) b = with_raw (b_regs b) (p_val x)).
    { unfold cur_regs. rewrite E1, E2. reflexivity. }
    exists k, bits, (ops ++ [OFinalize; ORaw (p_val x)]), ps, x.
    repeat split; auto; try congruence.
    - apply Forall_app. split; [exact Hw|]. repeat constructor.
    - rewrite C, E, r_run_app. destruct (r_run (FieldModel.r_new k) [] ops) as [s al] eqn:R. cbn [fst] in *.
      cbn [r_run r_step fst]. assert (r_kind (r_finalize s) = r_kind s) as -> by reflexivity.
      rewrite Mk, store_id; [reflexivity|]. rewrite <- K, <- E3. exact Ox.
  Qed.

  (** What importing one object gives. *)
  Definition imp (p : proto) (b : bobj) : option regs :=
    r_import word (r_asdict (cur_regs (q_chain p) b)).

  Lemma imp_some p b : PI p -> MI p -> In b (q_bits p) ->
    (exists r, imp p b = Some r) <-> Forall (loadable word) (r_byidx (b_regs b)).
  Proof.
    intros HP HN Hb. destruct (cur_made p b HP HN Hb) as (k & bits & ops & ps & x & Hk & Hw & E & _ & _ & _ & _ & C).
    unfold imp. rewrite E. destruct (r_run (FieldModel.r_new k) [] ops) as [s al] eqn:R. cbn [fst] in *.
    rewrite (C51_import_succeeds_iff word k bits ops s al Hk Hw R).
    assert (r_byidx s = r_byidx (b_regs b)) as -> by (rewrite <- E, C; reflexivity). reflexivity.
  Qed.

  Lemma imp_spec p b r : PI p -> MI p -> In b (q_bits p) -> imp p b = Some r ->
    brel r (b_regs b) /\ k_value (r_kind r) (r_raw r) /\
    (forall n f, dget n (r_fields (b_regs b)) = Some f ->
       0 <= fl_index f /\ 1 <= fl_width f /\
       bf_read (r_raw r) (fl_index f) (fl_width f) =
       bf_read (r_raw (cur_regs (q_chain p) b)) (fl_index f) (fl_width f)) /\
    0 <= r_raw (cur_regs (q_chain p) b) /\
    ((forall j, 0 <= j -> bit (r_raw (cur_regs (q_chain p) b)) j = true -> in_field (b_regs b) j) ->
     r_raw r = r_raw (cur_regs (q_chain p) b)).
  Proof.
    intros HP HN Hb H. destruct (cur_made p b HP HN Hb) as (k & bits & ops & ps & x & Hk & Hw & E & _ & _ & _ & Kb & C).
    unfold imp in H. rewrite E in H |- *.
    pose proof (run_SInv ops (r_new k) [] (new_SInv k bits false Hk) Hw) as SI.
    destruct (made_value k bits ops Hk Hw) as [Mk Mv].
    destruct (r_run (FieldModel.r_new k) [] ops) as [s al] eqn:R. cbn [fst snd] in *.
    destruct (C51_import_reconstructs word k bits ops s al r Hk Hw R H) as (A1 & _ & _ & A4 & A5 & A6).
    assert (Fs : r_fields s = r_fields (b_regs b)) by (rewrite <- E, C; reflexivity).
    assert (Bs : r_byidx s = r_byidx (b_regs b)) by (rewrite <- E, C; reflexivity).
    split; [|split; [|split; [|split]]].
    - split; [congruence|]. unfold sfs. rewrite A4, Fs, map_map. cbn [fst snd].
      apply map_ext. intros [n f]. cbn [fst snd]. rewrite strip_strip. reflexivity.
    - exact (import_value word _ _ H).
    - intros n f Hf. rewrite <- Fs, (si_f _ _ SI) in Hf. apply fields_of_in in Hf as [i Hi].
      destruct (built_entry _ _ (si_b _ _ SI) _ Hi) as (X1 & X2 & X3 & _). cbn in X1, X2, X3.
      repeat split; [lia|exact X2|]. apply (A5 i f Hi).
    - apply (int_kind_value k bits false _ Hk) in Mv. unfold representable in Mv. lia.
    - intros Hc. apply A6. intros j Hj Bj. destruct (Hc j ltac:(lia) Bj) as (i & f & I1 & I2).
      exists i, f. rewrite Bs. auto.
  Qed.

  (** ** The loop that assigns the exported values *)
  (** The registers [rs] were imported from [p]. *)
  Definition imported (p : proto) (rs : list regs) : Prop :=
    all_some (imp p) (q_bits p) = Some rs.

  Record Good (p : proto) (rs : list regs) (c : chain) (done : list string) : Prop := {
    gd_sh : sh (q_chain p) c;
    gd_ok : chain_ok c;
    gd_bits : forall i b ps r, nth_error (q_bits p) i = Some b -> b_pos b = Some ps ->
      nth_error rs i = Some r -> exists x, c_get c ps = Some x /\ p_val x = r_raw r;
    gd_reg : forall n ps, In n done -> dget n (q_reg p) = Some ps ->
      c_get c ps = c_get (q_chain p) ps
  }.

  (** What was exported for a name. *)
  Definition exported (p : proto) (resolve : bool) (n : string) (v : val) : Prop :=
    (dmem n (q_reg p) = true /\ pr_value p n = Some v) \/
    (dget n (q_reg p) = None /\ g_get p n resolve = Some v).

  Lemma g_find_chain p c n : g_find (with_chain p c) n = g_find p n.
  Proof. reflexivity. Qed.

  Lemma ens_from rs n e : forall en, dget n (ens enums rs en) = Some e ->
    dget n en = Some e \/ exists k, enums k = Some e.
  Proof.
    induction rs as [|r rs IH]; intros en H; cbn in H; [auto|].
    apply IH in H as [H|H]; [|auto]. clear IH. revert en H.
    induction (r_fields r) as [|[m f] fs IH]; intros en H; cbn in H; [auto|].
    apply IH in H as [H|H]; [|auto]. unfold en_one in H. cbn [fst snd] in H.
    destruct (fl_enum f) as [k|]; [|auto]. destruct (enums k) as [e'|] eqn:E; [|auto].
    rewrite dget_dset in H. destruct (eq_dec n m); [|auto]. injection H as <-. eauto.
  Qed.

  Lemma set_one p rs c done resolve n v : PI p -> NI p -> enums_ok enums -> imported p rs ->
    Good p rs c done -> exported p resolve n v ->
    exists c', pr_set (with_chain p c) n v = Some (with_chain p c') /\ Good p rs c' (n :: done).
  Proof.
    intros HP HN HE HI [G1 G2 G3 G4] X. unfold ProtoModel.pr_set.
    change (q_reg (with_chain p c)) with (q_reg p). change (q_enum (with_chain p c)) with (q_enum p).
    change (q_chain (with_chain p c)) with c.
    destruct X as [[D V]|[D V]].
    - unfold dmem in D. destruct (dget n (q_reg p)) as [ps|] eqn:Er; [|discriminate].
      unfold pr_value in V. rewrite Er in V.
      destruct (c_get (q_chain p) ps) as [x|] eqn:Ex; [|discriminate].
      assert (Z0 : match v with
          | VInt z => Some z | VBool b => Some (z_of_bool b)
          | VStr s => match dget n (q_enum p) with Some e => e_get_int int_of bool_of e (VStr s) | None => None end
          end = Some (p_val x)).
      { destruct (dget n (q_enum p)) as [e|] eqn:Ee.
        - destruct (e_get_str e (VInt (p_val x))) as [s|] eqn:Es; [|discriminate]. injection V as <-.
          destruct (ni_enum _ _ _ HN n e Ee) as [k Hk]. destruct (HE k e Hk) as [va Rv].
          apply (enum_back va); assumption.
        - injection V as <-. reflexivity. }
      rewrite Z0. cbn [option_map]. exists (c_put c ps (p_val x)). split; [reflexivity|].
      assert (Px : c_get (c_put c ps (p_val x)) ps = Some x).
      { rewrite c_get_put_eq. pose proof (sh_get _ _ G1 ps) as S. rewrite Ex in S.
        destruct (c_get c ps) as [y|]; [|discriminate]. cbn in *. injection S as S. f_equal. unfold p_set.
        rewrite <- S, store_id; [destruct x; reflexivity|]. exact (chain_ok_get _ _ _ (ni_ok _ _ _ HN) Ex). }
      split.
      + eapply sh_trans; [exact G1|apply c_put_sh].
      + apply c_put_ok. exact G2.
      + intros i b ps' r Hb Hps Hr. destruct (G3 i b ps' r Hb Hps Hr) as (y & Y1 & Y2). exists y.
        split; [|exact Y2]. rewrite c_get_put_ne; [exact Y1|]. intros ->.
        eapply (ni_dist _ _ _ HN); [eapply nth_error_In; exact Hb|exact Hps|exact Er].
      + intros m ps' Hm Hr. destruct (string_dec m n) as [->|Hn].
        * rewrite Er in Hr. injection Hr as <-. rewrite Px, Ex. reflexivity.
        * destruct Hm as [Hm|Hm]; [congruence|].
          rewrite c_get_put. destruct (Nat.eq_dec (fst ps) (fst ps')) as [E1|]; [|eauto].
          destruct (Nat.eq_dec (snd ps) (snd ps')) as [E2|]; [|eauto].
          assert (ps' = ps) as -> by (destruct ps, ps'; cbn in *; congruence).
          rewrite <- c_get_put_eq, Px, Ex. reflexivity.
    - rewrite D. unfold ProtoModel.g_set. rewrite g_find_chain. unfold g_get in V.
      destruct (g_find p n) as [[b f]|] eqn:Ef; [|discriminate].
      pose proof Ef as Ef'. apply find_in in Ef' as [i Hi].
      assert (Hf : dget n (r_fields (b_regs b)) = Some f).
      { unfold g_find in Ef. destruct (dget n (g_lookup (q_mgr p))); [|discriminate].
        destruct (nth_error (g_fields (q_mgr p)) n0); [|discriminate].
        destruct (nth_error (q_bits p) n1) as [b'|]; [|discriminate].
        destruct (dget n (r_fields (b_regs b'))) as [g|] eqn:Eg; [|discriminate].
        cbn in Ef. injection Ef as -> ->. exact Eg. }
      pose proof (nth_error_In _ _ Hi) as Hb.
      destruct (all_some_nth _ _ _ HI) as [Ln Nn]. destruct (Nn i b Hi) as (r & Ir & Hr).
      destruct (imp_spec p b r HP (ni_mi p HN) Hb Ir) as ([Bk Bf] & Rv & Rr & Nr & _).
      destruct (Rr n f Hf) as (I1 & I2 & I3).
      destruct (cur_made p b HP (ni_mi p HN) Hb) as (k & bits & ops & ps & x & Hk & Hw & E & Eps & Ex & Kx & Kb & C).
      set (raw := r_raw (cur_regs (q_chain p) b)) in *.
      set (vv := bf_read raw (fl_index f) (fl_width f)) in *.
      assert (Z0 : g_value int_of bool_of (with_chain p c) n v = Some vv).
      { assert (Pl : Some (if fl_width f =? 1 then VBool (negb (vv =? 0)) else VInt vv) = Some v ->
                     g_value int_of bool_of (with_chain p c) n v = Some vv).
        { intros Y. injection Y as <-. destruct (Z.eqb_spec (fl_width f) 1) as [W|W]; [|reflexivity].
          unfold g_value. f_equal. unfold vv. rewrite W. apply read_one; [exact I1|exact Nr]. }
        destruct (fl_enum f) as [key|]; [|exact (Pl V)]. destruct resolve; [|exact (Pl V)].
        destruct (dget n (g_enum (q_mgr p))) as [e|] eqn:Ee; [|discriminate].
        destruct (e_get_str e (VInt vv)) as [s|] eqn:Es; [|discriminate]. cbn in V. injection V as <-.
        unfold g_value. change (q_mgr (with_chain p c)) with (q_mgr p). rewrite Ee.
        rewrite (pi_en _ _ HP) in Ee. apply ens_from in Ee as [Ee|[key' Hk']]; [discriminate|].
        destruct (HE _ _ Hk') as [va Rva]. apply (enum_back va); assumption. }
      rewrite Z0, Eps. destruct (G3 i b ps r Hi Eps Hr) as (y & Y1 & Y2).
      assert (Cc : cur_regs (q_chain (with_chain p c)) b = with_raw (b_regs b) (r_raw r)).
      { unfold cur_regs. rewrite Eps. cbn [with_chain q_chain]. rewrite Y1, Y2. reflexivity. }
      rewrite Cc. cbn [with_raw r_kind r_raw].
      assert (Ws : fst (bf_write (r_kind (b_regs b)) (r_raw r) (fl_index f) (fl_width f) vv) = r_raw r).
      { rewrite Kb. apply (write_same k bits false); [exact Hk|lia|lia| |symmetry; exact I3].
        rewrite <- Kb, <- Bk. exact Rv. }
      rewrite Ws. eexists. split; [reflexivity|]. cbn [with_chain q_chain].
      assert (Sm : forall ps', c_get (c_put c ps (r_raw r)) ps' = c_get c ps').
      { intros ps'. rewrite c_get_put. destruct (Nat.eq_dec (fst ps) (fst ps')) as [E1|]; [|reflexivity].
        destruct (Nat.eq_dec (snd ps) (snd ps')) as [E2|]; [|reflexivity].
        assert (ps' = ps) as -> by (destruct ps, ps'; cbn in *; congruence).
        rewrite Y1. cbn. f_equal. unfold p_set. rewrite <- Y2, store_id; [destruct y; reflexivity|].
        exact (chain_ok_get _ _ _ G2 Y1). }
      split.
      + eapply sh_trans; [exact G1|apply c_put_sh].
      + apply c_put_ok. exact G2.
      + intros i' b' ps' r'. rewrite Sm. apply G3.
      + intros m ps' Hm Hps. rewrite Sm. destruct Hm as [<-|Hm]; [congruence|]. eauto.
  Qed.

  Lemma set_many p rs resolve l : PI p -> NI p -> enums_ok enums -> imported p rs ->
    Forall (fun nv => exported p resolve (fst nv) (snd nv)) l -> forall c done,
    Good p rs c done ->
    exists c', set_all (with_chain p c) l = Some (with_chain p c') /\ Good p rs c' (rev (dkeys l) ++ done).
  Proof.
    intros HP HN HE HI. induction 1 as [|[n v] l X H IH]; intros c done G; cbn [ProtoModel.set_all].
    - exists c. split; [reflexivity|exact G].
    - destruct (set_one p rs c done resolve n v HP HN HE HI G X) as (c1 & E1 & G1). cbn [fst snd] in *.
      rewrite E1. destruct (IH c1 (n :: done) G1) as (c2 & E2 & G2). exists c2. split; [exact E2|].
      cbn. rewrite <- app_assoc. exact G2.
  Qed.

  Lemma sim_set_all K l : forall p q, PI p -> Sim K p q ->
    orel (Sim K) (set_all p l) (set_all q l).
  Proof.
    induction l as [|[n v] l IH]; intros p q HP S; cbn [ProtoModel.set_all]; [exact S|].
    pose proof (sim_set valid int_of bool_of enums K p q n v HP S) as H.
    destruct (pr_set p n v) as [p1|] eqn:E1, (pr_set q n v) as [q1|]; cbn [orel] in H; try contradiction; [|exact I].
    apply IH; [|exact H].
    destruct (set_chain _ _ _ _ _ _ E1) as [->|(ps & z & ->)]; [exact HP|].
    apply chain_PI; [exact HP|apply c_put_sh].
  Qed.

  (** ** Building *)
  Lemma lks_sfs rs ss : Forall2 (fun r s => sfs r = sfs s) rs ss -> forall off lk,
    lks off rs lk = lks off ss lk.
  Proof.
    induction 1 as [|r s rs ss E H IH]; intros off lk; [reflexivity|]. cbn [lks].
    rewrite (lk_add_sfs lk off r s E). apply IH.
  Qed.
  Lemma ens_sfs rs ss : Forall2 (fun r s => sfs r = sfs s) rs ss -> forall en,
    ens enums rs en = ens enums ss en.
  Proof.
    induction 1 as [|r s rs ss E H IH]; intros en; [reflexivity|]. cbn [ens].
    rewrite (en_add_sfs enums en r s E). apply IH.
  Qed.

  Lemma nth_Forall2 {A B} (R : A -> B -> Prop) l : forall m, List.length m = List.length l ->
    (forall i x, nth_error l i = Some x -> exists y, nth_error m i = Some y /\ R y x) -> Forall2 (fun y x => R y x) m l.
  Proof.
    induction l as [|x l IH]; intros [|y m] L H; try discriminate; constructor.
    - destruct (H 0%nat x eq_refl) as (z & Z1 & Z2). cbn in Z1. injection Z1 as ->. exact Z2.
    - apply IH; [cbn in L; lia|]. intros i z Hz. apply (H (S i) z Hz).
  Qed.

  Definition fitting (p : proto) (rs : list regs) : Prop :=
    List.length rs = List.length (q_bits p) /\
    forall i b, nth_error (q_bits p) i = Some b -> exists r, nth_error rs i = Some r /\ brel r (b_regs b).

  Lemma rel_sim p q rs names sers rem : PI p -> fitting p rs ->
    Rel enums rs names sers p q rem -> (forall n, smem n (q_names p) = smem n names) ->
    Sim (List.length rs) (with_chain p (q_chain q)) q.
  Proof.
    intros HP [L F] R N. destruct R as [R1 R2 R3 R4 R5 R6 R7 R8 R9 R10 R11 R12 R13 R14 R15].
    assert (Fm : Forall2 (fun r s => sfs r = sfs s) rs (map b_regs (q_bits p))).
    { apply (nth_Forall2 (fun r s => sfs r = sfs s)); [rewrite map_length; exact L|].
      intros i s Hs. rewrite nth_error_map in Hs. destruct (nth_error (q_bits p) i) as [b|] eqn:E; [|discriminate].
      cbn in Hs. injection Hs as <-. destruct (F i b E) as (r & E1 & E2). exists r. split; [exact E1|apply E2]. }
    assert (Fa : firstn (List.length (q_bits p)) rs = rs) by (rewrite <- L; apply firstn_all).
    split; cbn; try congruence.
    - rewrite R3. exact N.
    - apply (nth_Forall2 bsame); [congruence|]. intros i c Hc.
      assert (Li : (i < List.length rs)%nat).
      { rewrite <- R4. apply nth_error_Some. congruence. }
      rewrite L in Li. apply nth_error_Some in Li. destruct (nth_error (q_bits p) i) as [b|] eqn:E; [|congruence].
      destruct (F i b E) as (r & E1 & [E2 E3]). exists b. split; [reflexivity|].
      rewrite (R5 i r E1) in Hc. injection Hc as <-. split; cbn.
      + unfold pos_of. rewrite E. reflexivity.
      + split; cbn; [congruence|]. unfold sfs in *. cbn. congruence.
    - rewrite R6, (pi_gf _ _ HP). reflexivity.
    - intros n. rewrite R7, Fa, dget_lks, (lks_sfs _ _ Fm 0%nat), (pi_lk _ _ HP).
      destruct (dget n (lks 0 (map b_regs (q_bits p)) [])); reflexivity.
    - intros n. rewrite R8, Fa, dget_ens, (ens_sfs _ _ Fm), (pi_en _ _ HP).
      destruct (dget n (ens enums (map b_regs (q_bits p)) [])); reflexivity.
  Qed.

  Lemma init_rel d p rs names sers id build :
    PI p -> fitting p rs -> Claim valid enums eprim d p ->
    (forall n, smem n (q_names p) = true -> smem n names = true) ->
    (forall n i, dget n (q_ser p) = Some i -> exists x, dget n sers = Some x /\ is_arr x = false) ->
    (forall n, dmem n (q_ser p) = false -> dget n sers = None) ->
    Forall (it_plain d) (q_build p) -> build = map (drop_len d) (q_build p) ->
    exists q, pr_init names rs build id (q_order p) sers = Some q /\ q_id q = id /\
      Rel enums rs names sers p q [].
  Proof.
    intros HP [L F] C N S1 S2 Pl ->. unfold ProtoModel.pr_init.
    rewrite (g_load_in valid enums).
    2:{ apply Forall_forall. intros r Hr. apply In_nth_error in Hr as [i Hi].
        assert (Li : (i < List.length rs)%nat) by (apply nth_error_Some; congruence).
        rewrite L in Li. apply nth_error_Some in Li. destruct (nth_error (q_bits p) i) as [b|] eqn:E; [|congruence].
        destruct (F i b E) as (r' & E1 & [_ E2]). assert (r' = r) as -> by congruence.
        destruct (pi_known _ _ HP i b E) as [K1 K2]. split.
        - eapply known_sfs; [symmetry; exact E2|exact K1].
        - apply (names_sfs (fun n => smem n names = true) (b_regs b) r); [symmetry; exact E2|].
          intros n f Hf. apply N. exact (K2 n f Hf). }
    cbn [g_fields g_lookup g_enum app List.length].
    destruct (C rs names sers id) as (q & rem & B & I & R); [|exact Pl|].
    { split; [lia|exact F|exact N|exact S1]. }
    unfold start in B. rewrite B.
    assert (rem = []) as ->.
    { apply dget_all_none. intros n. rewrite (rl_rem _ _ _ _ _ _ _ R).
      destruct (dmem n (q_ser p)) eqn:E; [reflexivity|]. apply S2. exact E. }
    exists q. auto.
  Qed.

  (** ** Import *)
  Lemma lks_keys rs : forall off lk n, In n (dkeys (lks off rs lk)) ->
    In n (dkeys lk) \/ exists r f, In r rs /\ In (n, f) (r_fields r).
  Proof.
    induction rs as [|r rs IH]; intros off lk n H; cbn in H; [auto|].
    apply IH in H as [H|(s & f & H1 & H2)]; [|right; exists s, f; cbn; auto].
    destruct (dget n (lk_add lk off (r_fields r))) as [i|] eqn:E.
    2:{ apply dget_None_notin in E. contradiction. }
    rewrite dget_lk_add in E. destruct (existsb _ (r_fields r)) eqn:X.
    - apply existsb_exists in X as ([m f] & X1 & X2). apply String.eqb_eq in X2. cbn in X2. subst.
      right. exists r, f. cbn. auto.
    - left. eapply dget_Some_in. exact E.
  Qed.

  Lemma lks_nodup rs : forall off lk, NoDup (dkeys lk) -> NoDup (dkeys (lks off rs lk)).
  Proof.
    induction rs as [|r rs IH]; intros off lk H; cbn [lks]; [exact H|]. apply IH. clear IH. unfold lk_add.
    revert lk H. induction (r_fields r) as [|[n f] fs IH]; intros lk H; cbn; [exact H|].
    apply IH, NoDup_dset, H.
  Qed.

  Lemma lookup_names p n : PI p -> In n (dkeys (g_lookup (q_mgr p))) -> smem n (q_names p) = true.
  Proof.
    intros HP H. rewrite (pi_lk _ _ HP) in H. apply lks_keys in H as [[]|(r & f & H1 & H2)].
    apply in_map_iff in H1 as (b & <- & Hb). apply In_nth_error in Hb as [i Hi].
    destruct (pi_known _ _ HP i b Hi) as [_ K]. exact (K n f H2).
  Qed.

  Lemma smem_in n l : smem n l = true <-> In n l.
  Proof.
    unfold smem. rewrite existsb_exists. split.
    - intros (m & H1 & H2). apply String.eqb_eq in H2. congruence.
    - intros H. exists n. split; [exact H|apply String.eqb_refl].
  Qed.

  Lemma dmem_in {V} n (l : list (string * V)) : dmem n l = true <-> In n (dkeys l).
  Proof.
    unfold dmem. destruct (dget n l) eqn:E.
    - split; [|reflexivity]. intros _. eapply dget_Some_in. exact E.
    - apply dget_None_notin in E. split; [discriminate|contradiction].
  Qed.

  Lemma export_names p : PI p -> NI p ->
    forall n, smem n (q_names p) =
      smem n (dkeys (g_lookup (q_mgr p)) ++
              filter (fun n => negb (dmem n (g_lookup (q_mgr p)))) (dkeys (q_reg p))).
  Proof.
    intros HP HN n. apply Bool.eq_iff_eq_true. rewrite !smem_in, in_app_iff, filter_In.
    rewrite <- smem_in. split.
    - intros H. apply (ni_names _ _ _ HN) in H. rewrite <- dmem_in.
      destruct (dmem n (g_lookup (q_mgr p))); [auto|]. right. destruct H as [H|H]; [discriminate|].
      split; [apply dmem_in; exact H|reflexivity].
    - intros [H|[H _]]; [apply (lookup_names p n HP H)|].
      apply dmem_in in H. unfold dmem in H. destruct (dget n (q_reg p)) as [ps|] eqn:E; [|discriminate].
      exact (pi_regn _ _ HP n ps E).
  Qed.

  Lemma parse_all l : Forall (fun it => it_plain true it /\ match it with BSer _ => False | _ => True end) l ->
    all_some parse_item l = Some (map (drop_len true) l).
  Proof.
    induction 1 as [|it l [_ N] H IH]; [reflexivity|]. cbn. rewrite IH.
    destruct it; [reflexivity|reflexivity|contradiction].
  Qed.

  Lemma loadable_imported p : PI p -> NI p ->
    all_loadable word p <-> exists rs, imported p rs.
  Proof.
    intros HP HN. unfold imported. rewrite all_some_total, Forall_forall. split.
    - intros H b Hb. apply (imp_some p b HP (ni_mi p HN) Hb). apply H. exact Hb.
    - intros H b Hb. apply (imp_some p b HP (ni_mi p HN) Hb). apply H. exact Hb.
  Qed.

  Lemma imported_fits p rs : PI p -> NI p -> imported p rs -> fitting p rs.
  Proof.
    intros HP HN H. destruct (all_some_nth _ _ _ H) as [L N]. split; [exact L|].
    intros i b Hb. destruct (N i b Hb) as (r & E1 & E2). exists r. split; [exact E2|].
    destruct (imp_spec p b r HP (ni_mi p HN) (nth_error_In _ _ Hb) E1) as [B _]. exact B.
  Qed.

  (** The chain the building leaves. *)
  Lemma rel_good p q rs names sers rem : PI p -> NI p -> imported p rs ->
    Rel enums rs names sers p q rem -> Good p rs (q_chain q) [].
  Proof.
    intros HP HN HI R. destruct (all_some_nth _ _ _ HI) as [L N].
    destruct R as [R1 R2 R3 R4 R5 R6 R7 R8 R9 R10 R11 R12 R13 R14 R15]. split.
    - exact R2.
    - apply chain_ok_of_get. intros ps x Hx. pose proof (sh_get _ _ R2 ps) as G. rewrite Hx in G.
      destruct (c_get (q_chain p) ps) as [y|] eqn:Ey; [|discriminate]. cbn in G. injection G as G.
      destruct (ni_cov _ _ _ HN ps y Ey) as [(b & Hb & Hps)|(n & Hn)].
      + apply In_nth_error in Hb as [i Hi]. destruct (N i b Hi) as (r & E1 & E2).
        destruct (imp_spec p b r HP (ni_mi p HN) (nth_error_In _ _ Hi) E1) as ([Bk _] & Rv & _).
        destruct (R12 i b ps r Hi Hps E2) as (x' & X1 & X2). rewrite Hx in X1. injection X1 as <-.
        unfold p_ok. rewrite <- G, X2.
        destruct (pi_bits _ _ HP i b Hi) as (ps' & y' & P1 & P2 & P3). rewrite Hps in P1. injection P1 as <-.
        rewrite Ey in P2. injection P2 as <-. rewrite P3, <- Bk. exact Rv.
      + destruct (R13 n ps Hn) as (x' & X1 & X2). rewrite Hx in X1. injection X1 as <-.
        unfold p_ok. rewrite X2. apply zero_value.
    - exact R12.
    - intros n ps [].
  Qed.

  Lemma exported_all p resolve rs v1 v2 : PI p ->
    all_some (paired (fun n => g_get p n resolve)) (dkeys (g_lookup (q_mgr p))) = Some v1 ->
    all_some (paired (pr_value p)) (dkeys (q_reg p)) = Some v2 ->
    mgr_regs p = Some rs ->
    Forall (fun nv => exported p resolve (fst nv) (snd nv))
      (fold_left (fun d nv => dset (fst nv) (snd nv) d) v2 v1) /\
    forall n, In n (dkeys (q_reg p)) ->
      In n (dkeys (fold_left (fun d nv => dset (fst nv) (snd nv) d) v2 v1)).
  Proof.
    intros HP E1 E2 _. apply paired_all in E1 as [K1 V1]. apply paired_all in E2 as [K2 V2].
    assert (ND : NoDup (dkeys v1)).
    { rewrite K1, (pi_lk _ _ HP). apply lks_nodup. constructor. }
    split.
    - apply Forall_forall. intros [n v] Hin. cbn [fst snd]. apply fold_dset_in in Hin as [Hin|[Hin Hn]]; [| |exact ND].
      + left. split; [|exact (V2 n v Hin)]. apply dmem_in. rewrite <- K2. unfold dkeys. apply (in_map fst) in Hin. exact Hin.
      + right. split; [|exact (V1 n v Hin)]. rewrite K2 in Hn. apply dget_None_notin. exact Hn.
    - intros n Hn. apply fold_dset_keys. left. rewrite K2. exact Hn.
  Qed.

  Lemma good_values p rs c done : PI p -> NI p -> imported p rs -> Good p rs c done ->
    (forall n, In n (dkeys (q_reg p)) -> In n done) ->
    forall n, pr_value (with_chain p c) n = pr_value p n.
  Proof.
    intros HP HN HI [G1 G2 G3 G4] D n. unfold pr_value. cbn [with_chain q_reg q_chain q_enum].
    destruct (dget n (q_reg p)) as [ps|] eqn:Er.
    - rewrite (G4 n ps); [reflexivity| |exact Er]. apply D. eapply dget_Some_in. exact Er.
    - unfold g_get. rewrite g_find_chain. destruct (g_find p n) as [[b f]|] eqn:Ef; [|reflexivity].
      pose proof Ef as Ef'. apply find_in in Ef' as [i Hi].
      assert (Hf : dget n (r_fields (b_regs b)) = Some f).
      { unfold g_find in Ef. destruct (dget n (g_lookup (q_mgr p))) as [n0|]; [|discriminate].
        destruct (nth_error (g_fields (q_mgr p)) n0) as [n1|]; [|discriminate].
        destruct (nth_error (q_bits p) n1) as [b'|]; [|discriminate].
        destruct (dget n (r_fields (b_regs b'))) as [g|] eqn:Eg; [|discriminate].
        cbn in Ef. injection Ef as -> ->. exact Eg. }
      destruct (all_some_nth _ _ _ HI) as [L N]. destruct (N i b Hi) as (r & E1 & E2).
      destruct (imp_spec p b r HP (ni_mi p HN) (nth_error_In _ _ Hi) E1) as (_ & _ & Rr & _).
      destruct (Rr n f Hf) as (_ & _ & I3).
      destruct (pi_bits _ _ HP i b Hi) as (ps & x & P1 & P2 & P3).
      destruct (G3 i b ps r Hi P1 E2) as (y & Y1 & Y2).
      assert (Cc : cur_regs c b = with_raw (b_regs b) (r_raw r)).
      { unfold cur_regs. rewrite P1, Y1, Y2. reflexivity. }
      cbn [with_chain q_chain q_mgr]. rewrite Cc. cbn [with_raw r_raw]. rewrite I3. reflexivity.
  Qed.

  Lemma good_clean p rs c done : PI p -> NI p -> imported p rs -> Good p rs c done ->
    (forall n, In n (dkeys (q_reg p)) -> In n done) -> all_clean p -> c = q_chain p.
  Proof.
    intros HP HN HI [G1 G2 G3 G4] D Cl. symmetry. apply sh_eq; [exact G1|apply (ni_arr _ _ _ HN)|].
    intros ps. pose proof (sh_get _ _ G1 ps) as G.
    destruct (c_get (q_chain p) ps) as [x|] eqn:Ex; [|destruct (c_get c ps); [discriminate|reflexivity]].
    destruct (ni_cov _ _ _ HN ps x Ex) as [(b & Hb & Hps)|(n & Hn)].
    - apply In_nth_error in Hb as [i Hi]. destruct (all_some_nth _ _ _ HI) as [L N].
      destruct (N i b Hi) as (r & E1 & E2).
      destruct (imp_spec p b r HP (ni_mi p HN) (nth_error_In _ _ Hi) E1) as (_ & _ & _ & _ & Cr).
      destruct (G3 i b ps r Hi Hps E2) as (y & Y1 & Y2). rewrite Y1 in *. f_equal.
      rewrite Cr in Y2.
      + assert (r_raw (cur_regs (q_chain p) b) = p_val x) as Ec.
        { unfold cur_regs. rewrite Hps, Ex. reflexivity. }
        cbn in G. injection G as G. destruct x, y; cbn in *; congruence.
      + intros j Hj. apply Cl; [exact (nth_error_In _ _ Hi)|exact Hj].
    - rewrite <- Ex. symmetry. apply (G4 n ps); [|exact Hn]. apply D. eapply dget_Some_in. exact Hn.
  Qed.

  Lemma import_export p resolve j : PI p -> NI p -> Claim valid enums eprim true p ->
    enums_ok enums -> pr_export p resolve = Some j ->
    ((exists q, pr_import j = Some q) <-> all_loadable word p) /\
    forall q, pr_import j = Some q ->
      q_id q = q_id p /\
      exists c K, Sim K (with_chain p c) q /\ sh (q_chain p) c /\
        (forall n, pr_value (with_chain p c) n = pr_value p n) /\
        (all_clean p -> c = q_chain p).
  Proof.
    intros HP HN C HE X. unfold pr_export in X.
    rewrite (mgr_regs_all p HP) in X.
    destruct (all_some _ (dkeys (g_lookup (q_mgr p)))) as [v1|] eqn:Ev1; [|discriminate].
    destruct (all_some _ (dkeys (q_reg p))) as [v2|] eqn:Ev2; [|discriminate]. injection X as <-.
    destruct (exported_all p resolve _ v1 v2 HP Ev1 Ev2 (mgr_regs_all p HP)) as [XA XK].
    set (vals := fold_left _ v2 v1) in *.
    pose proof (export_names p HP HN) as EN.
    unfold ProtoModel.pr_import. cbn [jp_names jp_fields jp_build jp_id jp_order jp_values].
    set (names := dkeys (g_lookup (q_mgr p)) ++ _) in *.
    assert (FV : forallb valid names = true).
    { apply forallb_forall. intros n Hn. apply (ni_valid _ _ _ HN). rewrite EN. apply smem_in. exact Hn. }
    rewrite FV, (parse_all _ (ni_build _ _ _ HN)), !all_some_map.
    change (fun x => r_import word (r_asdict (cur_regs (q_chain p) x))) with (imp p).
    assert (BI : forall rs, imported p rs ->
      exists q0 c, pr_init names rs (map (drop_len true) (q_build p)) (q_id p) (q_order p) [] = Some q0 /\
        exists q, set_all q0 vals = Some q /\ q_id q = q_id p /\ Sim (List.length rs) (with_chain p c) q /\
          Good p rs c (rev (dkeys vals) ++ [])).
    { intros rs HI. pose proof (imported_fits p rs HP HN HI) as Ft.
      destruct (init_rel true p rs names [] (q_id p) (map (drop_len true) (q_build p)) HP Ft C) as (q0 & E0 & I0 & R0); [| | | |reflexivity|].
      - intros n Hn. rewrite <- EN. exact Hn.
      - rewrite (ni_ser _ _ _ HN). discriminate.
      - reflexivity.
      - eapply Forall_impl; [|apply (ni_build _ _ _ HN)]. cbn. tauto.
      - pose proof (rel_sim p q0 rs names [] [] HP Ft R0 EN) as S0.
        pose proof (rel_good p q0 rs names [] [] HP HN HI R0) as G0.
        assert (HP0 : PI (with_chain p (q_chain q0))) by (apply chain_PI; [exact HP|apply G0]).
        destruct (set_many p rs resolve vals HP HN HE HI XA _ [] G0) as (c & Ec & Gc).
        pose proof (sim_set_all (List.length rs) vals _ _ HP0 S0) as SA. rewrite Ec in SA.
        exists q0, c. split; [exact E0|]. destruct (set_all q0 vals) as [q|] eqn:Eq; [|contradiction].
        exists q. split; [reflexivity|]. split; [|split; [exact SA|exact Gc]].
        assert (SI : forall l a b, set_all a l = Some b -> q_id b = q_id a).
        { induction l as [|[n v] l IH]; intros a b Hab; cbn [ProtoModel.set_all] in Hab; [congruence|].
          destruct (pr_set a n v) as [a1|] eqn:Ea; [|discriminate]. apply IH in Hab. rewrite Hab.
          destruct (set_chain _ _ _ _ _ _ Ea) as [->|(ps & z & ->)]; reflexivity. }
        rewrite (SI _ _ _ Eq). exact I0. }
    rewrite (loadable_imported p HP HN). unfold imported in *.
    destruct (all_some (imp p) (q_bits p)) as [rs|] eqn:Ers.
    - destruct (BI rs eq_refl) as (q0 & c & -> & q & -> & Iq & Sq & Gq). split.
      + split; [eauto|]. intros _. eauto.
      + intros q' Y. injection Y as <-. split; [exact Iq|].
        assert (D : forall n, In n (dkeys (q_reg p)) -> In n (rev (dkeys vals) ++ [])).
        { intros n Hn. rewrite app_nil_r, <- in_rev. apply XK. exact Hn. }
        exists c, (List.length rs). split; [exact Sq|]. split; [apply Gq|]. split.
        * apply (good_values p rs c _ HP HN Ers Gq D).
        * apply (good_clean p rs c _ HP HN Ers Gq D).
    - split; [|discriminate]. split; [intros [q Y]; discriminate|]. intros [rs Y]. discriminate.
  Qed.
End Proto.
