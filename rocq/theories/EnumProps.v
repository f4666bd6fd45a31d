(** Property C06: runtime enumerations. *)
From Verif Require Import Base BaseLemmas RegistryModel EnumModel EnumSpec EnumProofs.

(** C06.  For every enumeration a user can have and every (name, value) pair
    in its dictionary, all four translations agree, whatever [int(str)] and
    StrToBool do. *)
Theorem C06_enum_translations_agree :
  forall valid int_of bool_of (e : renum),
    e_reachable valid e ->
    forall n v, In (n, v) (e_pairs e) ->
      e_get_str e (VInt v) = Some n /\
      e_get_str e (VStr n) = Some n /\
      e_get_int int_of bool_of e (VStr n) = Some v /\
      e_get_int int_of bool_of e (VInt v) = Some v.
Proof. exact enum_translates. Qed.
Print Assumptions C06_enum_translations_agree.

(** C06.  Values and names outside the dictionary raise KeyError. *)
Theorem C06_enum_unknown_raises :
  forall valid int_of bool_of (e : renum),
    e_reachable valid e ->
    (forall v, ~ In v (map snd (e_pairs e)) ->
       e_get_str e (VInt v) = None /\ e_get_int int_of bool_of e (VInt v) = None) /\
    (forall n, ~ In n (map fst (e_pairs e)) -> e_get_str e (VStr n) = None).
Proof. exact enum_unknown. Qed.
Print Assumptions C06_enum_unknown_raises.

(** C06.  A string translates to a number only as a name of the dictionary, as
    the decimal text of a known value, or (boolean enumerations) as a truth
    word. *)
Theorem C06_enum_string_raises :
  forall valid int_of bool_of (e : renum),
    e_reachable valid e ->
    forall s v, e_get_int int_of bool_of e (VStr s) = Some v ->
      In (s, v) (e_pairs e) \/
      match e with
      | EInt _ => int_of s = Some v /\ In v (map snd (e_pairs e))
      | EBool _ => exists b, bool_of s = Some b /\ v = z_of_bool b
      end.
Proof.
  intros valid int_of bool_of e Re s v H. apply (e_reachable_wf valid int_of bool_of) in Re.
  destruct e as [r|m]; cbn in *.
  - destruct Re as (HI & _ & _). unfold m_identifier in H. destruct (dget s (m_rev (r_map r))) as [z|] eqn:E.
    + injection H as <-. left. apply dget_In. exact E.
    + right. destruct (int_of s) as [z|]; [|discriminate]. unfold m_identifier_key, dmem in H.
      destruct (dget z (m_fwd (r_map r))) as [n|] eqn:F; [|discriminate]. injection H as <-.
      split; [reflexivity|]. apply HI in F. apply dget_In in F. change z with (snd (n, z)). apply in_map. exact F.
  - unfold m_identifier in H. destruct (dget s (m_rev m)) as [b|] eqn:E; cbn in H.
    + injection H as <-. left. apply dget_In in E. apply in_map_iff. exists (s, b). auto.
    + right. destruct (bool_of s) as [b|]; [|discriminate]. injection H as <-. exists b. auto.
Qed.
Print Assumptions C06_enum_string_raises.

(** C06.  Exporting an enumeration and building a new one from the result
    succeeds, keeps the dictionary and every translation. *)
Theorem C06_enum_export_import :
  forall valid int_of bool_of (e : renum),
    e_reachable valid e ->
    exists e', e_reload valid e = Some e' /\ e_pairs e' = e_pairs e /\
      (forall v, e_get_str e' v = e_get_str e v) /\
      (forall v, e_get_int int_of bool_of e' v = e_get_int int_of bool_of e v) /\
      (forall v, e_get_bool bool_of e' v = e_get_bool bool_of e v).
Proof. exact enum_reload. Qed.
Print Assumptions C06_enum_export_import.

(** A concrete integer enumeration with a later automatic registration, and a
    boolean one, meet the hypothesis. *)
Definition enum_demo : list (entry Z) := [ByName "idle" 3; ByKey 1 "busy"].
Example enum_demo_int :
  exists e, e_reachable (fun _ => true) e /\
    e_pairs e = [("busy", 1); ("idle", 3); ("auto", 4)].
Proof.
  eexists; split.
  - eexists. exists [ERegInt "auto"]. split.
    + left. exists enum_demo. vm_compute. reflexivity.
    + vm_compute. reflexivity.
  - vm_compute. reflexivity.
Qed.
Example enum_demo_bool :
  exists e, e_reachable (fun _ => true) e /\ e_pairs e = [("on", 1); ("off", 0)].
Proof.
  eexists; split.
  - eexists. exists [ERegBool "off" false; ERegBool "nope" true]. split.
    + right. exists [ByName "on" true]. vm_compute. reflexivity.
    + vm_compute. reflexivity.
  - vm_compute. reflexivity.
Qed.

(** C06.  Registering a boolean name reports true exactly when the name is
    valid and neither the name nor the value is in the dictionary yet; then the
    pair is added, and otherwise nothing changes. *)
Theorem C06_register_bool :
  forall valid bool_of (m : nmap bool) name value,
    e_reachable valid (EBool m) ->
    let '(m', ok) := b_register valid m name value in
    (ok = true <-> valid name = true /\
       ~ In name (map fst (e_pairs (EBool m))) /\
       ~ In (if value then 1 else 0) (map snd (e_pairs (EBool m)))) /\
    (ok = true -> e_pairs (EBool m') = e_pairs (EBool m) ++ [(name, if value then 1 else 0)] /\
       e_get_bool bool_of (EBool m') (VStr name) = Some value /\
       e_get_str (EBool m') (VBool value) = Some name) /\
    (ok = false -> m' = m).
Proof.
  intros valid bool_of m name value Re.
  apply (e_reachable_wf valid (fun _ => None) bool_of) in Re. destruct Re as (HI & Hv & Hd).
  assert (P1 : dmem name (m_rev m) = false <-> ~ In name (map fst (e_pairs (EBool m)))).
  { rewrite dmem_false, dget_None_notin. cbn [e_pairs]. unfold m_asdict, dkeys.
    rewrite map_map. cbn [fst]. reflexivity. }
  assert (P2 : dmem value (m_fwd m) = false <->
               ~ In (if value then 1 else 0) (map snd (e_pairs (EBool m)))).
  { rewrite dmem_false. cbn [e_pairs]. unfold m_asdict. rewrite map_map. cbn [snd]. split.
    - intros G C. apply in_map_iff in C as ([n b] & C1 & C2). cbn [fst snd] in C1.
      assert (b = value) as -> by (destruct b, value; cbn in C1; congruence).
      apply In_dget in C2; [|exact Hd]. apply HI in C2. congruence.
    - intros C. destruct (dget value (m_fwd m)) as [n|] eqn:G; [|reflexivity].
      exfalso. apply C. apply HI in G. apply dget_In in G. apply in_map_iff.
      exists (n, value). split; [destruct value; reflexivity|exact G]. }
  unfold b_register. destruct (valid name) eqn:V; cbn [negb orb].
  2:{ split; [split; [discriminate|intros (C & _); discriminate]|split; [discriminate|reflexivity]]. }
  destruct (dmem name (m_rev m)) eqn:D1; cbn [orb].
  { split; [split; [discriminate|intros (_ & C & _); apply P1 in C; discriminate]|
            split; [discriminate|reflexivity]]. }
  destruct (dmem value (m_fwd m)) eqn:D2.
  { split; [split; [discriminate|intros (_ & _ & C); apply P2 in C; discriminate]|
            split; [discriminate|reflexivity]]. }
  split; [|split; [|discriminate]].
  - split; [|reflexivity]. intros _. split; [reflexivity|]. split; [apply P1|apply P2]; reflexivity.
  - intros _. apply dmem_false in D1. split; [|split].
    + cbn [e_pairs]. unfold m_asdict. cbn [m_rev]. rewrite dset_notin by exact D1.
      rewrite map_app. cbn [map fst snd]. destruct value; reflexivity.
    + cbn [e_get_bool e_as_bool]. unfold m_identifier. cbn [m_rev].
      rewrite dget_dset. destruct (eq_dec name name); [reflexivity|congruence].
    + cbn [e_get_str e_as_str]. unfold m_name. cbn [m_fwd].
      rewrite dget_dset. destruct (eq_dec value value); [reflexivity|congruence].
Qed.
Print Assumptions C06_register_bool.
Example register_bool_demo :
  exists m, e_reachable (fun _ => true) (EBool m) /\
    snd (b_register (fun _ => true) m "off" false) = true /\
    snd (b_register (fun _ => true) m "on" false) = false /\
    snd (b_register (fun _ => true) m "high" true) = false.
Proof.
  eexists. split.
  - eexists. exists []. split; [right; exists [ByName "on" true]; reflexivity|reflexivity].
  - vm_compute. auto.
Qed.

(** What loading leaves in the dictionary comes from the items. *)
Lemma load_only {K} {KD : EqDec K} valid (kvs : list (K * string)) : forall (m m' : nmap K) n k,
  m_load valid m kvs = (m', true) -> In (n, k) (m_rev m') ->
  In (n, k) (m_rev m) \/ In (k, n) kvs.
Proof.
  induction kvs as [|[k0 n0] kvs IH]; cbn [m_load]; intros m m' n k H Hin.
  - injection H as <-. auto.
  - destruct (m_set valid m k0 n0) as [m1 [|]] eqn:E; [|discriminate].
    destruct (IH _ _ n k H Hin) as [A|A]; [|right; right; exact A].
    assert (G : In (n, k) (m_rev m) \/ (k, n) = (k0, n0)).
    { unfold m_set in E. destruct (negb (valid n0)); [discriminate|].
      destruct (match dget k0 (m_fwd m) with
                | Some c => if eq_dec c n0 then Some (m_fwd m) else None
                | None => Some (dset k0 n0 (m_fwd m)) end) as [f|]; [|discriminate].
      destruct (dget n0 (m_rev m)) as [c|] eqn:G.
      - destruct (eq_dec c k0); [|discriminate]. injection E as <-. auto.
      - injection E as <-. cbn [m_rev] in A.
        rewrite dset_notin in A by exact G. apply in_app_iff in A as [A|[A|[]]]; [auto|].
        right. congruence. }
    destruct G as [G|G]; [auto|]. right. left. symmetry. exact G.
Qed.
Lemma new_exact {K} {KD : EqDec K} valid (mp : list (K * string)) rv m n k :
  m_new valid mp rv = Some m ->
  (In (n, k) (m_rev m) <-> In (k, n) mp \/ In (n, k) rv).
Proof.
  intros H. destruct (RegistryProofs.m_new_loaded valid mp rv m H) as [A B]. split.
  - unfold m_new in H. destruct (m_load valid m_empty mp) as [m1 [|]] eqn:E1; [|discriminate].
    destruct (m_load_rev valid m1 rv) as [m2 [|]] eqn:E2; [|discriminate].
    injection H as <-. intros Hin. unfold m_load_rev in E2.
    destruct (load_only valid _ _ _ _ _ E2 Hin) as [C|C].
    + destruct (load_only valid _ _ _ _ _ E1 C) as [[]|D]. auto.
    + right. apply in_map_iff in C as ([n1 k1] & C1 & C2). cbn [fst snd] in C1.
      injection C1 as -> ->. exact C2.
  - intros [H1|H1]; apply dget_In; auto.
Qed.
Lemma in_by_key {K} (l : list (entry K)) k n : In (k, n) (by_key l) <-> In (ByKey k n) l.
Proof.
  unfold by_key. rewrite in_flat_map. split.
  - intros ([nm v|kk nm] & H1 & H2); cbn in H2; [contradiction|].
    destruct H2 as [H2|[]]. injection H2 as -> ->. exact H1.
  - intros H. exists (ByKey k n). split; [exact H|left; reflexivity].
Qed.
Lemma in_by_name {K} (l : list (entry K)) k n : In (n, k) (by_name l) <-> In (ByName n k) l.
Proof.
  unfold by_name. rewrite in_flat_map. split.
  - intros ([nm v|kk nm] & H1 & H2); cbn in H2; [|contradiction].
    destruct H2 as [H2|[]]. injection H2 as -> ->. exact H1.
  - intros H. exists (ByName n k). split; [exact H|left; reflexivity].
Qed.

(** C06.  A new enumeration has exactly the pairs of its constructor's items,
    whether given as name to value or as value to name. *)
Theorem C06_constructor :
  forall valid,
    (forall items e, e_new_int valid items = Some e ->
       forall n v, In (n, v) (e_pairs e) <-> In (ByName n v) items \/ In (ByKey v n) items) /\
    (forall items e, e_new_bool valid items = Some e ->
       forall n (b : bool), In (n, if b then 1 else 0) (e_pairs e) <->
         In (ByName n b) items \/ In (ByKey b n) items).
Proof.
  intros valid. split; intros items e H n v.
  - unfold e_new_int, r_new in H.
    destruct (m_new valid (by_key items) (by_name items)) as [m|] eqn:E; [|discriminate].
    injection H as <-. cbn [e_pairs r_map]. unfold m_asdict.
    rewrite (new_exact valid _ _ _ n v E), in_by_key, in_by_name. tauto.
  - unfold e_new_bool in H.
    destruct (m_new valid (by_key items) (by_name items)) as [m|] eqn:E; [|discriminate].
    injection H as <-. cbn [e_pairs]. unfold m_asdict.
    rewrite <- in_by_key, <- in_by_name, or_comm, <- (new_exact valid _ _ _ n v E).
    rewrite in_map_iff. split.
    + intros ([n1 b1] & H1 & H2). cbn [fst snd] in H1.
      assert (n1 = n /\ b1 = v) as [-> ->]; [|exact H2].
      split; [congruence|]. destruct b1, v; cbn in H1; congruence.
    + intros H. exists (n, v). split; [destruct v; reflexivity|exact H].
Qed.
Print Assumptions C06_constructor.
Example constructor_demo :
  exists e, e_new_int (fun _ => true) [ByName "a" 1; ByKey 2 "b"] = Some e /\
            In ("b", 2) (e_pairs e).
Proof. eexists. split; [reflexivity|]. vm_compute. auto. Qed.

(** C06.  Booleans are looked up as the numbers 0 and 1.  [get_bool] raises for
    every integer enumeration; for a boolean one it answers exactly for the
    values and names of the dictionary, and for truth words that are no name. *)
Theorem C06_get_bool :
  forall valid int_of bool_of (e : renum),
    e_reachable valid e ->
    (forall b : bool,
       e_get_str e (VBool b) = e_get_str e (VInt (if b then 1 else 0)) /\
       e_get_int int_of bool_of e (VBool b) = e_get_int int_of bool_of e (VInt (if b then 1 else 0))) /\
    match e with
    | EInt _ => forall v, e_get_bool bool_of e v = None
    | EBool _ => forall b : bool,
        let z := if b then 1 else 0 in
        (forall b', e_get_bool bool_of e (VBool b') = Some b <->
           b' = b /\ In z (map snd (e_pairs e))) /\
        (forall z', e_get_bool bool_of e (VInt z') = Some b <->
           z' = z /\ In z (map snd (e_pairs e))) /\
        (forall s, e_get_bool bool_of e (VStr s) = Some b <->
           In (s, z) (e_pairs e) \/
           (~ In s (map fst (e_pairs e)) /\ bool_of s = Some b))
    end.
Proof.
  intros valid int_of bool_of e Re. apply (e_reachable_wf valid int_of bool_of) in Re. split.
  { intros b. destruct e; destruct b; split; reflexivity. }
  destruct e as [r|m]; [reflexivity|]. destruct Re as (HI & _ & Hd). intros b z.
  assert (Pin : forall n b0, In (n, if b0 : bool then 1 else 0) (e_pairs (EBool m)) <-> dget n (m_rev m) = Some b0).
  { intros n b0. cbn [e_pairs]. unfold m_asdict. rewrite in_map_iff. split.
    - intros ([n1 b1] & H1 & H2). cbn [fst snd] in H1.
      assert (n1 = n) as -> by congruence.
      assert (b1 = b0) as -> by (destruct b1, b0; cbn in H1; congruence).
      apply In_dget; assumption.
    - intros H. exists (n, b0). split; [destruct b0; reflexivity|apply dget_In; exact H]. }
  assert (Pv : forall b0, In (if b0 : bool then 1 else 0) (map snd (e_pairs (EBool m))) <->
                          exists n, dget b0 (m_fwd m) = Some n).
  { intros b0. rewrite in_map_iff. split.
    - intros ([n v] & H1 & H2). cbn [snd] in H1. subst v. apply Pin in H2. exists n. apply HI. exact H2.
    - intros (n & H). apply HI in H. apply Pin in H. exists (n, if b0 then 1 else 0). auto. }
  assert (Pk : forall b', m_identifier_key m b' = Some b <-> b' = b /\ In z (map snd (e_pairs (EBool m)))).
  { intros b'. unfold z. rewrite Pv. unfold m_identifier_key, dmem.
    destruct (dget b' (m_fwd m)) as [n|] eqn:G; split.
    - intros H. injection H as ->. split; [reflexivity|eauto].
    - intros [-> _]. reflexivity.
    - discriminate.
    - intros [-> [n H]]. congruence. }
  split; [exact Pk|split].
  - intros z'. cbn [e_get_bool e_as_bool]. unfold bool_key.
    destruct (Z.eqb_spec z' 0) as [->|N0]; [|destruct (Z.eqb_spec z' 1) as [->|N1]].
    + rewrite Pk. unfold z. destruct b; split; intros [A B]; try discriminate; auto.
    + rewrite Pk. unfold z. destruct b; split; intros [A B]; try discriminate; auto.
    + split; [discriminate|]. intros [A _]. unfold z in A. destruct b; lia.
  - intros s. cbn [e_get_bool e_as_bool]. unfold m_identifier, z. rewrite Pin.
    assert (Pn : ~ In s (map fst (e_pairs (EBool m))) <-> dget s (m_rev m) = None).
    { rewrite dget_None_notin. cbn [e_pairs]. unfold m_asdict, dkeys. rewrite map_map. cbn [fst]. reflexivity. }
    rewrite Pn. destruct (dget s (m_rev m)) as [b0|]; split.
    + auto.
    + intros [H|[H _]]; [exact H|discriminate].
    + auto.
    + intros [H|[_ H]]; [discriminate|exact H].
Qed.
Print Assumptions C06_get_bool.
Example get_bool_demo :
  exists e, e_new_bool (fun _ => true) [ByName "on" true] = Some e /\
    e_get_bool (fun _ => None) e (VBool false) = None /\
    e_get_bool (fun _ => Some true) e (VStr "yes") = Some true.
Proof. eexists. split; [reflexivity|]. vm_compute. auto. Qed.

(** C06.  The number of a text: a name's value first, then the decimal text of
    a known value (or a truth word). *)
Theorem C06_number_of_text :
  forall valid int_of bool_of (e : renum),
    e_reachable valid e ->
    forall s v, e_get_int int_of bool_of e (VStr s) = Some v <->
      In (s, v) (e_pairs e) \/
      (~ In s (map fst (e_pairs e)) /\
       match e with
       | EInt _ => int_of s = Some v /\ In v (map snd (e_pairs e))
       | EBool _ => exists b : bool, bool_of s = Some b /\ v = if b then 1 else 0
       end).
Proof.
  intros valid int_of bool_of e Re s v. split.
  - intros H. destruct (C06_enum_string_raises valid int_of bool_of e Re s v H) as [A|A]; [auto|].
    destruct (in_dec eq_dec s (map fst (e_pairs e))) as [I|N]; [|right; auto].
    left. apply in_map_iff in I as ([s' v'] & E1 & I). cbn [fst] in E1. subst s'.
    destruct (C06_enum_translations_agree valid int_of bool_of e Re s v' I) as (_ & _ & G & _).
    rewrite H in G. injection G as ->. exact I.
  - intros [H|[N H]].
    + apply (C06_enum_translations_agree valid int_of bool_of e Re s v H).
    + destruct e as [r|m].
      * destruct H as [H1 H2]. apply in_map_iff in H2 as ([n v'] & E1 & I). cbn [snd] in E1. subst v'.
        destruct (C06_enum_translations_agree valid int_of bool_of _ Re n v I) as (_ & _ & _ & G).
        cbn [e_get_int e_as_int] in *. unfold m_identifier.
        replace (dget s (m_rev (r_map r))) with (@None Z)
          by (symmetry; apply dget_None_notin; exact N).
        rewrite H1. exact G.
      * destruct H as (b & H1 & ->). cbn [e_get_int e_as_bool]. unfold m_identifier.
        replace (dget s (m_rev m)) with (@None bool).
        { rewrite H1. reflexivity. }
        symmetry. apply dget_None_notin. intros C. apply N. cbn [e_pairs]. unfold m_asdict.
        rewrite map_map. cbn [fst]. exact C.
Qed.
Print Assumptions C06_number_of_text.
Example number_of_text_demo :
  exists e, e_new_int (fun _ => true) [ByName "a" 1; ByKey 2 "b"] = Some e /\
    e_get_int (fun _ => Some 2) (fun _ => None) e (VStr "2") = Some 2 /\
    e_get_int (fun _ => Some 3) (fun _ => None) e (VStr "3") = None.
Proof. eexists. split; [reflexivity|]. vm_compute. auto. Qed.
