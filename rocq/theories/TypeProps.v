(** Property C53: type systems. *)
From Coq Require Import ZifyBool ZifyNat Lia.
From Verif Require Import Base BaseLemmas PrimModel StringModel ArrayModel ChainModel RegistryModel EnumModel
  FieldModel ProtoModel TypeModel TypeSpec TypeProofs.

(** C53.  Among several matches the name chosen is the only one of the smallest
    length; without such a match the lookup raises. *)
Theorem C53_resolve_name :
  forall l r, resolve_name l = Some r <->
    (In r l /\ forall x, In x l -> (String.length r <= String.length x)%nat) /\
    count_occ string_dec l r = 1%nat /\
    (forall x, In x l -> x <> r -> (String.length r < String.length x)%nat).
Proof.
  intros l r. rewrite resolve_spec.
  assert (C : forall l, count_occ string_dec l r = List.length (filter (String.eqb r) l)).
  { induction l0 as [|x l0 IH]; [reflexivity|]. cbn [count_occ filter].
    destruct (string_dec x r) as [->|Ne]; [rewrite String.eqb_refl; cbn; congruence|].
    destruct (String.eqb_spec r x); [congruence|exact IH]. }
  rewrite C. split.
  - intros [F M]. assert (Ir : In r l).
    { assert (I : In r [r]) by (left; reflexivity). rewrite <- F in I. apply filter_In in I. tauto. }
    split; [auto|]. split.
    + assert (X : filter (String.eqb r) (filter (fun x => Z.of_nat (String.length x) =? Z.of_nat (String.length r)) l) = [r]).
      { rewrite F. cbn. rewrite String.eqb_refl. reflexivity. }
      assert (Y : forall l, filter (String.eqb r) (filter (fun x => Z.of_nat (String.length x) =? Z.of_nat (String.length r)) l) = filter (String.eqb r) l).
      { clear. induction l as [|x l IH]; [reflexivity|]. cbn [filter].
        destruct (String.eqb_spec r x) as [->|Ne].
        - rewrite Z.eqb_refl. cbn [filter]. rewrite String.eqb_refl. f_equal. exact IH.
        - destruct (_ =? _); [|exact IH]. cbn [filter]. destruct (String.eqb_spec r x); [congruence|exact IH]. }
      rewrite Y in X. rewrite X. reflexivity.
    + intros x Hx Ne. pose proof (M x Hx). destruct (Nat.eq_dec (String.length x) (String.length r)) as [E|]; [|lia].
      exfalso. apply Ne. assert (I : In x (filter (fun x => Z.of_nat (String.length x) =? Z.of_nat (String.length r)) l)).
      { apply filter_In. split; [exact Hx|]. apply Z.eqb_eq. lia. }
      rewrite F in I. destruct I as [->|[]]. reflexivity.
  - intros ((Ir & M) & Ct & U). split; [|exact M].
    assert (Y : forall l, (forall x, In x l -> x <> r -> (String.length r < String.length x)%nat) ->
      filter (fun x => Z.of_nat (String.length x) =? Z.of_nat (String.length r)) l = filter (String.eqb r) l).
    { clear. induction l as [|x l IH]; intros U; [reflexivity|]. cbn [filter].
      rewrite IH by (intros y Hy; apply U; right; exact Hy). destruct (String.eqb_spec r x) as [->|Ne].
      - rewrite Z.eqb_refl. reflexivity.
      - specialize (U x (or_introl eq_refl) ltac:(congruence)). destruct (Z.eqb_spec (Z.of_nat (String.length x)) (Z.of_nat (String.length r))); [lia|reflexivity]. }
    rewrite (Y l U). destruct (filter (String.eqb r) l) as [|y [|z t]] eqn:F; try discriminate.
    assert (I : In y [y]) by (left; reflexivity). rewrite <- F in I. apply filter_In in I as [_ I].
    apply String.eqb_eq in I. congruence.
Qed.
Print Assumptions C53_resolve_name.

Example ex_resolve : resolve_name ["Test1Asdf"; "Test1"] = Some "Test1" /\ resolve_name ["Aa"; "Bb"] = None.
Proof. split; reflexivity. Qed.

Section Types.
  Context (valid : string -> bool) (byte_orders : renum) (root : list string)
          (search : list string -> list string -> string -> list string).
  Notation full := (full root).
  Notation run ops := (ts_run valid byte_orders root search (ts_new byte_orders) ops).

  (** C53 (partial).  Unless a type is named like a primitive or an alias: after
      any history of registrations and additions, whether they return or raise,
      the size of every type is that of the tally: each field counts as often as
      its array length says with the size of its type when it was added.
      Missing: names shadowed by primitives, for which it is false (below). *)
  Theorem C53_sizes_partial :
    forall ops s evs name ns exact,
      search_ok search -> unshadowed root ops -> run ops = (s, evs) ->
      ts_size root search s name ns exact =
      match ts_strict root search s name ns exact with
      | Some x => dget x (tally evs)
      | None => None
      end.
  Proof.
    intros ops s evs name ns exact SO U E. unfold ts_size.
    destruct (ts_strict root search s name ns exact) as [x|]; [|reflexivity].
    apply (reach_TI valid byte_orders root search SO ops s evs U E).
  Qed.

  (** C53 (partial).  No two types ever made have the same full name, and
      registering succeeds exactly when no earlier call, successful or not,
      used that full name. *)
  Theorem C53_unique_partial :
    forall ops s evs name ns,
      search_ok search -> unshadowed root (ops ++ [TReg name ns]) -> run ops = (s, evs) ->
      NoDup (made_types evs) /\
      (snd (ts_register byte_orders root search s name ns) = true <->
       ~ In (full ns name) (predefined ++ attempted root ops)).
  Proof.
    intros ops s evs name ns SO U E.
    assert (Ea : enum_attempts root (ops ++ [TReg name ns]) = enum_attempts root ops).
    { unfold enum_attempts. rewrite flat_map_app. cbn. apply app_nil_r. }
    unfold unshadowed in U. rewrite Ea in U. apply Forall_app in U as [U1 U2]. inversion U2 as [|? ? U3 _]; subst.
    pose proof (reach_TI valid byte_orders root search SO ops s evs U1 E) as T.
    split; [apply T|].
    destruct (ts_step valid byte_orders root search s (TReg name ns)) as [s' e] eqn:Es.
    pose proof Es as Es'. cbn [ts_step] in Es'. destruct (ts_register byte_orders root search s name ns) as [s1 ok] eqn:Er. cbn [snd].
    unfold ts_register in Er.
    set (s0 := mkTs (ts_prims s) (ts_custom s) _ (ts_names s)) in Er.
    assert (N : ts_name root search s0 name ns = if smem (full ns name) (ts_names s) then None
      else Some (mkTs (ts_prims s) (ts_custom s) (ts_enums s0) (ts_names s ++ [full ns name]), full ns name)).
    { pose proof (name_spec root search SO _ _ _ s name ns (TReg name ns) T U3 (or_introl eq_refl)) as N.
      unfold ts_name in *. change (ts_find root search s0 name ns true) with (ts_find root search s name ns true).
      cbn [s0 ts_prims ts_custom ts_names ts_enums].
      destruct (ts_find root search s name ns true) as [[x|]|]; [| |].
      - destruct (String.eqb (full ns name) x); destruct (smem (full ns name) (ts_names s)); try discriminate; reflexivity.
      - destruct (smem (full ns name) (ts_names s)); try discriminate; reflexivity.
      - destruct (smem (full ns name) (ts_names s)); [reflexivity|discriminate]. }
    rewrite N in Er. rewrite <- (ti_names _ _ _ _ _ T), <- smem_spec.
    destruct (smem (full ns name) (ts_names s)); injection Er as <- <-; split; congruence.
  Qed.

  (** C53 (partial).  A type can be looked up in its namespace by exactly the
      names it was registered under. *)
  Theorem C53_lookup_partial :
    forall ops s evs name ns,
      search_ok search -> unshadowed root ops -> run ops = (s, evs) ->
      ~ In name (predefined ++ enum_attempts root ops) -> full ns name <> "" ->
      ((exists p, ts_protocol root search s name ns true = Some p) <-> In (EvNew (full ns name)) evs).
  Proof.
    intros ops s evs name ns SO U E Np Ne. pose proof (reach_TI valid byte_orders root search SO ops s evs U E) as T.
    rewrite (ti_new _ _ _ _ _ T). unfold ts_protocol, ts_strict.
    rewrite (find_exact root search SO s name ns (ti_nd _ _ _ _ _ T) (ti_custom _ _ _ _ _ T)).
    destruct (dmem name (ts_prims s)) eqn:Dp; [elim Np; apply (ti_prims_from _ _ _ _ _ T _ Dp)|].
    destruct (smem (full ns name) (ts_names s)) eqn:Sm.
    - destruct (String.eqb_spec (full ns name) ""); [congruence|]. symmetry. apply dmem_dget.
    - split; [intros [p H]; discriminate|]. intros H. apply (ti_custom _ _ _ _ _ T), smem_spec in H. congruence.
  Qed.

  (** C53.  Adding to a type changes no other type: a type that uses it as a
      field keeps the size it had. *)
  Theorem C53_other_types :
    forall s ct fn ft l exact s' x t,
      ts_add valid root search s ct fn ft l exact = Some s' ->
      ts_strict root search s ct [] exact = Some t -> x <> t ->
      ts_size_of s' x = ts_size_of s x.
  Proof.
    intros s ct fn ft l exact s' x t E Et Ne. unfold ts_add in E. rewrite Et in E.
    destruct (ts_strict root search s ft [] exact) as [f|]; [|discriminate].
    destruct (dget t (ts_custom s)) as [c|]; [|discriminate].
    match goal with H : option_map _ ?o = _ |- _ => destruct o as [p|]; [|discriminate] end.
    injection E as <-. unfold ts_size_of. cbn [ts_prims ts_custom]. rewrite dget_dset. destruct (eq_dec x t); [congruence|reflexivity].
  Qed.
End Types.
Print Assumptions C53_sizes_partial.
Print Assumptions C53_unique_partial.
Print Assumptions C53_lookup_partial.
Print Assumptions C53_other_types.

(** *** Concrete type systems *)
(** A search that compares whole names. *)
Definition ex_search (names stack : list string) (pattern : string) : list string :=
  filter (fun x => String.eqb x (ns_join (stack ++ [pattern]))) names.
Lemma ex_search_ok : search_ok ex_search.
Proof.
  intros names stack pattern. unfold ex_search. split; [|split].
  - intros x H. apply filter_In in H. tauto.
  - apply NoDup_filter.
  - intros H. apply filter_In. split; [exact H|apply String.eqb_refl].
Qed.
Definition ex_any (_ : string) : bool := true.
Definition ex_bo : renum := EBool (mkNmap [] [] []).
Notation ex_trun ops := (ts_run ex_any ex_bo ["test"] ex_search (ts_new ex_bo) ops).
Notation ex_size s n := (ts_size ["test"] ex_search s n [] true).

(** The systems of the repository's tests. *)
Definition ex_system : list top :=
  [TEnum "TestEnum1" [] [ByName "a" 1; ByName "b" 2] U8;
   TEnum "TestEnum2" [] [ByName "a" 1; ByName "b" 2] U16;
   TReg "SampleStruct" []; TAdd "SampleStruct" "enum1" "TestEnum1" None true;
   TAdd "SampleStruct" "enum2" "TestEnum2" None true; TAdd "SampleStruct" "field" "uint32" None true;
   TReg "SampleStruct2" []; TAdd "SampleStruct2" "array_field1" "SampleStruct" (Some 2) true;
   TAdd "SampleStruct2" "array_field2" "uint32" (Some 10) true;
   TReg "SampleStruct" []].
Example ex_system_ok : unshadowed ["test"] ex_system.
Proof.
  unfold unshadowed, ex_system. repeat (apply Forall_cons || apply Forall_nil); cbn; try exact I;
    (split; [|discriminate]); intros H; exfalso; repeat (destruct H as [H|H]; [discriminate|]); exact H.
Qed.
Example ex_sizes :
  let '(s, evs) := ex_trun ex_system in
  ex_size s "SampleStruct" = Some 7 /\ ex_size s "SampleStruct2" = Some 54 /\
  ex_size s "TestEnum2" = Some 2 /\ ex_size s "uint64" = Some 8 /\ ex_size s "Other" = None /\
  made_types evs = ["test::TestEnum1"; "test::TestEnum2"; "test::SampleStruct"; "test::SampleStruct2"].
Proof. vm_compute. repeat split; reflexivity. Qed.

(** C53 (refuted as a recursive sum of current sizes): a type extended after it
    was used. *)
Theorem C53_recursive_refuted :
  exists s evs, ex_trun [TReg "In" []; TAdd "In" "a" "uint8" None true; TReg "Out" [];
                         TAdd "Out" "x" "In" None true; TAdd "In" "b" "uint64" None true] = (s, evs) /\
    ex_size s "In" = Some 9 /\ ex_size s "Out" = Some 1.
Proof. eexists; eexists. split; [vm_compute; reflexivity|]. vm_compute. auto. Qed.
Print Assumptions C53_recursive_refuted.

(** C53 (refuted for names of primitives): such a type cannot be looked up, and
    registering it again replaces it. *)
Theorem C53_shadowed_refuted :
  exists s evs, ex_trun [TReg "uint8" []; TReg "uint8" []] = (s, evs) /\
    evs = [EvNew "test::uint8"; EvNew "test::uint8"] /\
    ts_protocol ["test"] ex_search s "uint8" [] true = None /\ ex_size s "uint8" = Some 1.
Proof. eexists; eexists. split; [vm_compute; reflexivity|]. vm_compute. auto. Qed.
Print Assumptions C53_shadowed_refuted.

(** C53 (refuted for a type called ByteOrder in the global namespace): a field of
    that type is one byte whatever the type's size is. *)
Theorem C53_byte_order_refuted :
  exists s evs, ts_run ex_any ex_bo [] ex_search (ts_new ex_bo)
      [TReg "ByteOrder" []; TAdd "ByteOrder" "a" "uint64" None true; TReg "T" [];
       TAdd "T" "order" "ByteOrder" None true] = (s, evs) /\
    ts_size [] ex_search s "ByteOrder" [] true = Some 8 /\ ts_size [] ex_search s "T" [] true = Some 1.
Proof. eexists; eexists. split; [vm_compute; reflexivity|]. vm_compute. auto. Qed.
Print Assumptions C53_byte_order_refuted.

(** C53: a failed registration uses up the name. *)
Example ex_failed_enum :
  let '(s, evs) := ex_trun [TEnum "E" [] [ByName "a" 1; ByName "a" 2] U8; TReg "E" []] in
  evs = [] /\ ex_size s "E" = None.
Proof. vm_compute. auto. Qed.
