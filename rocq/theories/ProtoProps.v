(** Properties C52 (exported protocol definitions) and C66 (copies of
    protocols). *)
From Coq Require Import ZifyBool ZifyNat Lia.
From Verif Require Import Base BaseLemmas PrimModel PrimSpec PrimProofs StringModel ArrayModel
  ArraySpec ArrayProofs ChainModel RegistryModel EnumModel EnumSpec EnumProofs EnumProps FieldModel
  FieldSpec FieldProofs FieldExportProofs FieldProps ProtoModel ProtoSpec ProtoProofs ProtoBuildProofs
  ProtoReplayProofs ProtoSimProofs ProtoImportProofs ProtoRoundProofs ProtoSizeProofs ProtoCopyProofs.

Section Proto.
  Context (valid word : string -> bool) (int_of : string -> option Z)
          (bool_of : string -> option bool) (enums : ekey -> option renum)
          (eprim : ekey -> kind) (native_le : bool).

  Notation run := (pr_run valid int_of bool_of enums eprim native_le).
  Notation import := (pr_import valid word int_of bool_of enums eprim).
  Notation copy := (pr_copy valid word enums eprim).

  (** *** C52 *)
  Lemma plain_facts id bo ops p : Forall plain_op ops -> NoDup (field_names ops) ->
    run (pr_new id bo) ops = Some p ->
    PI enums p /\ NI valid enums p /\ Claim valid enums eprim true p.
  Proof.
    intros Po ND E. pose proof (new_PI enums id bo) as P0.
    split; [exact (run_PI _ _ _ _ _ _ _ _ _ P0 E)|]. split.
    - refine (run_NI valid word _ _ _ _ _ _ _ _ P0 (new_NI valid enums id bo) Po ND _ E).
      intros n _. reflexivity.
    - refine (run_claim valid _ _ _ _ _ true ops _ _ P0 (new_claim valid enums eprim true id bo) _ _ _ E).
      + apply Forall_forall. intros o Ho. rewrite Forall_forall in Po. specialize (Po o Ho).
        destruct o; cbn in *; try exact I. contradiction.
      + replace (ser_names ops) with (@nil string); [constructor|].
        clear - Po. induction Po as [|o ops H Po IH]; [reflexivity|]. destruct o; cbn in *; try exact IH. contradiction.
      + intros n _. reflexivity.
  Qed.

  (** C52.  A protocol without array fields and serializables, whose fields have
      distinct names, however values were set or received: if it can be
      exported, importing the export succeeds exactly when every entry of its
      bit-fields can be loaded again (the condition of C51). *)
  Theorem C52_import_succeeds_iff :
    forall id bo ops p resolve j,
      enums_ok enums -> Forall plain_op ops -> NoDup (field_names ops) ->
      run (pr_new id bo) ops = Some p -> pr_export p resolve = Some j ->
      ((exists q, import j = Some q) <-> all_loadable word p).
  Proof.
    intros id bo ops p res j Eo Po ND E X. destruct (plain_facts id bo ops p Po ND E) as (HP & HN & HC).
    exact (proj1 (import_export valid word int_of bool_of enums eprim p res j HP HN HC Eo X)).
  Qed.

  (** C52.  The imported protocol has the identifier, byte order, size and every
      value of the exported one. *)
  Theorem C52_import_values :
    forall id bo ops p resolve j q,
      enums_ok enums -> Forall plain_op ops -> NoDup (field_names ops) ->
      run (pr_new id bo) ops = Some p -> pr_export p resolve = Some j -> import j = Some q ->
      q_id q = q_id p /\ q_order q = q_order p /\ pr_size q = pr_size p /\
      forall n, pr_value q n = pr_value p n.
  Proof.
    intros id bo ops p res j q Eo Po ND E X Iq. destruct (plain_facts id bo ops p Po ND E) as (HP & HN & HC).
    destruct (import_export valid word int_of bool_of enums eprim p res j HP HN HC Eo X) as [_ H].
    destruct (H q Iq) as (I1 & c & K & S & Sh & V & _). split; [exact I1|]. split; [symmetry; apply S|].
    assert (HPc : PI enums (with_chain p c)) by (apply chain_PI; assumption).
    split.
    - unfold pr_size. rewrite <- (sm_chain _ _ _ S). cbn. symmetry. apply (sh_size _ _ Sh). apply (ni_arr _ _ _ HN).
    - intros n. rewrite <- V. symmetry. apply (sim_value valid int_of bool_of enums K _ _ n HPc S).
  Qed.

  (** C52 (partial).  If no bit is set outside the named bit-fields, nothing a
      user does afterwards - further definitions, assignments, received data -
      tells the imported protocol from the exported one by byte order, size,
      bytes or values.  Missing: protocols with array fields or serializables,
      for which it is false (below); names, the rendered string and a further
      export, which differ. *)
  Theorem C52_round_trip_partial :
    forall id bo ops p resolve j q,
      enums_ok enums -> Forall plain_op ops -> NoDup (field_names ops) ->
      run (pr_new id bo) ops = Some p -> pr_export p resolve = Some j -> import j = Some q ->
      all_clean p ->
      same_protocol valid int_of bool_of enums eprim native_le p q.
  Proof.
    intros id bo ops p res j q Eo Po ND E X Iq Cl. destruct (plain_facts id bo ops p Po ND E) as (HP & HN & HC).
    destruct (import_export valid word int_of bool_of enums eprim p res j HP HN HC Eo X) as [_ H].
    destruct (H q Iq) as (_ & c & K & S & _ & _ & Cc). specialize (Cc Cl). subst.
    assert (Id : with_chain p (q_chain p) = p) by (destruct p; reflexivity). rewrite Id in S.
    apply (sim_protocol valid int_of bool_of enums eprim native_le K); assumption.
  Qed.

  (** C52.  With array fields the imported protocol is never larger, and it has
      the exported size exactly when no field was an array. *)
  Theorem C52_size_exact :
    forall id bo ops p resolve j q,
      Forall no_ser ops -> run (pr_new id bo) ops = Some p ->
      pr_export p resolve = Some j -> import j = Some q ->
      pr_size q <= pr_size p /\
      (pr_size q = pr_size p <-> Forall one_element ops).
  Proof.
    intros id bo ops p res j q Po E X Iq. pose proof (new_PI enums id bo) as P0.
    apply (import_size valid word int_of bool_of enums eprim ops p res j q); try assumption.
    - exact (run_PI _ _ _ _ _ _ _ _ _ P0 E).
    - exact (run_ZI valid word _ _ _ _ _ ops [] _ _ P0 (new_ZI id bo) Po E).
  Qed.

  (** C52 (refuted for serializables).  Once a serializable was added the export
      can never be imported. *)
  Theorem C52_serializables_refuted :
    forall id bo ops p resolve j,
      ser_names ops <> [] -> run (pr_new id bo) ops = Some p ->
      pr_export p resolve = Some j -> import j = None.
  Proof.
    intros id bo ops p res j Ne E X. destruct (ser_names ops) as [|n l] eqn:En; [congruence|].
    apply (ser_import valid word int_of bool_of enums eprim p res j n); [|exact X].
    apply (run_ser _ _ _ _ _ _ _ _ _ E). rewrite En. left. reflexivity.
  Qed.

  (** C52 (refuted for a second round trip).  Whatever was imported: exporting
      and importing that gives a protocol of size zero without regular fields. *)
  Theorem C52_second_round_trip_refuted :
    forall j q resolve j' q',
      import j = Some q -> pr_export q resolve = Some j' -> import j' = Some q' ->
      pr_size q' = 0 /\ q_reg q' = [].
  Proof.
    intros j q res j' q' E X E'. apply import_build in E.
    exact (no_build_import valid word int_of bool_of enums eprim q res j' q' E X E').
  Qed.

  (** *** C66 *)
  Lemma chunk_facts id bo ops p : Forall chunk_op ops -> NoDup (ser_names ops) ->
    run (pr_new id bo) ops = Some p ->
    PI enums p /\ CI p /\ Claim valid enums eprim false p.
  Proof.
    intros Po ND E. pose proof (new_PI enums id bo) as P0.
    split; [exact (run_PI _ _ _ _ _ _ _ _ _ P0 E)|]. split.
    - refine (run_CI valid word int_of bool_of enums eprim native_le ops _ _ P0 (new_CI id bo) Po ND _ E).
      intros n _. reflexivity.
    - refine (run_claim valid _ _ _ _ _ false ops _ _ P0 (new_claim valid enums eprim false id bo) _ ND _ E).
      + apply Forall_forall. intros o Ho. rewrite Forall_forall in Po. specialize (Po o Ho).
        destruct o; cbn in *; try exact I. destruct Po as [Sl Cc]. split; [|apply single_extra; exact Sl].
        destruct Cc as [[d ->]|[d ->]]; eauto.
      + intros n _. reflexivity.
  Qed.

  (** C66.  A protocol whose serializables are single chunks with distinct names:
      copying it succeeds exactly when its bit-fields can be loaded again. *)
  Theorem C66_copy_succeeds_iff :
    forall id bo ops p,
      Forall chunk_op ops -> NoDup (ser_names ops) -> run (pr_new id bo) ops = Some p ->
      ((exists c, copy p = Some c) <-> all_loadable word p).
  Proof.
    intros id bo ops p Po ND E. destruct (chunk_facts id bo ops p Po ND E) as (HP & HC & HL).
    exact (proj1 (copy_spec valid word int_of bool_of enums eprim p HP HC HL)).
  Qed.

  (** C66 (partial).  After a message that fills the protocol, the copy and the
      original are indistinguishable: the same bytes, size and values, and so
      after any further calls.  Missing: serializables that are protocols'
      arrays or repeated (array_length), for which it is false (below). *)
  Theorem C66_copy_reads_the_same_partial :
    forall id bo ops p c data,
      Forall chunk_op ops -> NoDup (ser_names ops) -> run (pr_new id bo) ops = Some p ->
      copy p = Some c -> fills native_le p data ->
      same_protocol valid int_of bool_of enums eprim native_le
        (received native_le p data) (received native_le c data).
  Proof.
    intros id bo ops p c data Po ND E Ec F. destruct (chunk_facts id bo ops p Po ND E) as (HP & HC & HL).
    exact (copy_received valid word int_of bool_of enums eprim native_le p c data HP HC HL Ec F).
  Qed.

  (** C66 (partial).  Before any message: the byte order is kept, bit-fields keep
      their values and regular fields are zero; with chunks of fixed length the
      size is kept too. *)
  Theorem C66_copy_values_partial :
    forall id bo ops p c,
      Forall chunk_op ops -> NoDup (ser_names ops) -> run (pr_new id bo) ops = Some p ->
      copy p = Some c ->
      q_order c = q_order p /\
      (Forall fixed_op ops -> pr_size c = pr_size p) /\
      (forall n, dget n (q_reg p) = None -> pr_value c n = pr_value p n) /\
      (forall n, dmem n (q_reg p) = true -> dmem n (q_enum p) = false ->
         pr_value c n = Some (VInt 0)).
  Proof.
    intros id bo ops p c Po ND E Ec. destruct (chunk_facts id bo ops p Po ND E) as (HP & HC & HL).
    destruct (copy_values valid word int_of bool_of enums eprim p c HP HC HL Ec) as [V1 V2].
    destruct (copy_spec valid word int_of bool_of enums eprim p HP HC HL) as [_ Sp].
    destruct (Sp c Ec) as (_ & rs & _ & R & _).
    split; [apply R|]. split; [|split; [|exact V2]].
    - intros Fo. apply (copy_size valid word int_of bool_of enums eprim p c HP HC HL); [|exact Ec].
      refine (run_fix valid int_of bool_of enums eprim native_le ops _ _ (new_PI enums id bo) _ Fo Po E).
      repeat constructor.
    - intros n Hn. unfold pr_value. rewrite (rl_reg _ _ _ _ _ _ _ R), Hn. apply V1. exact Hn.
  Qed.

  (** C66 (refuted for the identifier).  Every copy has identifier one. *)
  Theorem C66_identifier_refuted : forall p c, copy p = Some c -> q_id c = 1.
  Proof. intros p c. apply copy_id. Qed.

  (** C66 (refuted for copies of copies).  They have no regular fields, and no
      bytes if the protocol had no serializables. *)
  Theorem C66_second_copy_refuted :
    forall p c d, copy p = Some c -> copy c = Some d ->
      q_reg d = [] /\
      (forall id bo ops, Forall no_ser ops -> run (pr_new id bo) ops = Some p -> pr_size d = 0).
  Proof.
    intros p c d E1 E2. destruct (copy_copy valid word enums eprim p c d E1 E2) as [H1 H2].
    split; [exact H1|]. intros id bo ops No E. apply H2.
    eapply copy_build; [|exact E1].
    apply (run_no_ser valid int_of bool_of enums eprim native_le ops _ _ No E). constructor.
  Qed.
End Proto.
Print Assumptions C52_import_succeeds_iff.
Print Assumptions C52_import_values.
Print Assumptions C52_round_trip_partial.
Print Assumptions C52_size_exact.
Print Assumptions C52_serializables_refuted.
Print Assumptions C52_second_round_trip_refuted.
Print Assumptions C66_copy_succeeds_iff.
Print Assumptions C66_copy_reads_the_same_partial.
Print Assumptions C66_copy_values_partial.
Print Assumptions C66_identifier_refuted.
Print Assumptions C66_second_copy_refuted.

(** *** Concrete protocols *)
Definition ex_valid (_ : string) : bool := true.
Definition ex_enum : renum :=
  match e_new_int ex_valid [ByName "off" 1; ByName "on" 2] with Some e => e | None => EBool (mkNmap [] [] []) end.
Definition ex_enums (k : ekey) : option renum :=
  match k with inl n => if String.eqb n "modes" then Some ex_enum else None | inr _ => None end.
Definition ex_eprim (_ : ekey) : kind := U8.
Definition ex_int (_ : string) : option Z := None.
Definition ex_bool (_ : string) : option bool := None.
Notation ex_run := (pr_run ex_valid ex_int ex_bool ex_enums ex_eprim true).
Notation ex_import := (pr_import ex_valid ex_valid ex_int ex_bool ex_enums ex_eprim).
Notation ex_copy := (pr_copy ex_valid ex_valid ex_enums ex_eprim).

Lemma ex_enums_ok : enums_ok ex_enums.
Proof.
  intros [n|i] e H; cbn in H; [|discriminate]. destruct (String.eqb n "modes"); [|discriminate].
  injection H as <-. exists ex_valid. exists ex_enum, []. split; [left|reflexivity].
  exists [ByName "off" 1; ByName "on" 2]. reflexivity.
Qed.

(** A byte, eight bits of flags and fields (one an enumeration), an enumerated
    field and a double, with values. *)
Definition ex_plain : list pop :=
  [PField "count" (Some U16) None None;
   PBits U8 [OFlag "go" None None true None; OField "mode" 3 None (Some (inl "modes")) false None];
   PField "state" None (Some (inl "modes")) None;
   PField "level" (Some Double) None None;
   PSet "count" (VInt 513); PSet "mode" (VStr "on"); PSet "state" (VStr "off"); PSet "go" (VBool true)].

Example ex_plain_hyps : Forall plain_op ex_plain /\ NoDup (field_names ex_plain).
Proof.
  split.
  - repeat (apply Forall_cons || apply Forall_nil); cbn; try exact I. split; [exists 8; constructor|].
    repeat constructor; cbn; lia.
  - cbn. repeat constructor; cbn; intuition discriminate.
Qed.

(** It exports, its export imports, its bits are clean, and one frame later both
    show the same. *)
Example ex_round_trip :
  exists p j q, ex_run (pr_new 7 Network) ex_plain = Some p /\ pr_export p true = Some j /\
    ex_import j = Some q /\ all_loadable ex_valid p /\ all_clean p /\
    q_id q = 7 /\ pr_size q = 12 /\ pr_value q "mode" = Some (VStr "on") /\
    pr_value q "count" = Some (VInt 513) /\
    pr_bytes true q = pr_bytes true p.
Proof.
  destruct (ex_run (pr_new 7 Network) ex_plain) as [p|] eqn:E; [|vm_compute in E; discriminate].
  destruct (pr_export p true) as [j|] eqn:Ej;
    [|vm_compute in E; injection E as <-; vm_compute in Ej; discriminate].
  destruct (ex_import j) as [q|] eqn:Eq;
    [|vm_compute in E; injection E as <-; vm_compute in Ej; injection Ej as <-; vm_compute in Eq; discriminate].
  exists p, j, q. split; [reflexivity|]. split; [exact Ej|]. split; [exact Eq|].
  split; [apply (proj1 (C52_import_succeeds_iff ex_valid ex_valid ex_int ex_bool ex_enums ex_eprim true
    7 Network ex_plain p true j ex_enums_ok (proj1 ex_plain_hyps) (proj2 ex_plain_hyps) E Ej)); eauto|].
  split.
  - intros b i Hb Hi Hbit. vm_compute in E. injection E as <-. cbn [q_bits] in Hb. destruct Hb as [<-|[]].
    revert Hbit. unfold cur_regs. cbn. unfold bit. intros Hbit.
    assert (i < 4). { destruct (Z.lt_ge_cases i 4); [assumption|]. exfalso.
      rewrite Z.bits_above_log2 in Hbit; [discriminate|lia|cbn; lia]. }
    assert (X : i = 0 \/ i = 1 \/ i = 2 \/ i = 3) by lia.
    destruct X as [X|[X|[X|X]]]; subst i; cbn in Hbit; try discriminate; unfold in_field; cbn; eauto.
    + eexists; eexists; split; [left; reflexivity|]; unfold covers; cbn; lia.
    + eexists; eexists; split; [right; left; reflexivity|]; unfold covers; cbn; lia.
  - vm_compute in E. injection E as <-. vm_compute in Ej. injection Ej as <-. vm_compute in Eq. injection Eq as <-.
    vm_compute. repeat split; reflexivity.
Qed.

(** C52 (refuted where a bit outside the named fields is set): the received byte
    has such a bit, the imported protocol does not send it. *)
Definition ex_unnamed : list pop :=
  [PBits U8 [OFlag "go" None None true None]; PRecv [129]].
Theorem C52_unnamed_bits_refuted :
  exists p j q, ex_run (pr_new 1 Network) ex_unnamed = Some p /\ pr_export p true = Some j /\
    ex_import j = Some q /\ Forall plain_op ex_unnamed /\ ~ all_clean p /\
    pr_bytes true p = Some [129] /\ pr_bytes true q = Some [1].
Proof.
  eexists; eexists; eexists. split; [vm_compute; reflexivity|]. split; [vm_compute; reflexivity|].
  split; [vm_compute; reflexivity|]. split.
  { repeat (apply Forall_cons || apply Forall_nil); cbn; try exact I. split; [exists 8; constructor|].
    repeat constructor; cbn; lia. }
  split; [|split; vm_compute; reflexivity].
  intros H. destruct (H _ 7 (or_introl eq_refl) ltac:(lia)) as (i & f & Hf & Hc); [vm_compute; reflexivity|].
  cbn in Hf. destruct Hf as [X|[]]. injection X as <- <-. unfold covers in Hc. cbn in Hc. lia.
Qed.
Print Assumptions C52_unnamed_bits_refuted.

(** C52 (refuted where an enumerated field holds a value without a name): the
    protocol cannot be exported. *)
Theorem C52_unnamed_value_refuted :
  exists p, ex_run (pr_new 1 Network) [PField "state" None (Some (inl "modes")) None] = Some p /\
    pr_size p = 1 /\ pr_export p true = None /\ pr_export p false = None.
Proof. eexists. split; [vm_compute; reflexivity|]. vm_compute. auto. Qed.
Print Assumptions C52_unnamed_value_refuted.

(** C52: three elements become one. *)
Example ex_array :
  exists p j q, ex_run (pr_new 1 Network) [PField "x" (Some U16) None (Some 3); PField "y" (Some U8) None None] = Some p /\
    pr_export p true = Some j /\ ex_import j = Some q /\ pr_size p = 7 /\ pr_size q = 3.
Proof.
  eexists; eexists; eexists. split; [vm_compute; reflexivity|]. split; [vm_compute; reflexivity|].
  split; [vm_compute; reflexivity|]. vm_compute. auto.
Qed.

(** C52: a second round trip; with a regular field it raises. *)
Example ex_second :
  exists p j q j' q', ex_run (pr_new 7 Network) [PBits U8 [OFlag "go" None None true None]] = Some p /\
    pr_export p true = Some j /\ ex_import j = Some q /\ pr_export q true = Some j' /\
    ex_import j' = Some q' /\ pr_size q = 1 /\ pr_size q' = 0.
Proof.
  eexists; eexists; eexists; eexists; eexists. split; [vm_compute; reflexivity|].
  split; [vm_compute; reflexivity|]. split; [vm_compute; reflexivity|]. split; [vm_compute; reflexivity|].
  split; [vm_compute; reflexivity|]. vm_compute. auto.
Qed.
Example ex_second_regular :
  exists p j q j', ex_run (pr_new 7 Network) ex_plain = Some p /\ pr_export p true = Some j /\
    ex_import j = Some q /\ pr_export q true = Some j' /\ ex_import j' = None.
Proof.
  eexists; eexists; eexists; eexists. split; [vm_compute; reflexivity|].
  split; [vm_compute; reflexivity|]. split; [vm_compute; reflexivity|]. split; [vm_compute; reflexivity|]. vm_compute. reflexivity.
Qed.
Example ex_second_copy :
  exists p c d, ex_run (pr_new 7 Network) ex_plain = Some p /\ ex_copy p = Some c /\ ex_copy c = Some d /\
    q_id c = 1 /\ pr_size c = 12 /\ pr_size d = 0.
Proof.
  eexists; eexists; eexists. split; [vm_compute; reflexivity|]. split; [vm_compute; reflexivity|].
  split; vm_compute; auto.
Qed.
Example ex_ser_import :
  exists p j, ex_run (pr_new 7 Network) [PSer "raw" [NFix [0; 0]] None] = Some p /\
    pr_export p true = Some j /\ ex_import j = None.
Proof. eexists; eexists. split; [vm_compute; reflexivity|]. split; [vm_compute; reflexivity|]. vm_compute. reflexivity. Qed.

(** C66: a header, a text chunk with a length prefix, an array field and flags;
    one frame later the original and the copy hold the same. *)
Definition ex_chunks : list pop :=
  [PField "kind" (Some U8) None None;
   PSer "text" [NPre (mkPc U8 0 [] Network 1)] None;
   PField "x" (Some U16) None (Some 2);
   PSer "raw" [NFix [0; 0]] None;
   PBits U8 [OFlag "go" None None true None; OField "n" 4 None None false None];
   PSet "n" (VInt 9); PSet "kind" (VInt 4)].
Definition ex_frame : list Z := [3; 2; 104; 105; 1; 2; 3; 4; 8; 9; 19].
Example ex_copy_same :
  exists p c, ex_run (pr_new 7 BigEndian) ex_chunks = Some p /\ ex_copy p = Some c /\
    Forall chunk_op ex_chunks /\ NoDup (ser_names ex_chunks) /\ fills true p ex_frame /\
    pr_value c "kind" = Some (VInt 0) /\ pr_value c "n" = Some (VInt 9) /\
    pr_bytes true (received true c ex_frame) = Some ex_frame /\
    pr_bytes true (received true p ex_frame) = Some ex_frame.
Proof.
  eexists; eexists. split; [vm_compute; reflexivity|]. split; [vm_compute; reflexivity|].
  split; [|split; [|split]].
  - repeat (apply Forall_cons || apply Forall_nil); cbn; try exact I; eauto. split; [exists 8; constructor|].
    repeat constructor; cbn; lia.
  - cbn. repeat constructor; cbn; intuition discriminate.
  - exists []. eexists. vm_compute. reflexivity.
  - vm_compute. auto.
Qed.

(** C66 (refuted for nested arrays): a field added after a nested array becomes
    part of that array and appears twice in the copy. *)
Definition ex_nested : list pop :=
  [PField "a" (Some U8) None None;
   PSer "inner" [NArr (a_add (a_empty Network) (mkPrim U16 0) None)] None;
   PField "b" (Some U8) None None].
Theorem C66_nested_arrays_refuted :
  exists p c, ex_run (pr_new 1 Network) ex_nested = Some p /\ ex_copy p = Some c /\
    all_loadable ex_valid p /\ pr_size p = 4 /\ pr_size c = 5.
Proof.
  eexists; eexists. split; [vm_compute; reflexivity|]. split; [vm_compute; reflexivity|].
  split; [intros b []|]. vm_compute. auto.
Qed.
Print Assumptions C66_nested_arrays_refuted.

(** C66 (refuted for repeated serializables): the copy has one of them. *)
Theorem C66_repeated_refuted :
  exists p c, ex_run (pr_new 1 Network) [PSer "raw" [NFix [0; 0]] (Some 3)] = Some p /\
    ex_copy p = Some c /\ pr_size p = 6 /\ pr_size c = 2.
Proof.
  eexists; eexists. split; [vm_compute; reflexivity|]. split; [vm_compute; reflexivity|]. vm_compute. auto.
Qed.
Print Assumptions C66_repeated_refuted.
