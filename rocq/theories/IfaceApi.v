(** Further parts of C36, C37, C54 and C55: which identifiers are drawn, when a
    request or a message is refused, which log entries are accepted, and how
    metadata is exchanged. *)
From Coq Require Import QArith.
From Verif Require Import Base BaseLemmas IfaceModel IfaceSpec IfaceProofs IfaceProps.
From Coq Require Import ZifyBool ZifyNat Lia.
Open Scope string_scope.
Open Scope list_scope.
Open Scope Z_scope.

(** How many of the first draws were from the given source. *)
Definition drawn (b : bool) (l : list bool) : Z :=
  zlen (filter (Bool.eqb b) l).

(** C36.  The plain source draws 1, 3, 5, ... and the offset one 2, 4, 6, ...,
    whatever the order in which the two are used. *)
Theorem C36_identifier_values :
  forall before b after,
    nth_error (draws id_new (id_offset id_new) (before ++ b :: after)) (List.length before) =
    Some ((if b then 1 else 2) + 2 * drawn b before).
Proof.
  assert (G : forall before b after x y,
    nth_error (draws (mkIdent x 2) (mkIdent y 2) (before ++ b :: after)) (List.length before) =
    Some ((if b then x else y) + 2 * drawn b before)).
  { unfold drawn. induction before as [|c before IH]; intros b after x y.
    - cbn. destruct b; cbn; f_equal; lia.
    - cbn [app List.length]. destruct c; cbn [draws id_next id_cur id_scale nth_error]; rewrite IH; f_equal;
        destruct b; cbn [filter Bool.eqb]; rewrite ?zlen_cons; lia. }
  intros before b after. apply G.
Qed.
Print Assumptions C36_identifier_values.

Example identifier_values_case :
  draws id_new (id_offset id_new) [true; false; false; true] = [1; 2; 4; 3] /\ drawn true [true; false; false] = 1.
Proof. split; reflexivity. Qed.

Section Calls.
  Context (S : Type) (ev : string -> option (target S)).

  (** C37.  In every history a request is accepted exactly when the caller left
      the identifier key alone, the reserved log key is free or no log entries
      are staged, and the write succeeds; a refused one sends nothing. *)
  Theorem C37_request_accepted_iff :
    forall i s0 s st ops d fail,
      two_scaled i -> run ev (s0, i_new i) ops = (s, st) ->
      let '(_, out, ok) := step ev (s, st) (OWait d fail) in
      (ok = true <-> dget k_id d = None /\ (i_logs st = [] \/ dget k_log d = None) /\ fail = false) /\
      (ok = false -> out = []) /\ (ok = true -> exists m, out = [m]).
  Proof.
    intros i s0 s st ops d fail Ti Ho. pose proof (reach_inv ev i s0 ops Ti) as I. rewrite Ho in I. cbn [snd] in I.
    cbn [step]. unfold wait_json. unfold dmem at 1. destruct (dget k_id d) as [j|] eqn:Ed.
    { split; [|split; [auto|discriminate]]. split; [discriminate|]. intros [X _]. discriminate. }
    cbn [id_next]. cbv zeta. cbn [i_waiting i_reqs i_resp i_logs i_seen i_ident].
    unfold dmem at 1. destruct (dget (id_cur (i_ident st)) (i_waiting st)) as [r|] eqn:Ew.
    { exfalso. destruct (n_w _ I _ _ Ew) as (q & Hq & Eq & _). apply nth_error_In in Hq.
      pose proof (n_lt _ I q Hq). lia. }
    unfold send_json. cbn [i_logs]. destruct (i_logs st) as [|l0 ls].
    - destruct fail; cbn; (split; [|split; [intros X; first [reflexivity|discriminate X]|try discriminate]]).
      + split; [discriminate|]. intros (_ & _ & X). discriminate.
      + split; auto.
      + eauto.
    - unfold dmem. rewrite dget_dset_ne by discriminate. destruct (dget k_log d) as [j|].
      + split; [|split; [auto|discriminate]]. split; [discriminate|].
        intros (_ & [X|X] & _); discriminate.
      + destruct fail; cbn; (split; [|split; [intros X; first [reflexivity|discriminate X]|try discriminate]]).
        * split; [discriminate|]. intros (_ & _ & X). discriminate.
        * split; auto.
        * eauto.
  Qed.

  (** C54.  A message is sent exactly when the reserved log key is free or no
      log entries are staged, and the write succeeds. *)
  Theorem C54_send_accepted_iff :
    forall s st d fail,
      let '(_, out, ok) := step ev (s, st) (OSend d fail) in
      (ok = true <-> (i_logs st = [] \/ dget k_log d = None) /\ fail = false) /\
      (ok = false -> out = []) /\
      (ok = true -> exists m, out = [m] /\ (forall k, k <> k_log -> dget k m = dget k d) /\
         dget k_log m = match i_logs st with [] => dget k_log d | l => Some (JArr l) end).
  Proof.
    intros s st d fail. cbn [step]. unfold send_json. destruct (i_logs st) as [|l0 ls].
    - destruct fail; cbn; (split; [|split; [intros X; first [reflexivity|discriminate X]|try discriminate]]).
      + split; [discriminate|]. intros (_ & X). discriminate.
      + split; auto.
      + intros _. exists d. auto.
    - unfold dmem. destruct (dget k_log d) as [j|].
      + split; [|split; [auto|discriminate]]. split; [discriminate|]. intros ([X|X] & _); discriminate.
      + destruct fail; cbn [snd fst]; (split; [|split; [intros X; first [reflexivity|discriminate X]|try discriminate]]).
        * split; [discriminate|]. intros (_ & X). discriminate.
        * split; auto.
        * intros _. eexists. split; [reflexivity|]. split.
          -- intros k Hk. apply dget_dset_ne. exact Hk.
          -- apply dget_dset_eq.
  Qed.

  (** The log entries the receiving side accepts: objects whose message is a
      string, whose level is an integer and whose arguments are an array, where
      each may be absent. *)
  Definition loggable_entry (j : json) : Prop :=
    exists o, j = JObj o /\
      (forall v, dget "msg" o = Some v -> exists t, v = JStr t) /\
      (forall v, dget "level" o = Some v -> exists z, v = JInt z) /\
      (forall v, dget "args" o = Some v -> exists l, v = JArr l).
  Definition loggable (j : json) : Prop := exists l, j = JArr l /\ Forall loggable_entry l.

  Lemma log_ok_iff j : log_ok j = true <-> loggable_entry j.
  Proof.
    unfold log_ok, loggable_entry. split.
    - destruct j as [| | | | |l|o]; try discriminate. intros H. exists o. split; [reflexivity|].
      apply andb_prop in H as [H H3]. apply andb_prop in H as [H1 H2].
      split; [|split]; intros v E; rewrite E in *; destruct v; try discriminate; eauto.
    - intros (o & -> & H1 & H2 & H3).
      destruct (dget "msg" o) as [v|]; [destruct (H1 v eq_refl) as [? ->]|];
        (destruct (dget "level" o) as [w|]; [destruct (H2 w eq_refl) as [? ->]|]);
        (destruct (dget "args" o) as [u|]; [destruct (H3 u eq_refl) as [? ->]|]); reflexivity.
  Qed.
  Lemma logs_of_iff j : (exists l, logs_of j = Some l) <-> loggable j.
  Proof.
    unfold logs_of, loggable. split.
    - intros [l H]. destruct j as [| | | | |l'|]; try discriminate.
      destruct (forallb log_ok l') eqn:F; [|discriminate]. exists l'. split; [reflexivity|].
      apply Forall_forall. intros x Hx. rewrite forallb_forall in F. apply log_ok_iff. auto.
    - intros (l & -> & F). exists l. replace (forallb log_ok l) with true; [reflexivity|].
      symmetry. apply forallb_forall. intros x Hx. apply log_ok_iff. rewrite Forall_forall in F. auto.
  Qed.

  (** C54.  A message whose log entries are not all acceptable raises: none of
      them reaches the logger and nothing is answered. *)
  Theorem C54_unacceptable_logs_refused :
    forall s st d j,
      dget k_log d = Some j -> ~ loggable j ->
      let '(x', out, ok) := step ev (s, st) (ORecv d) in
      ok = false /\ out = [] /\ i_seen (snd x') = i_seen st.
  Proof.
    intros s st d j Ej N. assert (L : logs_of j = None).
    { destruct (logs_of j) as [l|] eqn:E; [|reflexivity]. destruct N. apply logs_of_iff. eauto. }
    cbn [step]. unfold process_json. destruct (collect ev d) as [[ts ig]|]; [|cbn; auto].
    destruct (gather s ts) as [s' [subs|]]; [|cbn; auto].
    unfold handle_reserved.
    assert (Ld : dget k_log (ddel k_id d) = Some j) by (rewrite dget_ddel_ne; [exact Ej|discriminate]).
    destruct (dget k_id d) as [ji|].
    - destruct (ident_of ji) as [[z|]|].
      + destruct (dget z (i_waiting st)) as [r|].
        * cbn beta iota zeta. rewrite Ld, L. cbn. split; [reflexivity|]. split; [reflexivity|].
          unfold set_event, set_status. cbn [i_reqs]. destruct (nth_error (i_reqs st) r) as [[qi []]|] eqn:Q; cbn; rewrite ?Q; reflexivity.
        * cbn beta iota zeta. rewrite Ej, L. cbn. auto.
      + cbn beta iota zeta. rewrite Ej, L. cbn. auto.
      + cbn. auto.
    - cbn beta iota zeta. rewrite Ej, L. cbn. auto.
  Qed.

  (** C54.  A message that holds nothing but acceptable log entries is handled:
      the entries reach the logger in order and nothing is answered. *)
  Theorem C54_acceptable_logs_accepted :
    forall s st l, ev k_log = None -> Forall loggable_entry l ->
      let '(x', out, ok) := step ev (s, st) (ORecv [(k_log, JArr l)]) in
      ok = true /\ out = [] /\ fst x' = s /\ i_seen (snd x') = i_seen st ++ l.
  Proof.
    intros s st l E F. assert (L : logs_of (JArr l) = Some l).
    { unfold logs_of. replace (forallb log_ok l) with true; [reflexivity|].
      symmetry. apply forallb_forall. intros x Hx. apply log_ok_iff. rewrite Forall_forall in F. auto. }
    cbn [step]. unfold process_json. cbn [collect]. rewrite E. change (reserved k_log) with true.
    cbv iota. cbn [gather]. unfold handle_reserved.
    change (dget k_id [(k_log, JArr l)]) with (@None json). cbn beta iota zeta.
    change (dget k_log [(k_log, JArr l)]) with (Some (JArr l)). cbv iota. rewrite L. cbn. auto.
  Qed.
End Calls.
Print Assumptions C37_request_accepted_iff.
Print Assumptions C54_send_accepted_iff.
Print Assumptions C54_unacceptable_logs_refused.
Print Assumptions C54_acceptable_logs_accepted.

Example logs_cases :
  loggable_entry (JObj [("msg", JStr "x"); ("args", JArr [])]) /\
  ~ loggable (JArr [JObj [("msg", JStr "x"); ("level", JStr "high")]]) /\
  std_eval [] k_log = None /\
  let '(_, out, ok) := step (std_eval []) (None, i_new id_new)
                         (ORecv [(k_log, JArr [JObj [("args", JInt 3)]])]) in
  ok = false /\ out = [].
Proof.
  split; [|split; [|split; [reflexivity|vm_compute; auto]]].
  - eexists. split; [reflexivity|]. split; [|split]; intros v [= <-]; eauto.
  - intros H. apply logs_of_iff in H as [l H]. discriminate H.
Qed.

(** ** Metadata *)

(** C55.  The first metadata message of the peer is kept and answered with our
    own exactly when it names the package, version, kind and handlers; without
    one of them handling it raises, but it counts as received.  Every later one
    is ignored. *)
Theorem C55_metadata :
  forall meta s st ib,
    i_logs st = [] -> meta <> [] ->
    let complete := dget "package" ib <> None /\ dget "version" ib <> None /\
                    dget "kind" ib <> None /\ dget "handlers" ib <> None in
    let '(x', out, ok) := step (std_eval meta) (s, st) (ORecv [("meta", JObj ib)]) in
    (s = None -> fst x' = Some ib /\ (ok = true <-> complete) /\
       (complete -> out = [[("meta", JObj meta)]]) /\ (~ complete -> out = [])) /\
    (s <> None -> fst x' = s /\ ok = true /\ out = []) /\ snd x' = st.
Proof.
  intros meta s st ib Hl Hm. cbn [step]. unfold process_json.
  change (collect (std_eval meta) [("meta", JObj ib)]) with
    (Some ([("meta", Some (h_meta meta, ib))], @nil string)). cbv iota.
  cbn [gather]. unfold h_meta at 1. cbn [t_run].
  destruct s as [m|].
  - cbn. split; [discriminate|]. split; auto.
  - assert (B : dmem "package" ib && dmem "version" ib && dmem "kind" ib && dmem "handlers" ib = true <->
      dget "package" ib <> None /\ dget "version" ib <> None /\ dget "kind" ib <> None /\ dget "handlers" ib <> None).
    { unfold dmem. destruct (dget "package" ib), (dget "version" ib), (dget "kind" ib), (dget "handlers" ib);
        cbn; intuition congruence. }
    destruct (dmem "package" ib && _ && _ && _) eqn:E.
    + assert (H : handle_reserved st [("meta", JObj ib)] (answer [("meta", meta)] []) =
                  (st, Some ([("meta", JObj meta)], true))).
      { unfold handle_reserved. cbn. destruct meta; [congruence|]. reflexivity. }
      cbn beta iota zeta. unfold msg in *. rewrite H. unfold send_json. rewrite Hl. cbn [fst snd]. split; [|split; [congruence|reflexivity]].
      intros _. split; [reflexivity|]. destruct B as [B _]. specialize (B eq_refl).
      split; [tauto|]. split; [reflexivity|tauto].
    + cbn [fst snd]. split; [|split; [congruence|reflexivity]]. intros _. split; [reflexivity|].
      rewrite <- B. split; [split; discriminate|]. split; [discriminate|reflexivity].
Qed.
Print Assumptions C55_metadata.

Example metadata_case :
  let ib := [("package", JStr "p"); ("version", JStr "1"); ("kind", JStr "k"); ("handlers", JArr [])] in
  step (std_eval ib) (None, i_new id_new) (ORecv [("meta", JObj ib)]) =
    ((Some ib, i_new id_new), [[("meta", JObj ib)]], true) /\
  step (std_eval ib) (None, i_new id_new) (ORecv [("meta", JObj (tl ib))]) =
    ((Some (tl ib), i_new id_new), [], false).
Proof. vm_compute. split; reflexivity. Qed.
