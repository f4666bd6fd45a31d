(** Properties C01-C05: names, identifiers and registered objects. *)
From Verif Require Import Base BaseLemmas RegistryModel RegistrySpec RegistryProofs.

(** C01.  In every registry a user can have, [identifier] and [name] are
    inverse partial functions. *)
Theorem C01_registry_bijection :
  forall (valid : string -> bool) (r : nreg),
    r_reachable valid r ->
    forall (n : string) (i : Z),
      m_identifier (r_map r) n = Some i <-> m_name (r_map r) i = Some n.
Proof. exact registry_bijection. Qed.
Print Assumptions C01_registry_bijection.

(** C02.  Whatever happens later, a known association stays, and asking for
    the name again returns the same identifier. *)
Theorem C02_registrations_permanent :
  forall (valid : string -> bool) (r : nreg) (later : list rop),
    r_reachable valid r ->
    Forall2 load_ok later (snd (r_run valid r later)) ->
    let r' := fst (r_run valid r later) in
    (forall n i, m_identifier (r_map r) n = Some i ->
       m_identifier (r_map r') n = Some i /\ m_name (r_map r') i = Some n) /\
    (forall n i, m_identifier (r_map r) n = Some i ->
       snd (r_register valid r' n None) = Ret (Some i)).
Proof. exact registry_permanent. Qed.
Print Assumptions C02_registrations_permanent.

(** C02, the call itself: a known name never changes the registry; it returns
    its identifier, or raises when a different one is demanded. *)
Theorem C02_known_name :
  forall (valid : string -> bool) (r : nreg) name i ident,
    m_identifier (r_map r) name = Some i ->
    r_register valid r name ident =
      (r, match ident with
          | None => Ret (Some i)
          | Some j => if i =? j then Ret (Some i) else Raise
          end).
Proof. exact registry_known. Qed.
Print Assumptions C02_known_name.

(** C03.  Automatic registration of a fresh valid name always succeeds, with
    an identifier nothing used before, and changes nothing else. *)
Theorem C03_auto_identifier_fresh :
  forall (valid : string -> bool) (r : nreg) name,
    r_reachable valid r ->
    valid name = true -> m_identifier (r_map r) name = None ->
    exists i r',
      r_register valid r name None = (r', Ret (Some i)) /\
      m_name (r_map r) i = None /\
      m_name (r_map r') i = Some name /\
      m_identifier (r_map r') name = Some i /\
      (forall n, n <> name -> m_identifier (r_map r') n = m_identifier (r_map r) n) /\
      (forall j, j <> i -> m_name (r_map r') j = m_name (r_map r) j).
Proof. exact registry_auto_fresh. Qed.
Print Assumptions C03_auto_identifier_fresh.

(** C03.  Explicit identifiers: refused without effect when the name is
    invalid or the identifier is taken, otherwise honoured. *)
Theorem C03_explicit_identifier :
  forall (valid : string -> bool) (r : nreg) name i,
    r_reachable valid r -> m_identifier (r_map r) name = None ->
    (valid name = false -> r_register valid r name (Some i) = (r, Ret None)) /\
    (forall n, m_name (r_map r) i = Some n ->
       r_register valid r name (Some i) = (r, Ret None)) /\
    (valid name = true -> m_name (r_map r) i = None ->
       exists r', r_register valid r name (Some i) = (r', Ret (Some i)) /\
         m_identifier (r_map r') name = Some i /\ m_name (r_map r') i = Some name /\
         (forall n, n <> name -> m_identifier (r_map r') n = m_identifier (r_map r) n) /\
         (forall j, j <> i -> m_name (r_map r') j = m_name (r_map r) j)).
Proof. exact registry_explicit. Qed.
Print Assumptions C03_explicit_identifier.

(** A registry with loaded, explicit and automatic identifiers, a refused and
    a raising call in its history: the hypotheses above are met. *)
Definition demo_valid (s : string) : bool := negb (String.eqb s "bad name").
Definition demo_ops : list rop :=
  [ RegisterName "b" (Some 7); RegisterName "c" None; RegisterName "b" (Some 8);
    RegisterName "bad name" None; RegisterName "d" (Some 7);
    LoadKeys [(9, "e"); (10, "f")]%string; RegisterName "g" None ].
Definition demo_reg : nreg :=
  match r_new demo_valid [(5, "a"%string)] [] with
  | Some r0 => fst (r_run demo_valid r0 demo_ops)
  | None => mkNreg m_empty 1
  end.
Example demo_reachable : r_reachable demo_valid demo_reg.
Proof.
  exists [(5, "a"%string)], [].
  eexists. exists demo_ops. split; [reflexivity|split; [|reflexivity]].
  vm_compute. repeat constructor; discriminate.
Qed.
Example demo_contents :
  m_rev (r_map demo_reg) =
    [("a", 5); ("b", 7); ("c", 6); ("e", 9); ("f", 10); ("g", 8)]%string.
Proof. vm_compute. reflexivity. Qed.
Example demo_fresh_hyp :
  demo_valid "h" = true /\ m_identifier (r_map demo_reg) "h" = None.
Proof. vm_compute. auto. Qed.

(** ** Registration order *)
Section Order.
  Context (valid : string -> bool).
  Definition in_order {K} `{EqDec K} (m : nmap K) : Prop := m_order m = m_names m /\ NoDup (m_order m).
  Definition appended {K} `{EqDec K} (m m' : nmap K) : Prop := exists l, m_order m' = m_order m ++ l.

  Lemma m_set_order {K} `{EqDec K} (m : nmap K) k n :
    in_order m -> in_order (fst (m_set valid m k n)) /\ appended m (fst (m_set valid m k n)).
  Proof.
    intros [O N]. unfold m_set. destruct (negb (valid n)).
    { split; [split; assumption|exists []; symmetry; apply app_nil_r]. }
    destruct (match dget k (m_fwd m) with Some _ => _ | None => _ end) as [f|].
    2: { split; [split; assumption|exists []; symmetry; apply app_nil_r]. }
    destruct (dget n (m_rev m)) as [c|] eqn:E.
    - destruct (eq_dec c k); (split; [split; assumption|exists []; symmetry; apply app_nil_r]).
    - cbn. split; [|exists [n]; reflexivity]. unfold in_order, m_names. cbn.
      rewrite dset_notin by exact E. unfold dkeys. rewrite map_app. cbn. unfold m_names in O. rewrite O. fold (dkeys (m_rev m)).
      split; [reflexivity|]. rewrite O in N. apply dget_None_notin in E.
      apply NoDup_rev in N. rewrite <- (rev_involutive (_ ++ _)). apply NoDup_rev.
      rewrite rev_app_distr. cbn. constructor; [rewrite <- in_rev; exact E|exact N].
  Qed.

  Lemma m_load_order {K} `{EqDec K} l : forall (m : nmap K),
    in_order m -> in_order (fst (m_load valid m l)) /\ appended m (fst (m_load valid m l)).
  Proof.
    induction l as [|[k n] l IH]; intros m O; cbn.
    - split; [exact O|exists []; symmetry; apply app_nil_r].
    - destruct (m_set_order m k n O) as [O1 A1]. destruct (m_set valid m k n) as [m1 [|]]; cbn in *; [|auto].
      destruct (IH m1 O1) as [O2 [l2 A2]]. destruct A1 as [l1 A1]. split; [exact O2|].
      exists (l1 ++ l2). rewrite A2, A1, app_assoc. reflexivity.
  Qed.

  Lemma r_step_order r o :
    in_order (r_map r) -> in_order (r_map (fst (r_step valid r o))) /\
      appended (r_map r) (r_map (fst (r_step valid r o))).
  Proof.
    intros O. assert (S : in_order (r_map r) /\ appended (r_map r) (r_map r))
      by (split; [exact O|exists []; symmetry; apply app_nil_r]).
    destruct o as [n i|kvs|nks]; cbn.
    - unfold r_register. destruct (m_identifier (r_map r) n) as [c|].
      { destruct i as [i|]; [destruct (c =? i)|]; exact S. }
      destruct (negb (valid n)); [exact S|].
      destruct (match i with Some _ => _ | None => _ end) as [[cur i']|]; [|exact S].
      destruct (dmem i' (m_fwd (r_map r))); [exact S|].
      pose proof (m_set_order (r_map r) i' n O) as Q.
      destruct (m_set valid (r_map r) i' n) as [m' [|]]; exact Q.
    - pose proof (m_load_order kvs (r_map r) O) as Q.
      destruct (m_load valid (r_map r) kvs) as [m' [|]]; exact Q.
    - pose proof (m_load_order (map (fun nk => (snd nk, fst nk)) nks) (r_map r) O) as Q.
      unfold m_load_rev. destruct (m_load valid (r_map r) _) as [m' [|]]; exact Q.
  Qed.
End Order.

(** C01 (order).  Whatever the history (loads that raise included), the
    registration order lists every registered name exactly once, in the order
    of its dictionary, and later calls only append to it. *)
Theorem C01_registration_order :
  forall valid mp rv r0 ops ops',
    r_new valid mp rv = Some r0 ->
    let r := fst (r_run valid r0 ops) in
    m_order (r_map r) = m_names (r_map r) /\ NoDup (m_order (r_map r)) /\
    exists l, m_order (r_map (fst (r_run valid r ops'))) = m_order (r_map r) ++ l.
Proof.
  intros valid mp rv r0 ops ops' H.
  assert (G : forall l r, in_order (r_map r) ->
            in_order (r_map (fst (r_run valid r l))) /\ appended (r_map r) (r_map (fst (r_run valid r l)))).
  { induction l as [|o l IH]; intros r O; cbn.
    - split; [exact O|exists []; symmetry; apply app_nil_r].
    - destruct (r_step_order valid r o O) as [O1 [l1 A1]].
      destruct (r_step valid r o) as [r1 out]. cbn in O1, A1.
      destruct (IH r1 O1) as [O2 [l2 A2]]. destruct (r_run valid r1 l) as [r2 outs]. cbn in *.
      split; [exact O2|]. exists (l1 ++ l2). rewrite A2, A1, app_assoc. reflexivity. }
  assert (I : in_order (r_map r0)).
  { unfold r_new, m_new in H. destruct (m_load valid m_empty mp) as [m1 [|]] eqn:E1; [|discriminate].
    destruct (m_load_rev valid m1 rv) as [m2 [|]] eqn:E2; [|discriminate]. injection H as <-. cbn.
    assert (O0 : in_order (@m_empty Z)) by (split; [reflexivity|constructor]).
    pose proof (m_load_order valid mp m_empty O0) as [O1 _]. rewrite E1 in O1. cbn in O1.
    unfold m_load_rev in E2. pose proof (m_load_order valid (map (fun nk => (snd nk, fst nk)) rv) m1 O1) as [O2 _]. rewrite E2 in O2. exact O2. }
  destruct (G ops r0 I) as [[A B] _]. split; [exact A|]. split; [exact B|].
  destruct (G ops' (fst (r_run valid r0 ops)) (conj A B)) as [_ C]. exact C.
Qed.
Print Assumptions C01_registration_order.

(** C04.  Loading a conflicting association is NOT atomic: the raise leaves a
    one-sided entry behind, after which the two directions disagree. *)
Theorem C04_conflicting_load_atomic_refuted :
  exists (r r' : nreg),
    r_reachable demo_valid r /\
    r_step demo_valid r (LoadKeys [(2, "a"%string)]) = (r', Raise) /\
    m_name (r_map r) 2 = None /\
    m_name (r_map r') 2 = Some "a"%string /\
    m_identifier (r_map r') "a" = Some 1.
Proof.
  exists (mkNreg (mkNmap [(1, "a")] [("a", 1)] ["a"])%string 2).
  eexists. split; [|vm_compute; auto].
  exists [(1, "a"%string)], []. eexists. exists [].
  split; [reflexivity|split; [constructor|reflexivity]].
Qed.
Print Assumptions C04_conflicting_load_atomic_refuted.

(** C04, what does hold: one association is loaded atomically except exactly
    when the key is new and the (valid) name already has another key. *)
Theorem C04_conflicting_load_partial :
  forall (valid : string -> bool) (m : nmap Z) k n m',
    m_set valid m k n = (m', false) ->
    (m' <> m <->
     valid n = true /\ m_name m k = None /\
     exists k', m_identifier m n = Some k' /\ k' <> k).
Proof. exact (m_set_fail_changed (K := Z)). Qed.
Print Assumptions C04_conflicting_load_partial.
Example C04_both_cases_occur :
  let m := mkNmap [(1, "a")] [("a", 1)] ["a"]%string in
  (exists m', m_set demo_valid m 1 "b" = (m', false) /\ m' = m) /\
  (exists m', m_set demo_valid m 2 "a" = (m', false) /\ m' <> m).
Proof.
  split; eexists; (split; [reflexivity|]); [reflexivity|discriminate].
Qed.

(** C05.  Lookups by name and by identifier agree, and nothing shares an
    identifier. *)
Theorem C05_registry_lookups_agree :
  forall (valid : string -> bool) (D P : Type) (construct : D -> option P)
         (g : registry P),
    g_reachable valid construct g ->
    (forall n it, g_get_name g n = Some it -> g_get_id g (i_id it) = Some it) /\
    (forall i it, g_get_id g i = Some it ->
       i_id it = i /\ exists n, g_get_name g n = Some it) /\
    (forall n1 n2 it1 it2, g_get_name g n1 = Some it1 -> g_get_name g n2 = Some it2 ->
       i_id it1 = i_id it2 -> n1 = n2 /\ it1 = it2).
Proof. exact registry_items_agree. Qed.
Print Assumptions C05_registry_lookups_agree.

(** C05.  An item stays retrievable, unchanged, for ever. *)
Theorem C05_registry_items_permanent :
  forall (valid : string -> bool) (D P : Type) (construct : D -> option P)
         (g : registry P) (later : list (gop D P)) n it,
    g_reachable valid construct g -> g_get_name g n = Some it ->
    g_get_name (g_run valid construct g later) n = Some it /\
    g_get_id (g_run valid construct g later) (i_id it) = Some it.
Proof. exact registry_items_permanent. Qed.
Print Assumptions C05_registry_items_permanent.

(** C05.  A call that returns an item has added exactly that item under a name
    that had none; any other outcome leaves every lookup unchanged. *)
Theorem C05_registry_step_effect :
  forall (valid : string -> bool) (D P : Type) (construct : D -> option P)
         (g : registry P) (o : gop D P),
    g_reachable valid construct g ->
    let '(g', out) := g_step valid construct g o in
    let name := match o with GRegisterDict n _ => n | GRegister n _ => n end in
    match out with
    | Ret (Some it) =>
        g_get_name g name = None /\ g_get_name g' name = Some it /\
        g_get_id g' (i_id it) = Some it /\
        (forall n, n <> name -> g_get_name g' n = g_get_name g n)
    | _ =>
        (forall n, g_get_name g' n = g_get_name g n) /\
        (forall i, g_get_id g' i = g_get_id g i)
    end.
Proof. exact registry_step_effect. Qed.
Print Assumptions C05_registry_step_effect.

(** A reachable registry holding three items after accepted, refused and
    raising registrations. *)
Definition demo_construct (z : Z) : option Z := if z =? 13 then None else Some z.
Definition demo_items : registry Z :=
  match g_new demo_valid [("x", mkItem 3 30)]%string with
  | Some g0 => g_run demo_valid demo_construct g0
      [GRegisterDict "y" (mkIdata None 40);
       GRegisterDict "z" (mkIdata (Some 4) 50);
       GRegisterDict "w" (mkIdata (Some 9) 50);
       GRegister "x" (mkItem 9 1);
       GRegisterDict "q" (mkIdata None 13)]%string
  | None => mkRegistry [] (mkNreg m_empty 1)
  end.
Example demo_items_reachable : g_reachable demo_valid demo_construct demo_items.
Proof.
  exists [("x", mkItem 3 30)]%string. eexists.
  exists [GRegisterDict "y" (mkIdata None 40);
       GRegisterDict "z" (mkIdata (Some 4) 50);
       GRegisterDict "w" (mkIdata (Some 9) 50);
       GRegister "x" (mkItem 9 1);
       GRegisterDict "q" (mkIdata None 13)]%string.
  split; [|split; reflexivity].
  cbn. repeat constructor; cbn; intuition discriminate.
Qed.
Example demo_items_contents :
  map (g_get_name demo_items) ["x"; "y"; "z"; "w"; "q"]%string =
    [Some (mkItem 3 30); Some (mkItem 4 40); None; Some (mkItem 9 50); None].
Proof. vm_compute. reflexivity. Qed.

(** C03.  The first automatic identifier of a new registry is 1 when nothing
    was loaded, else one above the greatest positive identifier loaded. *)
Theorem C03_first_automatic :
  forall (valid : string -> bool) mp rv r name,
    r_new valid mp rv = Some r -> valid name = true ->
    m_identifier (r_map r) name = None ->
    exists i r',
      r_register valid r name None = (r', Ret (Some i)) /\ 1 <= i /\
      (forall j n, m_name (r_map r) j = Some n -> j < i) /\
      (i = 1 \/ exists n, m_name (r_map r) (i - 1) = Some n).
Proof.
  intros valid mp rv r name H Hv Hn. unfold r_new in H.
  destruct (m_new valid mp rv) as [m|] eqn:E; [|discriminate]. injection H as <-.
  cbn [r_map] in *.
  assert (B : forall l c, c <= r_bump c l /\ (forall j, In j l -> j < r_bump c l) /\
                (r_bump c l = c \/ In (r_bump c l - 1) l)).
  { induction l as [|k l IH]; intros c; unfold r_bump in *; cbn [fold_left In];
      [split; [lia|split; [tauto|left; reflexivity]]|].
    destruct (IH (if k >=? c then k + 1 else c)) as (A1 & A2 & A3).
    set (z := fold_left _ l _) in *. clearbody z.
    destruct (k >=? c) eqn:G; (split; [lia|split; [intros j [<-|Hj]; [lia|auto]|]]).
    - destruct A3 as [A3|A3]; [|tauto]. right. left. lia.
    - destruct A3 as [A3|A3]; tauto. }
  destruct (B (dkeys (m_fwd m)) 1) as (B1 & B2 & B3).
  set (c := r_bump 1 (dkeys (m_fwd m))) in *. clearbody c.
  assert (F : dget c (m_fwd m) = None).
  { destruct (dget c (m_fwd m)) as [x|] eqn:G; [|reflexivity]. apply dget_In in G.
    assert (In c (dkeys (m_fwd m))) as G' by (apply in_map_iff; exists (c, x); auto).
    apply B2 in G'. lia. }
  destruct (m_set_fresh valid m c name Hv F Hn) as [m' Em].
  exists c. exists (mkNreg m' c). split.
  - unfold r_register. cbn [r_map r_cur]. rewrite Hn, Hv. cbn [negb r_scan].
    unfold dmem at 1. rewrite F. unfold dmem. rewrite F, Em. reflexivity.
  - split; [exact B1|]. split.
    + intros j n Hj. apply B2. unfold m_name in Hj. apply dget_In in Hj.
      apply in_map_iff. exists (j, n). auto.
    + destruct B3 as [->|B3]; [left; reflexivity|right].
      apply in_map_iff in B3 as ([j n] & J1 & J2). cbn [fst] in J1. subst j.
      destruct (m_name m (c - 1)) as [n'|] eqn:G; [eauto|].
      unfold m_name in G. apply dget_None_notin in G. exfalso. apply G.
      apply in_map_iff. exists (c - 1, n). auto.
Qed.
Print Assumptions C03_first_automatic.
Example first_automatic_demo :
  (exists r, r_new demo_valid [] [] = Some r /\
     snd (r_register demo_valid r "a" None) = Ret (Some 1)) /\
  exists r, r_new demo_valid [(7, "x"); (-4, "y")] [] = Some r /\
     snd (r_register demo_valid r "a" None) = Ret (Some 8).
Proof. split; eexists; split; reflexivity. Qed.

(** C01.  Looking an identifier up by itself confirms it exactly when some name
    has it. *)
Theorem C01_identifier_of_identifier :
  forall (valid : string -> bool) r i,
    r_reachable valid r ->
    ((exists j, m_identifier_key (r_map r) i = Some j) <->
     (exists n, m_identifier (r_map r) n = Some i)) /\
    (forall j, m_identifier_key (r_map r) i = Some j -> j = i).
Proof.
  intros valid r i Hr.
  pose proof (C01_registry_bijection valid r Hr) as B. unfold m_identifier_key.
  unfold m_identifier, m_name in *. unfold dmem.
  destruct (dget i (m_fwd (r_map r))) as [n|] eqn:G; (split; [split|]).
  - intros _. exists n. apply B. exact G.
  - eauto.
  - congruence.
  - intros [j Hj]. discriminate.
  - intros [n Hn]. apply B in Hn. congruence.
  - discriminate.
Qed.
Print Assumptions C01_identifier_of_identifier.
