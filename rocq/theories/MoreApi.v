(** Further statements about stepped time, datagrams and deferred connections. *)
From Coq Require Import ZifyBool ZifyNat Lia.
From Verif Require Import Base BaseLemmas.
Open Scope list_scope.
Open Scope Z_scope.

(** ** Stepping (C85) *)
From Verif Require StepModel StepSpec StepProofs StepProps.
Section Stepping.
Import StepModel StepSpec StepProofs StepProps.

(** Steppers as they are built: switches off, time not simulated, nothing counted. *)
Theorem C85_as_built : forall (built : nat -> option (Z * Z * Z * list nat)) log,
  let w := mkWorld (fun s => match built s with Some (count, dt, start, polls) => Some (stepper_new count dt start polls) | None => None end) None log in
  let u := fun s => match built s with Some (count, dt, start, polls) => Some (mkSetup start dt polls) | None => None end in
  let v := fun s => match built s with Some (count, _, _, _) => mkView false false (count mod 2 ^ 32) 0 | None => mkView false false 0 0 end in
  shows (fun _ => 0) w u v None.
Proof.
  intros built log. split; [reflexivity|]. intros s. cbn. destruct (built s) as [[[[count dt] start] polls]|]; [|exact I].
  cbn. split; [reflexivity|]. split; [reflexivity|]. split; [reflexivity|]. split; [apply Z.mod_pos_bound; lia|].
  split; [reflexivity|]. split; [lia|]. split; reflexivity.
Qed.

(** Dispatching the task is one edge of every stepper, and does not raise when
    polling does not. *)
Theorem C85_dispatch_runs : forall fails c0 u f l w v src,
  plain u -> (forall x i, fails x i = false) -> shows c0 w u v src ->
  exists w', dispatch fails (S (S f)) w l = (w', false) /\
    let '(polled, v', src') := ideal_run u v src (map Toggle l) in
    shows c0 w' u v' src' /\ w_log w' = w_log w ++ polled.
Proof.
  intros fails c0 u f l w v src Hp Hf Hs. destruct (C85_stepping fails c0 u f (map Toggle l) w v src Hp Hf Hs) as (w' & R & P).
  exists w'. split; [|exact P]. clear P Hs Hp. revert w R. induction l as [|s l IH]; intros w R.
  - cbn in R. injection R as <-. reflexivity.
  - cbn [map run dispatch] in *. destruct (step fails (S (S f)) w (Toggle s)) as [w1 b].
    destruct (run fails (S (S f)) w1 (map Toggle l)) as [w2 bs] eqn:E. injection R as R1 R2 R3. subst. apply IH, E.
Qed.

Example C85_built_case : exists w', dispatch never 2 (mkWorld (fun s => match s with 2%nat => Some (stepper_new 2 10 0 [0%nat; 1%nat]) | _ => None end) None []) [2%nat] = (w', false) /\
  map fst (w_log w') = [0; 1; 0; 1]%nat.
Proof. eexists. split; vm_compute; reflexivity. Qed.
End Stepping.
Print Assumptions C85_as_built.
Print Assumptions C85_dispatch_runs.

(** ** Datagrams (C86) *)
From Verif Require UdpModel UdpSpec UdpProofs UdpProps.
Section Datagrams.
Import UdpModel UdpSpec UdpProofs UdpProps.

(** Sending raises exactly when there is data and the endpoint was built for one
    address and another is given; then nothing changes.  Otherwise what was given is
    counted as sent, unless the socket vanished while sending. *)
Theorem C86_send_raises : forall n c data a f,
  let '(n', c', raised) := sendto n c data a f in
  (raised = true <-> data <> [] /\ exists x y, tr_addr (c_tr c) = Some x /\ a = Some y /\ x <> y) /\
  (raised = true -> n' = n /\ c' = c) /\
  (raised = false -> c_rx c' = c_rx c /\
     (c_tx c' = c_tx c + zlen data \/ (f = Vanished /\ c_tx c' = c_tx c /\ c_enabled c' = false))) /\
  (f = Leaves \/ f = Lost -> c_enabled c' = c_enabled c) /\
  (f = Errors -> raised = false -> c_enabled c' = c_enabled c \/ c_enabled c' = false).
Proof.
  intros n c data a f. unfold sendto, tr_sendto, zlen. destruct data as [|z data].
  - cbn. split; [split; [discriminate|intros [H _]; congruence]|]. split; [discriminate|]. split; [intros _; split; [reflexivity|left; lia]|]. auto.
  - assert (D : forall e c0, c_tx (add_tx (if e : bool then disable c0 else c0) (Z.of_nat (List.length (z :: data)))) = c_tx c0 + Z.of_nat (List.length (z :: data)) /\
      c_rx (add_tx (if e : bool then disable c0 else c0) (Z.of_nat (List.length (z :: data)))) = c_rx c0) by (intros [] ?; cbn; auto).
    assert (E0 : (if match tr_addr (c_tr c), a with Some x, Some y => negb (addr_eqb x y) | _, _ => false end then true else false) = true <->
      exists x y, tr_addr (c_tr c) = Some x /\ a = Some y /\ x <> y).
    { split.
      - destruct (tr_addr (c_tr c)) as [x|]; [|discriminate]. destruct a as [y|]; [|discriminate]. intros H. exists x, y. split; [reflexivity|]. split; [reflexivity|].
        intros ->. rewrite addr_eqb_refl in H. discriminate.
      - intros (x & y & -> & -> & H). rewrite addr_eqb_neq by exact H. reflexivity. }
    destruct (match tr_addr (c_tr c), a with Some x, Some y => negb (addr_eqb x y) | _, _ => false end).
    + split; [|split; [auto|split; [discriminate|auto]]]. split; [|reflexivity]. intros _. split; [discriminate|]. apply E0. reflexivity.
    + assert (R : forall b : bool, b = false -> (b = true <-> z :: data <> [] /\ exists x y, tr_addr (c_tr c) = Some x /\ a = Some y /\ x <> y)).
      { intros b ->. split; [discriminate|]. intros [_ H]. apply E0 in H. discriminate. }
      cbn zeta. destruct (s_open _); [destruct (s_peer _), a; try destruct f|];
        (split; [apply R; reflexivity|]); (split; [discriminate|]);
        (split; [intros _; cbn; auto|]); (split; [intros [H|H]; try discriminate; reflexivity|]); intros; try discriminate; cbn; auto.
Qed.

(** A connection as created: nothing counted yet. *)
Theorem C86_created_counts : forall n connect k d n1 c,
  create n connect k d = (n1, Some c) ->
  c_tx c = 0 /\ c_rx c = 0 /\ c_seen c = [] /\ c_queue c = [] /\ c_latest c = None /\ c_enabled c = true.
Proof.
  intros n connect k d n1 c. unfold create. destruct (endpoint _ _ d) as [n' [| |t]]; try discriminate.
  intros H. injection H as <- <-. destruct (if connect then None else k_remote k); cbn; auto 10.
Qed.

(** No step of a history raises. *)
Fixpoint calm handler (n : net) (c : conn) (ops : list op) : Prop :=
  match ops with
  | [] => True
  | o :: r => let '(n', c', b) := step handler n c o in b = false /\ calm handler n' c' r
  end.
Definition total (l : list (list Z * addr)) : Z := fold_right (fun e s => zlen (fst e) + s) 0 l.
Lemma total_app a b : total (a ++ b) = total a + total b.
Proof. unfold total. induction a as [|x a IH]; cbn [app fold_right]; [reflexivity|]. rewrite IH. lia. Qed.
Lemma sendto_counts n c data a f : let '(_, c', _) := sendto n c data a f in c_rx c' = c_rx c /\ c_seen c' = c_seen c /\ (c_seen c' <> [] -> c_latest c' = c_latest c).
Proof. unfold sendto. destruct (tr_sendto _ _ _ _ _) as [[n' [| |]] e]; cbn; auto. destruct e; cbn; auto. Qed.
Lemma replies_counts l : forall n c fs, let '(_, c', _) := replies n c l fs in c_rx c' = c_rx c /\ c_seen c' = c_seen c.
Proof.
  induction l as [|r l IH]; intros n c fs; [cbn; auto|]. cbn [replies].
  destruct r as [d|d a]; [unfold send_binary; pose proof (sendto_counts n c d (c_remote c) (fs 0%nat)) as G|pose proof (sendto_counts n c d (Some a) (fs 0%nat)) as G];
  (destruct (sendto _ _ _ _ _) as [[n1 c1] b]; destruct b; [tauto|]);
  (specialize (IH n1 c1 (fun i => fs (S i))); destruct (replies _ _ _ _) as [[n2 c2] b2]; destruct G as (G1 & G2 & _), IH as [I1 I2]; split; congruence).
Qed.
(** While nothing raises, what is counted as received is the size of the
    datagrams processed, over any history of sending, receiving, disabling, closing
    and restarting. *)
Theorem C86_received_counted : forall handler ops n c, calm handler n c ops ->
  c_rx c = fold_right (fun e s => zlen (fst e) + s) 0 (c_seen c) ->
  let '(_, c') := run handler n c ops in
  c_rx c' = fold_right (fun e s => zlen (fst e) + s) 0 (c_seen c').
Proof.
  intros handler. induction ops as [|o ops IH]; intros n c C E; [exact E|]. cbn [calm run] in *.
  assert (K : let '(_, c', b) := step handler n c o in b = false -> c_rx c' = total (c_seen c')).
  { destruct o as [data f|data a f|a|data from|fs| | |d]; cbn [step].
    - unfold send_binary. pose proof (sendto_counts n c data (c_remote c) f) as G. destruct (sendto _ _ _ _ _) as [[n1 c1] b]. destruct G as (G1 & G2 & _). intros _. rewrite G1, G2. exact E.
    - pose proof (sendto_counts n c data (Some a) f) as G. destruct (sendto _ _ _ _ _) as [[n1 c1] b]. destruct G as (G1 & G2 & _). intros _. rewrite G1, G2. exact E.
    - intros _. exact E.
    - intros _. unfold received. destruct (_ && _); exact E.
    - unfold read_one. destruct (c_enabled c); [|intros _; exact E]. destruct (c_queue c) as [|[data from] rest]; [intros _; exact E|].
      destruct (handler data from) as [l ok]. set (c1 := mkConn _ _ _ _ _ _ _ _ _ _ _). pose proof (replies_counts l n c1 fs) as G.
      destruct (replies n c1 l fs) as [[n2 c2] b]. destruct b; [discriminate|]. intros _. destruct G as [G1 G2].
      assert (Q : c_rx c2 + Z.of_nat (List.length data) = total (c_seen c2)).
      { rewrite G1, G2. subst c1. cbn [c_rx c_seen]. rewrite total_app. cbn [total fold_right fst]. unfold total. rewrite E. unfold zlen. lia. }
      destruct ok; exact Q.
    - intros _. exact E.
    - intros _. exact E.
    - destruct (c_enabled c); [intros _; exact E|]. unfold restart. destruct (endpoint n (c_kw c) d) as [n1 [| |t]]; intros _; exact E. }
  destruct (step handler n c o) as [[n1 c1] b]. destruct C as [C1 C2]. apply IH; [exact C2|]. apply K, C1.
Qed.

(** Refuted without that: a datagram whose processing raises was processed and is
    not counted. *)
Theorem C86_received_counted_refuted : exists handler n c ops,
  c_rx c = 0 /\ c_seen c = [] /\
  let '(_, c') := run handler n c ops in c_rx c' = 0 /\ c_seen c' = [([1; 2], ("h"%string, 1))].
Proof.
  exists (fun data _ => ([SendTo data ("other"%string, 9)], true)),
    (mkNet (fun _ => mkSock ("me"%string, 5) (Some ("h"%string, 1)) true) 1 []),
    (mkConn (mkTr 0 (Some ("h"%string, 1))) ("me"%string, 5) (Some ("h"%string, 1)) (mkKw None (Some ("h"%string, 1)) None false false) true true [] None 0 0 []),
    [OReceive [1; 2] ("h"%string, 1); ORead (fun _ => Leaves)].
  split; [reflexivity|]. split; [reflexivity|]. vm_compute. split; reflexivity.
Qed.

(** What does not send never raises. *)
Theorem C86_quiet_steps : forall handler n c o,
  match o with OSetRemote _ | OReceive _ _ | ODisable | OClose => True | ORestart _ => c_enabled c = true | ORead _ => c_queue c = [] \/ c_enabled c = false | _ => False end ->
  snd (step handler n c o) = false /\
  n_sent (fst (fst (step handler n c o))) = n_sent n.
Proof.
  intros handler n c o. destruct o as [data f|data a f|a|data from|fs| | |d]; cbn; try contradiction; intros H; auto.
  - unfold read_one. destruct H as [H|H]; rewrite H; [|auto]. destruct (c_enabled c); auto.
  - rewrite H. auto.
Qed.

(** A connection that ignores what it receives stays enabled, sends nothing and
    counts everything. *)
Theorem C86_ignores : forall ops n c, Forall quiet ops ->
  let '(n', c') := run null_handler n c ops in
  n_sent n' = n_sent n /\ c_enabled c' = c_enabled c /\ c_tx c' = c_tx c.
Proof.
  induction ops as [|o ops IH]; intros n c Q; [cbn; auto|]. inversion_clear Q. cbn [run].
  assert (K : let '(n1, c1, _) := step null_handler n c o in n_sent n1 = n_sent n /\ c_enabled c1 = c_enabled c /\ c_tx c1 = c_tx c).
  { destruct o; try contradiction; cbn [step].
    - unfold received. destruct (_ && _); auto.
    - unfold read_one. destruct (c_enabled c) eqn:E; [|auto]. destruct (c_queue c) as [|[d fr] r]; [auto|]. cbn. auto. }
  destruct (step null_handler n c o) as [[n1 c1] b]. specialize (IH n1 c1 H0). destruct (run null_handler n1 c1 ops) as [n2 c2].
  destruct K as (K1 & K2 & K3), IH as (I1 & I2 & I3). repeat split; congruence.
Qed.

Example C86_counted_case :
  let n := mkNet (fun _ => mkSock ("me"%string, 5) None true) 1 [] in
  let c := mkConn (mkTr 0 None) ("me"%string, 5) None (mkKw None None None false false) false true [] None 0 0 [] in
  let ops := [OReceive [1; 2] ("h"%string, 1); OReceive [3] ("g"%string, 1); ORead (fun _ => Leaves); ORead (fun _ => Leaves)] in
  calm echo_handler n c ops /\ c_rx (snd (run echo_handler n c ops)) = 3 /\ c_tx (snd (run echo_handler n c ops)) = 3.
Proof. vm_compute. repeat split. Qed.
End Datagrams.
Print Assumptions C86_send_raises.
Print Assumptions C86_created_counts.
Print Assumptions C86_received_counted.
Print Assumptions C86_received_counted_refuted.
Print Assumptions C86_quiet_steps.
Print Assumptions C86_ignores.

(** ** Deferred connections (C76) *)
From Verif Require ConfigModel ConfigSpec ConfigProofs ConfigProps.
Section Deferred.
Import ConfigModel ConfigSpec ConfigProofs ConfigProps.
Context {conn info : Type}.
Context (full : list string -> string) (snake : string -> string).
Context (make : string -> string -> info -> option conn) (serve : string -> info -> bool).
Context (t : string * (string * info)).
Notation run := (a_run full snake make serve (arb_init t)).
Notation claims := (claims full snake make serve (arb_init t)).

Lemma not_awaited ops : ~ In AInit ops -> forall a, a_awaited a = false -> a_awaited (fst (a_run full snake make serve a ops)) = false.
Proof.
  induction ops as [|o ops IH]; intros N a E; [exact E|]. cbn [a_run].
  assert (K : a_awaited (fst (a_step full snake make serve a o)) = false).
  { assert (R : forall (b : @arb conn info) names x, a_awaited b = false -> a_awaited (fst (register_connection full names x b)) = false).
    { intros b names x B. unfold register_connection. destruct (_ && _); [|exact B]. destruct x; exact B. }
    destruct o; cbn [a_step].
    - unfold bool_res. cbn [fst]. apply R, E.
    - unfold factory_client. destruct (dget factory (a_cfacs a)) as [f|]; [|exact E]. destruct defer.
      + specialize (R a (f_spaces f ++ [name]) (Later (make (f_class f) name args)) E). destruct (register_connection _ _ _ _). exact R.
      + destruct (make (f_class f) name args) as [c'|]; [|exact E]. set (a1 := mkArb _ _ _ _ _ _ _ _ _ _ _ _ _).
        specialize (R a1 (f_spaces f ++ [name]) (Now c') E). destruct (register_connection _ _ _ _). exact R.
    - unfold bool_res, register_factory. destruct (_ && _); exact E.
    - unfold factory_server. destruct (dget factory (a_cfacs a)) as [f|]; [|exact E]. destruct (serve _ _); exact E.
    - unfold bool_res, factory_task. destruct (dget factory (a_tfacs a)); [|exact E]. destruct (dmem _ _); exact E.
    - unfold bool_res, factory_struct. destruct (dget factory (a_sfacs a)); [|exact E]. destruct (dmem _ _); exact E.
    - unfold bool_res, factory_process. destruct (dget factory (a_pfacs a)); [|exact E]. destruct (dmem _ _); exact E.
    - exfalso. apply N. left. reflexivity. }
  destruct (a_step full snake make serve a o) as [a1 r]. specialize (IH ltac:(intros I; apply N; right; exact I) a1 K).
  destruct (a_run full snake make serve a1 ops). exact IH.
Qed.

(** The first time deferred connections are awaited, it succeeds exactly when every
    name that stands for a deferred connection stands for one that can be made; if
    not, it raises. *)
Theorem C76_awaited : forall before, ~ In AInit before ->
  let r := snd (a_step full snake make serve (fst (run before)) AInit) in
  (r = RBool true <-> forall n x, dget n (claims before) = Some (Later x) -> x <> None) /\ (r <> RBool true -> r = RRaise).
Proof.
  intros before N. pose proof (not_awaited before N (arb_init t) eq_refl) as W.
  pose proof (run_inv full snake make serve before (arb_init t) [] (ainv_init t)) as I. cbn [app] in I.
  set (a := fst (run before)) in *. destruct I as (H & _ & _ & D & _).
  assert (K : all_made (a_defer a) = true <-> forall n x, dget n (claims before) = Some (Later x) -> x <> None).
  { unfold all_made. rewrite forallb_forall. split.
    - intros A n x E. specialize (H n). rewrite E in H. destruct H as [H _]. apply dget_In in H. specialize (A _ H). cbn in A. destruct x; [discriminate|discriminate A].
    - intros A [n x] I. apply (In_dget n x _ D) in I. specialize (H n). specialize (A n x).
      destruct (dget n (claims before)) as [[c|y]|]; cbn in H; [destruct H; congruence| |destruct H; congruence].
      destruct H as [H _]. rewrite I in H. injection H as <-. specialize (A eq_refl). cbn. destruct x; [reflexivity|contradiction]. }
  cbn [a_step]. unfold init_connections. destruct (a_defer a) as [|p d] eqn:Ed.
  - cbn [snd]. split; [|congruence]. split; [intros _; apply K; reflexivity|reflexivity].
  - rewrite W. destruct (all_made (p :: d)) eqn:M; cbn [snd].
    + split; [|congruence]. split; [intros _; apply K; reflexivity|reflexivity].
    + split; [|reflexivity]. split; [discriminate|]. intros X. apply K in X. discriminate.
Qed.
End Deferred.
Print Assumptions C76_awaited.

Example C76_awaited_case :
  let r := fun i => snd (ConfigModel.a_step ConfigProps.x_full ConfigProps.x_snake ConfigProps.x_make ConfigProps.x_serve
    (fst (ConfigModel.a_run ConfigProps.x_full ConfigProps.x_snake ConfigProps.x_make ConfigProps.x_serve (ConfigModel.arb_init ConfigProps.x_task)
      [ConfigModel.AFactory ConfigModel.KConn "EchoFactory" []; ConfigModel.AClient "echo_factory" "b" i true])) ConfigModel.AInit) in
  r 5%nat = ConfigModel.RBool true /\ r 13%nat = ConfigModel.RRaise.
Proof. vm_compute. split; reflexivity. Qed.

(** ** Descriptions of bit fields without positions (C51) *)
From Verif Require PrimModel PrimSpec PrimProofs FieldModel FieldSpec FieldProofs.
Section Packed.
Import PrimModel PrimSpec FieldModel FieldSpec FieldProofs.

(** An entry of a description: a name (none for padding), a width, a value. *)
Definition entry : Type := (option string * Z * Z)%type.
Definition described (x : entry) : jitem := let '(n, w, v) := x in mkJ n None w v false None None.
(** The named entries with the positions they should get: one after the other. *)
Fixpoint placed (from : Z) (l : list entry) : list (string * Z * Z * Z) :=
  match l with
  | [] => []
  | (Some n, w, v) :: l => (n, from, w, v) :: placed (from + w) l
  | (None, w, _) :: l => placed (from + w) l
  end.
Definition bits_total (l : list entry) : Z := fold_right (fun x s => snd (fst x) + s) 0 l.
Definition the_names (l : list entry) : list string := flat_map (fun x => match fst (fst x) with Some n => [n] | None => [] end) l.
Definition entry_ok (x : entry) : Prop :=
  match x with
  | (Some n, w, v) => n <> EmptyString /\ made_of lower_alphabet n /\ 1 <= w /\ 0 <= v < 2 ^ w
  | (None, w, v) => 1 <= w /\ v = 0
  end.

Lemma bits_total_nonneg l : Forall entry_ok l -> 0 <= bits_total l.
Proof.
  induction 1 as [|[[n w] v] l H F IH]; [cbn; lia|]. cbn [bits_total fold_right fst snd]. fold (bits_total l).
  assert (1 <= w) by (destruct n; cbn [entry_ok] in H; tauto). lia.
Qed.
Lemma lower_valid n : n <> EmptyString -> made_of lower_alphabet n -> valid_name n = true.
Proof.
  intros N M. apply valid_name_chars. split; [exact N|]. intros c I. specialize (M c I).
  assert (X : forall d, In d (list_ascii_of_string lower_alphabet) -> In d (list_ascii_of_string name_alphabet)).
  { apply Forall_forall. vm_compute. repeat (apply Forall_cons; [tauto|]). apply Forall_nil. }
  apply X, M.
Qed.

Lemma load_packed k b : int_kind k b false -> forall l s from,
  Forall entry_ok l -> NoDup (the_names l) -> from + bits_total l <= b -> 0 <= from ->
  r_kind s = k -> r_final s = false -> r_curr s = from -> (forall x, In x (r_avail s) <-> from <= x < b) ->
  (forall n, In n (the_names l) -> dget n (r_fields s) = None) ->
  exists s', load_items s (map described l) = Some s' /\ r_curr s' = from + bits_total l /\
    (forall n i w v, In (n, i, w, v) (placed from l) ->
       (exists f, dget n (r_fields s') = Some f /\ fl_index f = i /\ fl_width f = w) /\ bf_read (r_raw s') i w = v) /\
    (forall n, ~ In n (the_names l) -> dget n (r_fields s') = dget n (r_fields s)) /\
    (forall j, 0 <= j < from -> Z.testbit (r_raw s') j = Z.testbit (r_raw s) j).
Proof.
  intros Hk. destruct (int_kind_bits k b false Hk) as (Ebits & Bpos & Hint).
  induction l as [|[[n w] v] l IH]; intros s from Ok Nd Tot F0 K Fin C A Fr.
  - exists s. cbn. split; [reflexivity|]. split; [lia|]. split; [tauto|]. split; reflexivity.
  - apply Forall_cons_iff in Ok as [O1 O2]. pose proof (bits_total_nonneg l O2) as TN.
    assert (W1 : 1 <= w) by (destruct n; cbn in O1; tauto).
    change (bits_total ((n, w, v) :: l)) with (w + bits_total l) in *.
    destruct (r_claim s w None) as [[s1 i]|] eqn:Cl.
    2:{ apply claim_none in Cl as [Cl|(x & X & Y)]; [congruence|]. exfalso. apply Y, A. cbn [idx_of] in X. lia. }
    destruct (claim_some s w None s1 i Cl) as (Ei & _ & _ & Av & K1 & R1 & Fl1 & _ & Fin1 & Cu).
    cbn [idx_of] in Ei. rewrite C in Ei, Cu. subst i. rewrite Z.leb_refl in Cu.
    destruct n as [n|].
    + cbn in O1. destruct O1 as (Ne & Lo & _ & V).
      pose proof (lower_valid n Ne Lo) as Vn.
      assert (FO : field_ok (r_kind s1) n from w = true).
      { unfold field_ok, base_ok. rewrite K1, K, Hint, Vn, Ebits. lia. }
      set (g := mkField n from w None false None).
      set (s2 := with_maps s1 (dset n g (r_fields s1)) (dset from (IField g) (r_byidx s1))).
      assert (Fn : dget n (r_fields s) = None) by (apply Fr; cbn; auto).
      assert (L : load_item s (described (Some n, w, v)) = Some (r_write s2 g v)).
      { cbn [described load_item j_name j_value j_enum j_width j_index j_cmd j_desc].
        destruct n as [|c0 n0]; [congruence|].
        destruct (Z.eqb_spec w 1) as [E1|E1].
        - unfold r_flag. rewrite E1 in *. rewrite Cl, FO. cbn [with_maps r_fields]. rewrite dget_dset_eq. unfold s2, g. rewrite ?E1. reflexivity.
        - unfold r_field. destruct (Z.eqb_spec w 1); [congruence|]. rewrite Cl, FO.
          replace (dmem (String c0 n0) (r_fields s1)) with false by (symmetry; apply dmem_false; rewrite Fl1; exact Fn).
          cbn [with_maps r_fields]. rewrite dget_dset_eq. reflexivity. }
      cbn [map load_items]. rewrite L. cbn [the_names flat_map fst app] in Nd. apply NoDup_cons_iff in Nd as [Nn Nd'].
      destruct (IH (r_write s2 g v) (from + w)) as (s' & Q1 & Q2 & Q3 & Q4 & Q5); try assumption.
      * lia.
      * lia.
      * unfold r_write, s2. cbn [with_maps with_raw r_kind]. congruence.
      * unfold r_write, s2. cbn [with_maps with_raw r_final]. congruence.
      * intros x. unfold r_write, s2. cbn [with_maps with_raw r_avail]. rewrite Av, A. lia.
      * intros m I. unfold r_write, s2. cbn [with_maps with_raw r_fields]. rewrite dget_dset_ne by (intros ->; contradiction). rewrite Fl1. apply Fr. cbn. auto.
      * exists s'. split; [exact Q1|]. split; [lia|]. split; [|split].
        -- intros m i w' v' [E|I].
           ++ injection E as <- <- <- <-. split.
              ** exists g. split; [|split; reflexivity]. rewrite Q4 by exact Nn. unfold r_write, s2. cbn [with_maps with_raw r_fields]. apply dget_dset_eq.
              ** rewrite (read_ext (r_raw s') (r_raw (r_write s2 g v))); [|lia|lia|intros j J; apply Q5; lia].
                 unfold r_write, s2, g. cbn [with_maps with_raw r_raw r_kind fl_index fl_width].
                 rewrite (read_write (r_kind s1) b false) by (try (rewrite K1, K); assumption || lia). apply Z.mod_small. lia.
           ++ apply Q3. exact I.
        -- intros m Nm. rewrite Q4 by (intros X; apply Nm; cbn; auto). unfold r_write, s2. cbn [with_maps with_raw r_fields].
           rewrite dget_dset_ne by (intros ->; apply Nm; cbn; auto). rewrite Fl1. reflexivity.
        -- intros j J. rewrite Q5 by lia. unfold r_write, s2, g. cbn [with_maps with_raw r_raw r_kind fl_index fl_width].
           rewrite (write_bit (r_kind s1) b false) by (try (rewrite K1, K); assumption || lia). replace (from <=? j) with false by lia. cbn [andb]. rewrite R1. reflexivity.
    + cbn in O1. destruct O1 as (_ & ->).
      cbn [map load_items]. cbn [the_names flat_map fst app] in Nd.
      set (s2 := with_maps (with_raw s1 (fst (bf_write (r_kind s1) (r_raw s1) from w 0))) (r_fields s1) (dset from (IPad w 0) (r_byidx s1))).
      assert (L : load_item s (described (None, w, 0)) = Some s2).
      { cbn [described load_item j_name j_value j_enum j_width j_index j_cmd j_desc]. rewrite Z.eqb_refl. unfold r_pad. rewrite Cl. unfold base_ok.
        replace ((0 <=? from) && (0 <=? w)) with true by lia. reflexivity. }
      rewrite L.
      destruct (IH s2 (from + w)) as (s' & Q1 & Q2 & Q3 & Q4 & Q5); try assumption.
      * lia.
      * lia.
      * unfold s2. cbn [with_maps with_raw r_kind]. congruence.
      * unfold s2. cbn [with_maps with_raw r_final]. congruence.
      * intros x. unfold s2. cbn [with_maps with_raw r_avail]. rewrite Av, A. lia.
      * intros m I. unfold s2. cbn [with_maps with_raw r_fields]. rewrite Fl1. apply Fr. exact I.
      * exists s'. split; [exact Q1|]. split; [lia|]. split; [exact Q3|]. split.
        -- intros m Nm. rewrite Q4 by exact Nm. unfold s2. cbn [with_maps with_raw r_fields]. rewrite Fl1. reflexivity.
        -- intros j J. rewrite Q5 by lia. unfold s2. cbn [with_maps with_raw r_raw r_kind].
           rewrite (write_bit (r_kind s1) b false) by (try (rewrite K1, K); assumption || lia). replace (from <=? j) with false by lia. cbn [andb]. rewrite R1. reflexivity.
Qed.

Lemma load_too_wide k b : int_kind k b false -> forall l s from,
  Forall entry_ok l -> from + bits_total l > b -> 0 <= from <= b ->
  r_kind s = k -> r_curr s = from -> (forall x, In x (r_avail s) <-> from <= x < b) ->
  load_items s (map described l) = None.
Proof.
  intros Hk. induction l as [|[[n w] v] l IH]; intros s from Ok Tot F0 K C A; [cbn in Tot; lia|].
  apply Forall_cons_iff in Ok as [O1 O2]. change (bits_total ((n, w, v) :: l)) with (w + bits_total l) in Tot.
  assert (W1 : 1 <= w) by (destruct n; cbn in O1; tauto).
  cbn [map load_items]. destruct (load_item s (described (n, w, v))) as [s'|] eqn:L; [|reflexivity].
  assert (X : exists s1 i, r_claim s w None = Some (s1, i) /\ r_kind s' = r_kind s1 /\ r_curr s' = r_curr s1 /\ r_avail s' = r_avail s1).
  { unfold load_item, described in L. cbn [j_name j_value j_enum j_width j_index j_cmd j_desc] in L. destruct n as [[|c0 n0]|].
    - cbn in O1. destruct O1 as [O1 _]. congruence.
    - destruct (Z.eqb_spec w 1) as [E1|E1].
      + subst w. unfold r_flag in L. destruct (r_claim s 1 None) as [[s1 i]|]; [|cbv beta iota zeta in L; discriminate L]. exists s1, i.
        destruct (field_ok (r_kind s1) (String c0 n0) i 1); [|cbv beta iota zeta in L; discriminate L]. cbn [with_maps r_fields] in L. rewrite dget_dset_eq in L. injection L as <-. auto.
      + unfold r_field in L. destruct (Z.eqb_spec w 1); [congruence|]. destruct (r_claim s w None) as [[s1 i]|]; [|cbv beta iota zeta in L; discriminate L]. exists s1, i.
        destruct (field_ok (r_kind s1) (String c0 n0) i w); [|cbv beta iota zeta in L; discriminate L]. destruct (dmem (String c0 n0) (r_fields s1)); [cbv beta iota zeta in L; discriminate L|].
        cbn [with_maps r_fields] in L. rewrite dget_dset_eq in L. injection L as <-. auto.
    - destruct (v =? 0); [|cbv beta iota zeta in L; discriminate L]. unfold r_pad in L. destruct (r_claim s w None) as [[s1 i]|]; [|cbv beta iota zeta in L; discriminate L]. exists s1, i.
      destruct (base_ok i w); [|cbv beta iota zeta in L; discriminate L]. injection L as <-. auto. }
  destruct X as (s1 & i & Cl & E1 & E2 & E3). destruct (claim_some s w None s1 i Cl) as (Ei & _ & In1 & Av & K1 & _ & _ & _ & _ & Cu).
  cbn [idx_of] in Ei. rewrite Ei, C in *. rewrite Z.leb_refl in Cu.
  assert (from + w <= b). { assert (Y : In (from + w - 1) (r_avail s)) by (apply In1; lia). apply A in Y. lia. }
  apply (IH s' (from + w)); try assumption; try lia; try congruence.
  intros x. rewrite E3, Av, A. lia.
Qed.

(** Fields described by name, width and value alone are laid out one after the other
    from bit 0, padding included, and have the values described, if they all fit;
    if not, the description is refused. *)
Theorem C51_packed : forall word k b l final, int_kind k b false -> Forall entry_ok l -> NoDup (the_names l) ->
  (bits_total l <= b -> exists s, r_import word (mkJR k (map described l) final) = Some s /\ r_final s = final /\
     (forall n i w v, In (n, i, w, v) (placed 0 l) ->
        (exists f, dget n (r_fields s) = Some f /\ fl_index f = i /\ fl_width f = w) /\ bf_read (r_raw s) i w = v) /\
     (forall n, ~ In n (the_names l) -> dget n (r_fields s) = None)) /\
  (b < bits_total l -> r_import word (mkJR k (map described l) final) = None).
Proof.
  intros word k b l final Hk Ok Nd. destruct (int_kind_bits k b false Hk) as (Ebits & Bpos & Hint).
  assert (A : forall x, In x (r_avail (r_new k)) <-> 0 <= x < b). { intros x. cbn [r_new r_avail]. rewrite zseq_In, Ebits. lia. }
  split; intros T.
  - assert (S0 : schema_ok word (mkJR k (map described l) final) = true).
    { unfold schema_ok. cbn [jr_kind jr_items]. apply andb_true_iff. split; [inversion Hk; reflexivity|].
      apply forallb_forall. intros j J. apply in_map_iff in J as ([[n w] v] & <- & J). rewrite Forall_forall in Ok. specialize (Ok _ J).
      unfold schema_item. cbn [described j_name j_index j_width j_value j_enum]. destruct n as [n|]; cbn in Ok.
      - destruct Ok as (Ne & Lo & W & V). rewrite (proj2 (lower_chars n) Lo). destruct n; [congruence|]. cbn [nonempty]. lia.
      - lia. }
    unfold r_import. rewrite S0. cbn [jr_kind jr_items jr_final].
    destruct (load_packed k b Hk l (r_new k) 0) as (s & Q1 & _ & Q3 & Q4 & _); try assumption; try reflexivity; try lia.
    rewrite Q1. eexists. split; [reflexivity|]. cbn [r_final r_fields r_raw]. split; [reflexivity|]. split; [exact Q3|].
    intros n Nn. rewrite Q4 by exact Nn. reflexivity.
  - unfold r_import. destruct (schema_ok word (mkJR k (map described l) final)); [|reflexivity]. cbn [jr_kind jr_items jr_final].
    rewrite (load_too_wide k b Hk l (r_new k) 0); try assumption; try reflexivity; lia.
Qed.
Print Assumptions C51_packed.
Example C51_packed_case : let l := [(Some "a", 3, 5); (None, 2, 0); (Some "b", 1, 1); (Some "c", 2, 2)]%string in
  Forall entry_ok l /\ NoDup (the_names l) /\ bits_total l = 8 /\ placed 0 l = [("a", 0, 3, 5); ("b", 5, 1, 1); ("c", 6, 2, 2)]%string /\
  option_map r_raw (r_import (fun _ => true) (mkJR U8 (map described l) true)) = Some 165.
Proof.
  cbv zeta. split.
  { repeat apply Forall_cons; try apply Forall_nil; cbn; repeat split; try lia; try discriminate; intros c [<-|[]]; vm_compute; tauto. }
  split; [cbn; repeat constructor; cbn; intuition discriminate|]. vm_compute. auto.
Qed.
End Packed.

(** ** The [exited] event of a connection (C45) *)
From Verif Require BackoffModel TaskModel TaskProofs ConnModel ConnSpec ConnProofs.
Section Exited.
Import BackoffModel TaskModel TaskProofs ConnModel ConnSpec ConnProofs.

Definition at_work (p : proc) : Prop := pr_pc p = PGather \/ pr_pc p = PClose.
Definition exited_ok (c : conn) : Prop := c_exited c = true ->
  (forall k p, nth_error (c_procs c) k = Some p -> ~ at_work p) /\ exists k p, nth_error (c_procs c) k = Some p /\ pr_pc p = PReturned.

Lemma control_pc p q : control p = control q -> pr_pc p = pr_pc q.
Proof. unfold control. congruence. Qed.
Lemma put_exited k p c : c_exited (put_proc k p c) = c_exited c.
Proof. reflexivity. Qed.
Lemma head_exited k p c : c_exited (c_head k p c) = c_exited c \/ c_exited (c_head k p c) = false.
Proof. unfold c_head. destruct (negb (c_enabled c) && _ && _); [left; reflexivity|]. destruct (negb (c_enabled c)); [left; reflexivity|]. right. reflexivity. Qed.
Lemma set_enabled_exited b c : c_exited (c_set_enabled b c) = c_exited c.
Proof. destruct b; reflexivity. Qed.
Lemma disable_exited c : c_exited (c_disable c) = c_exited c.
Proof. pose proof (disable_rest c) as H. unfold rest in H. congruence. Qed.

Lemma exited_step nr ni c e : INV nr ni c -> exited_ok c -> exited_ok (c_step c e).
Proof.
  intros I Ok X.
  assert (Q : (forall k r, e <> EProc k r) -> exited_ok c /\ c_exited (c_step c e) = c_exited c).
  { intros N. split; [exact Ok|]. destruct e as [|m| |b|sig| |k r|k w r]; cbn [c_step]; try reflexivity.
    - apply disable_exited.
    - unfold c_manager. destruct (c_managed c); [|reflexivity]. destruct (c_enabled c); [reflexivity|]. destruct (c_auto c); reflexivity.
    - exfalso. exact (N k r eq_refl).
    - pose proof (moved_rest k w c _ (sub_moved k w r c)) as H. unfold rest in H. congruence. }
  assert (Z0 : (forall k r, e <> EProc k r) \/ exists k r, e = EProc k r) by (destruct e; eauto; left; intros; discriminate).
  destruct Z0 as [N|(k & r & ->)].
  - destruct (Q N) as [_ E]. rewrite E in X. destruct (Ok X) as [A (k0 & p0 & B1 & B2)]. split.
    + intros k p Hk. destruct (nth_error (c_procs c) k) as [p1|] eqn:E1.
      * destruct (step_control c e k p1 E1 (N k)) as (q & Hq & Hc). replace p with q by congruence. unfold at_work. rewrite (control_pc _ _ Hc). exact (A k p1 E1).
      * destruct (step_length c e) as [L|(sig & L)].
        -- apply nth_error_None in E1. pose proof (nth_lt k _ p Hk). lia.
        -- rewrite L in Hk. cbn [set_procs c_procs] in Hk. apply nth_error_None in E1. rewrite nth_error_app2 in Hk by exact E1.
           destruct (k - _)%nat as [|[|n]]; [|discriminate|discriminate]. injection Hk as <-. intros [Y|Y]; discriminate.
    + destruct (step_control c e k0 p0 B1 (N k0)) as (q & Hq & Hc). exists k0, q. split; [exact Hq|]. rewrite (control_pc _ _ Hc). exact B2.
  - cbn [c_step] in *. destruct (nth_error (c_procs c) k) as [p|] eqn:E1; [|unfold c_proc in *; rewrite E1 in *; exact (Ok X)].
    destruct (proc_control k r c p E1) as (q & Hq & Hc). pose proof (control_pc) as CP.
    assert (Other : over p = false -> forall j x, j <> k -> nth_error (c_procs (c_proc k r c)) j = Some x -> ~ at_work x).
    { intros O j x J Hj. assert (exists y, nth_error (c_procs c) j = Some y) as [y Hy].
      { destruct (nth_error (c_procs c) j) eqn:Z1; [eauto|]. apply nth_error_None in Z1. pose proof (nth_lt j _ x Hj) as Z2. rewrite proc_length in Z2. lia. }
      rewrite (proc_other k r c j y J Hy) in Hj. injection Hj as <-. pose proof (others_over nr ni c k p j y I E1 O Hy J) as Z3. apply over_pc in Z3. unfold at_work. intros [W|W]; destruct Z3; congruence. }
    destruct (pr_pc p) eqn:Pc.
    + (* PStart *) assert (O : over p = false) by (unfold over; rewrite Pc; reflexivity).
      unfold c_proc in *. rewrite E1, Pc in *. unfold c_head in *.
      destruct (negb (c_enabled c) && _ && _); [|destruct (negb (c_enabled c)); [|discriminate]]; destruct (Ok X) as [A (k0 & p0 & B1 & B2)].
      * split.
        -- intros j x Hj. destruct (Nat.eq_dec j k) as [->|J]; [|exact (Other O j x J Hj)]. cbn [put_proc set_procs c_procs] in Hj. rewrite upd_nth in Hj by (eapply nth_lt; exact E1). injection Hj as <-. intros [Y|Y]; discriminate.
        -- assert (k0 <> k) by congruence. exists k0, p0. split; [|exact B2]. cbn [put_proc set_procs c_procs]. rewrite upd_nth_ne by congruence. exact B1.
      * split.
        -- intros j x Hj. destruct (Nat.eq_dec j k) as [->|J]; [|exact (Other O j x J Hj)]. cbn [put_proc set_procs c_procs] in Hj. rewrite upd_nth in Hj by (eapply nth_lt; exact E1). injection Hj as <-. intros [Y|Y]; discriminate.
        -- assert (k0 <> k) by congruence. exists k0, p0. split; [|exact B2]. cbn [put_proc set_procs c_procs]. rewrite upd_nth_ne by congruence. exact B1.
    + (* PSleep *) assert (O : over p = false) by (unfold over; rewrite Pc; reflexivity).
      assert (Xc : c_exited c = true) by (unfold c_proc in X; rewrite E1, Pc in X; exact X). destruct (Ok Xc) as [A (k0 & p0 & B1 & B2)]. split.
      * intros j x Hj. destruct (Nat.eq_dec j k) as [->|J]; [|exact (Other O j x J Hj)]. replace x with q by congruence. unfold at_work. unfold next_control in Hc. rewrite Pc in Hc. unfold control in Hc. intros [Y|Y]; congruence.
      * assert (J : k0 <> k) by congruence. exists k0, p0. split; [|exact B2]. apply proc_other; assumption.
    + (* PRestart *) assert (O : over p = false) by (unfold over; rewrite Pc; reflexivity).
      assert (Xc : c_exited c = true /\ pr_pc q <> PGather /\ pr_pc q <> PClose).
      { unfold c_proc in X, Hq. rewrite E1, Pc in X, Hq. destruct r as [ok|].
        - unfold c_head in X, Hq. set (d := set_attempts _ _) in *.
          assert (Ed : c_exited d = c_exited c) by (unfold d; destruct ok; cbn; reflexivity).
          assert (Pd : c_procs d = c_procs c) by (unfold d; destruct ok; cbn; reflexivity).
          destruct (negb (c_enabled d) && _ && _); [|destruct (negb (c_enabled d)); [|discriminate]];
          (split; [rewrite put_exited in X; congruence|]);
          cbn [put_proc set_procs c_procs] in Hq; rewrite Pd, upd_nth in Hq by (eapply nth_lt; exact E1); injection Hq as <-; split; discriminate.
        - split; [exact X|]. cbn [put_proc set_procs c_procs] in Hq. rewrite upd_nth in Hq by (eapply nth_lt; exact E1). injection Hq as <-. split; discriminate. }
      destruct Xc as (Xc & N1 & N2). destruct (Ok Xc) as [A (k0 & p0 & B1 & B2)]. split.
      * intros j x Hj. destruct (Nat.eq_dec j k) as [->|J]; [|exact (Other O j x J Hj)]. replace x with q by congruence. intros [Y|Y]; contradiction.
      * assert (J : k0 <> k) by congruence. exists k0, p0. split; [|exact B2]. apply proc_other; assumption.
    + (* PGather *) exfalso. assert (Xc : c_exited c = true). { unfold c_proc in X. rewrite E1, Pc in X. destruct (done (pr_read p) && _ && _ && _); exact X. }
      destruct (Ok Xc) as [A _]. apply (A k p E1). left. exact Pc.
    + (* PClose *) assert (O : over p = false) by (unfold over; rewrite Pc; reflexivity).
      unfold next_control in Hc. rewrite Pc in Hc. assert (R : pr_pc q = PReturned) by (unfold control in Hc; congruence). split.
      * intros j x Hj. destruct (Nat.eq_dec j k) as [->|J]; [|exact (Other O j x J Hj)]. replace x with q by congruence. intros [Y|Y]; congruence.
      * exists k, q. auto.
    + unfold c_proc in *. rewrite E1, Pc in *. exact (Ok X).
    + unfold c_proc in *. rewrite E1, Pc in *. exact (Ok X).
Qed.

Lemma exited_run nr ni h : forall c, INV nr ni c -> (nr = false) -> (ni = false) -> separate c h -> exited_ok c -> exited_ok (c_run c h).
Proof.
  induction h as [|e h IH]; intros c I N1 N2 Sp Ok; [exact Ok|]. destruct Sp as [S1 S2].
  apply (IH (c_step c e)); auto.
  - apply inv_step; auto; try congruence. split; [exact S1|exact Logic.I].
  - eapply exited_step; eauto.
Qed.

(** A new connection has not exited.  When process() returns after serving, the
    connection has exited.  If process() calls do not overlap, then while the connection
    has exited no call serves it, and some call has returned. *)
Theorem C45_exited_partial : forall auto h,
  c_exited (c_new auto) = false /\
  (forall c k p r, nth_error (c_procs c) k = Some p -> pr_pc p = PClose -> c_exited (c_step c (EProc k r)) = true) /\
  (separate (c_new auto) h -> let c := c_run (c_new auto) h in c_exited c = true ->
     (forall k, ~ serving c k) /\ exists k p, nth_error (c_procs c) k = Some p /\ pr_pc p = PReturned).
Proof.
  intros auto h. split; [reflexivity|]. split.
  - intros c k p r E Pc. cbn [c_step]. unfold c_proc. rewrite E, Pc. reflexivity.
  - intros Sp c X. destruct (exited_run false false h (c_new auto) (inv_new false false auto) eq_refl eq_refl Sp ltac:(discriminate) X) as [A B].
    split; [|exact B]. intros k (p & E & G). apply (A k p E). left. exact G.
Qed.
Print Assumptions C45_exited_partial.
Example C45_exited_case :
  let served := [EProcess false; EProc 0 (Ret true)] in
  let ended := served ++ [EDisable; ESub 0 Read (Ret true); ESub 0 Init (Ret true); ESub 0 Write (Ret true); EProc 0 (Ret true); EProc 0 (Ret true)] in
  separate (c_new false) ended /\ serving (c_run (c_new false) served) 0 /\
  c_exited (c_run (c_new false) served) = false /\ c_exited (c_run (c_new false) ended) = true.
Proof.
  cbv zeta. split; [vm_compute; repeat split; intros; try lia; reflexivity|]. split; [exists (nth 0 (c_procs (c_run (c_new false) [EProcess false; EProc 0 (Ret true)])) (fresh false)); split; reflexivity|].
  split; reflexivity.
Qed.
End Exited.

(** ** What a call on an environment returns (C33), an awaited message (C38), and when a
    channel is accepted (C79) *)
From Coq Require QArith.
From Verif Require RegistryModel EnumModel EnvModel IfaceModel ExportModel.
Section Outcomes.
Import QArith PrimModel FieldModel EnumModel EnvModel.
Context (valid : string -> bool) (int_of : string -> option Z) (float_of : string -> option flo) (bool_of : string -> option bool)
  (fround : kind -> flo -> flo) (enums : string + Z -> option renum).

(** Registering a primitive always returns; setting a value returns exactly when it
    sets, and changes nothing otherwise; a command raises exactly when its result says so. *)
Theorem C33_outcomes : forall e,
  (forall k sc, snd (step valid int_of float_of bool_of fround enums e (OPrim k sc)) = true) /\
  (forall k v s e', step valid int_of float_of bool_of fround enums e (OSet k v s) = (e', true) <-> e_set int_of float_of bool_of fround e k v s = Ok e') /\
  (forall k v s e', step valid int_of float_of bool_of fround enums e (OSet k v s) = (e', false) -> e' = e) /\
  (forall h a e' b, step valid int_of float_of bool_of fround enums e (OCommand h a) = (e', b) ->
     exists r l, handle int_of float_of bool_of fround h e a = (e', r, l) /\ (b = false <-> exists x, r = CRaise x)).
Proof.
  intros e. split; [reflexivity|]. split; [|split].
  - intros k v s e'. cbn [step]. destruct (e_set int_of float_of bool_of fround e k v s) as [x|x]; split; intros H; congruence.
  - intros k v s e'. cbn [step]. destruct (e_set int_of float_of bool_of fround e k v s) as [x|x]; intros H; congruence.
  - intros h a e' b. cbn [step]. destruct (handle int_of float_of bool_of fround h e a) as [[e1 r] l]. intros H. injection H as <- <-.
    exists r, l. split; [reflexivity|]. destruct r; split; intros X; try discriminate X; try (inversion X; discriminate); eauto.
Qed.
End Outcomes.
Print Assumptions C33_outcomes.

Section Awaited.
Import IfaceModel.
(** A message that is to be awaited is sent exactly when it has no identifier of its own,
    the next identifier is not awaited already, a message with queued log entries has no log entry of
    its own, and the transport accepts it; and the call raises exactly when nothing is sent. *)
Theorem C38_awaited_sent : forall st d fail st' out ok, wait_json st d fail = (st', out, ok) ->
  (ok = true -> exists m, out = [m]) /\ (ok = false -> out = []) /\
  (ok = true <-> fail = false /\ dmem "__id__"%string d = false /\ dmem (snd (id_next (i_ident st))) (i_waiting st) = false /\ (i_logs st = [] \/ dmem "__log_messages__"%string d = false)).
Proof.
  intros st d fail st' out ok H. unfold wait_json in H. change k_id with "__id__"%string in H.
  destruct (dmem "__id__"%string d) eqn:D; [injection H as <- <- <-; split; [discriminate|]; split; [reflexivity|]; split; [discriminate|intros (_ & X & _); discriminate]|].
  destruct (id_next (i_ident st)) as [i id] eqn:N. cbn [snd i_waiting] in *.
  destruct (dmem id (i_waiting st)) eqn:W; [injection H as <- <- <-; split; [discriminate|]; split; [reflexivity|]; split; [discriminate|intros (_ & _ & X & _); discriminate]|].
  cbn [i_ident i_reqs i_logs i_resp i_seen] in H. unfold send_json in H. cbn [i_logs] in H.
  assert (L : dmem k_log (dset "__id__"%string (JInt id) d) = dmem "__log_messages__"%string d).
  { destruct (dmem "__log_messages__"%string d) eqn:E.
    - apply dmem_true in E as [v E]. apply dmem_true. exists v. rewrite dget_dset_ne by discriminate. exact E.
    - apply dmem_false in E. apply dmem_false. rewrite dget_dset_ne by discriminate. exact E. }
  destruct (i_logs st) as [|l0 ls].
  - destruct fail; injection H as <- <- <-.
    + split; [discriminate|]. split; [reflexivity|]. split; [discriminate|intros (X & _); discriminate].
    + split; [eauto|]. split; [discriminate|]. split; [auto 10|reflexivity].
  - rewrite L in H. destruct (dmem "__log_messages__"%string d) eqn:E.
    + injection H as <- <- <-. split; [discriminate|]. split; [reflexivity|]. split; [discriminate|]. intros (_ & _ & _ & [X|X]); discriminate.
    + destruct fail; injection H as <- <- <-.
      * split; [discriminate|]. split; [reflexivity|]. split; [discriminate|intros (X & _); discriminate].
      * split; [eauto|]. split; [discriminate|]. split; [auto 10|reflexivity].
Qed.
End Awaited.
Print Assumptions C38_awaited_sent.

Section Accepted.
Import RegistryModel PrimModel FieldModel EnumModel EnvModel ExportModel.
Context (valid word : string -> bool).
Context {C : Type} (cdefault : C -> option num).
Context (fround : kind -> flo -> flo).

(** When a channel is accepted: the environment is not finalized, the primitive exists and is
    not a half-precision float, the name gets an identifier of at least 1 and is not yet a channel, the
    enumeration (if any) is named by a word or by an identifier of at least 1 and exists, and the
    default suits the type. *)
Theorem C79_accepted : forall (x : xenv C) name r cmd en desc ctl d,
  snd (x_channel valid word fround cdefault x name r cmd en desc ctl d) = true <->
  e_finalized (x_env x) = false /\
  exists c n i, e_cell (x_env x) r = Some c /\ c_kind c <> Half /\
    r_register valid (e_names (x_env x)) name None = (n, Ret (Some i)) /\ 1 <= i /\ dmem name (e_chans (x_env x)) = false /\
    match en with None => True | Some key => (match key with inl w => word w = true | inr e => 1 <= e end) /\ enums_of (x_enums x) key <> None end /\
    match (match d with Some v => Some v | None => match ctl with Some t => cdefault t | None => None end end) with
    | None => True
    | Some (NInt _) => k_is_int (c_kind c) = true
    | Some (NBool _) => k_is_float (c_kind c) = false
    | Some (NFlo _) => k_is_float (c_kind c) = true
    end.
Proof.
  intros x name r cmd en desc ctl d. unfold x_channel. cbv zeta. destruct (e_finalized (x_env x)) eqn:F.
  { split; [discriminate|intros [X _]; discriminate]. }
  destruct (e_cell (x_env x) r) as [c|] eqn:Ec.
  2:{ split; [discriminate|]. intros (_ & c & n & i & X & _). discriminate. }
  destruct (r_register valid (e_names (x_env x)) name None) as [n [[i|]| |]] eqn:R;
    try (split; [discriminate|intros (_ & c' & n' & i' & _ & _ & X & _); discriminate]).
  replace (match d with Some v => Some v | None => match ctl with Some t => cdefault t | None => None end end) with (dflt cdefault d ctl) by (destruct d; reflexivity).
  set (dd := dflt cdefault d ctl).
  assert (Sch : chan_schema word (c_kind c) i en && default_fits (c_kind c) dd = true <->
    c_kind c <> Half /\ 1 <= i /\ (match en with None => True | Some (inl w) => word w = true | Some (inr e) => 1 <= e end) /\
    match dd with None => True | Some (NInt _) => k_is_int (c_kind c) = true | Some (NBool _) => k_is_float (c_kind c) = false | Some (NFlo _) => k_is_float (c_kind c) = true end).
  { unfold chan_schema, enum_schema, default_fits. rewrite !andb_true_iff, Z.leb_le, negb_true_iff.
    assert (K : (match c_kind c with Half => true | _ => false end) = false <-> c_kind c <> Half) by (destruct (c_kind c); split; congruence).
    rewrite K. destruct en as [[w|e]|]; [|rewrite Z.leb_le|]; destruct dd as [[z|b|f]|]; rewrite ?negb_true_iff; tauto. }
  fold dd. destruct (chan_schema word (c_kind c) i en && default_fits (c_kind c) dd) eqn:B.
  - apply proj1 in Sch. specialize (Sch eq_refl). destruct Sch as (S1 & S2 & S3 & S4).
    unfold e_channel. rewrite F, R. assert (Lt : Nat.ltb r (List.length (e_heap (x_env x))) = true).
    { apply Nat.ltb_lt, nth_error_Some. unfold e_cell in Ec. rewrite Ec. discriminate. }
    rewrite Lt. cbn [negb]. cbv zeta. change (e_chans (with_names (x_env x) n)) with (e_chans (x_env x)).
    destruct (dmem name (e_chans (x_env x))) eqn:M; cbn [snd].
    + split; [discriminate|]. intros (_ & c' & n' & i' & _ & _ & _ & _ & X & _). discriminate.
    + destruct en as [key|].
      * destruct (enums_of (x_enums x) key) as [m|] eqn:Em; cbn [snd].
        -- split; [intros _|reflexivity]. split; [reflexivity|]. exists c, n, i. repeat (split; [auto; fail|]). split; [split; [destruct key; exact S3|discriminate]|exact S4].
        -- split; [discriminate|]. intros (_ & c' & n' & i' & _ & _ & _ & _ & _ & [_ X] & _). contradiction.
      * split; [intros _|reflexivity]. split; [reflexivity|]. exists c, n, i. repeat (split; [auto; fail|]). exact S4.
  - cbn [snd]. split; [discriminate|]. intros (_ & c' & n' & i' & X1 & X2 & X3 & X4 & X5 & X6 & X7). exfalso. injection X1 as <-. injection X3 as <- <-.
    apply diff_false_true. apply Sch. split; [exact X2|]. split; [exact X4|]. split; [|exact X7]. destruct en as [[w|e]|]; tauto.
Qed.
End Accepted.
Print Assumptions C79_accepted.
Example C79_accepted_case :
  let x := ExportModel.mkX (EnvModel.e_prim (EnvModel.e_prim EnvModel.e_new PrimModel.U8 []) PrimModel.Half []) [] (RegistryModel.mkRegistry [] (EnvModel.e_names EnvModel.e_new)) in
  let accepts := fun r en d => snd (ExportModel.x_channel FieldModel.valid_name FieldModel.valid_name (fun _ f => f) (fun _ : unit => None) x "a" r true en None None d) in
  accepts 0%nat None (Some (EnvModel.NInt 3)) = true /\ accepts 1%nat None None = false /\ accepts 2%nat None None = false /\
  accepts 0%nat (Some (inr 1)) None = false /\ accepts 0%nat None (Some (EnvModel.NFlo EnvModel.FNan)) = false.
Proof. vm_compute. auto. Qed.
Example C38_awaited_sent_case :
  let st := IfaceModel.i_new (IfaceModel.mkIdent 1 2) in
  (exists m, snd (fst (IfaceModel.wait_json st [("a", IfaceModel.JNull)]%string false)) = [m]) /\
  snd (IfaceModel.wait_json st [("__id__", IfaceModel.JInt 1)]%string false) = false.
Proof. vm_compute. eauto. Qed.
