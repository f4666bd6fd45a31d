(** C97: hosts and the sizes of packets. *)
From Verif Require Import Base BaseLemmas HostModel HostSpec.
From Coq Require Import ZifyBool ZifyNat Lia.
Open Scope list_scope.

(** ** Hosts *)
(** The address of a socket, of either family, gives back the host it belongs to. *)
Theorem C97_from_address : forall h d, hd PNone (fields h) <> PNone -> normalize (map AV (fields h)) d = Some h.
Proof. intros [n p|n p f s] d H; cbn in H; destruct n; try reflexivity; congruence. Qed.
(** A host stays what it is. *)
Theorem C97_host_unchanged : forall h rest d, normalize (AH h :: rest) d = Some h.
Proof. reflexivity. Qed.
(** Two values make a host of the first family and three or four one of the second, with
    these values and zero for the others; too many are refused; no name means the
    default, of the family that is asked for. *)
Theorem C97_family : forall args d,
  match args with
  | [] | AV PNone :: _ => exists h, normalize args d = Some h /\ family_of h = d /\ fields h = padded [PStr ""] d
  | AH h :: _ => normalize args d = Some h
  | AV n :: rest => forall vals, rest = map AV vals ->
      (normalize args d = None <-> (5 <= List.length args)%nat) /\
      (forall h, normalize args d = Some h ->
         (family_of h = F4 <-> (List.length args <= 2)%nat) /\ fields h = padded (n :: vals) (family_of h))
  end.
Proof.
  intros args d.
  assert (G : forall n vals, n <> PNone ->
    (normalize (map AV (n :: vals)) d = None <-> (5 <= List.length (map AV (n :: vals)))%nat) /\
    (forall h, normalize (map AV (n :: vals)) d = Some h ->
       (family_of h = F4 <-> (List.length (map AV (n :: vals)) <= 2)%nat) /\ fields h = padded (n :: vals) (family_of h))).
  { intros n vals N. split.
    - destruct n; [congruence| |]; (destruct vals as [|a [|b [|c [|e vals]]]]; cbn; split; intros H; try discriminate; try lia; reflexivity).
    - intros h H. destruct n; [congruence| |]; (destruct vals as [|a [|b [|c [|e vals]]]]; cbn in H; try discriminate; injection H as <-; cbn; (split; [split; intros; try discriminate; try lia; reflexivity|reflexivity])). }
  destruct args as [|[[|s|z]|h] rest]; cbn [normalize].
  - exists (host_default d). destruct d; repeat split.
  - exists (host_default d). destruct d; repeat split.
  - intros vals ->. apply (G (PStr s) vals). discriminate.
  - intros vals ->. apply (G (PInt z) vals). discriminate.
  - reflexivity.
Qed.
(** A port given with no name, or with a host, is dropped. *)
Theorem C97_port_dropped_refuted : forall p d h,
  normalize [AV PNone; AV p] d = Some (host_default d) /\ normalize [AH h; AV p] d = Some h.
Proof. intros. split; reflexivity. Qed.
(** An address of the second family with a port is taken for one of the first. *)
Theorem C97_v6_address_refuted : forall s p d, normalize [AV (PStr s); AV p] d = Some (H4 (PStr s) p).
Proof. reflexivity. Qed.
(** [zero_port] changes the port and nothing else. *)
Theorem C97_zero_port : forall h,
  fields (zero_port h) = match fields h with n :: _ :: rest => n :: PInt 0 :: rest | l => l end /\
  family_of (zero_port h) = family_of h /\ zero_port (zero_port h) = zero_port h.
Proof.
  intros [n p|n p f s]; cbn; destruct (is_zero p) eqn:Z; cbn; rewrite ?Z; repeat split;
    destruct p as [| |z]; try discriminate; cbn in Z; apply Z.eqb_eq in Z; subst z; reflexivity.
Qed.

(** ** One socket *)
(** The result is what the system says, and the fallback if it says nothing or zero; so
    it is not zero unless the fallback is. *)
Theorem C97_result : forall y o fallback o' p r, socket_discover y o fallback = (o', p, r) ->
  (r = None <-> y_probe y = Raises) /\
  (forall v, r = Some v ->
     match y_mtu y with Some m => (m <> 0 -> v = m) /\ (m = 0 -> v = fallback) | None => v = fallback end /\
     (fallback <> 0 -> v <> 0)).
Proof.
  intros y o fallback o' p r E. unfold socket_discover in E.
  destruct (y_probe y) eqn:P; injection E as <- <- <-.
  3: { split; [split; reflexivity|discriminate]. }
  all: split; [split; discriminate|].
  all: intros v V; injection V as <-; destruct (y_mtu y) as [m|]; [destruct (m =? 0) eqn:M|]; cbn [negb Z.eqb];
    repeat split; intros; try lia; auto.
Qed.
(** The probe is sent with fragmenting forbidden if that can be asked for, and
    afterwards the socket is as before: if its option can be read and written and no
    other exception than OSError comes up. *)
Theorem C97_option_restored_partial : forall y o fallback o' p r, socket_discover y o fallback = (o', p, r) ->
  (y_set y = true -> p = 2) /\ (y_set y = false -> p = o) /\
  (y_get y = true -> y_restore y = true -> y_probe y <> Raises -> o' = o).
Proof.
  intros y o fallback o' p r E. unfold socket_discover in E.
  destruct (y_probe y), (y_set y), (y_get y), (y_restore y); injection E as <- <- <-; repeat split; intros; try discriminate; try reflexivity; congruence.
Qed.
(** Exactly when it is not. *)
Theorem C97_option_restored_refuted : forall y o fallback o' p r, socket_discover y o fallback = (o', p, r) ->
  o <> 2 -> (o' <> o <-> y_set y = true /\ (y_probe y = Raises \/ y_get y = false \/ y_restore y = false)).
Proof.
  intros y o fallback o' p r E N. unfold socket_discover, IP_PMTUDISC_DO in E.
  destruct (y_probe y), (y_set y), (y_get y), (y_restore y); injection E as <- <- <-; intuition congruence.
Qed.

(** ** Calls *)
Lemma pv_eqb_refl v : pv_eqb v v = true.
Proof. destruct v; cbn; [reflexivity|apply String.eqb_refl|apply Z.eqb_refl]. Qed.
Lemma pv_eqb_eq a b : pv_eqb a b = true -> a = b.
Proof. destruct a, b; cbn; try discriminate; intros H; [reflexivity|apply String.eqb_eq in H|apply Z.eqb_eq in H]; congruence. Qed.
Lemma pvs_eqb_eq : forall a b, pvs_eqb a b = true <-> a = b.
Proof.
  induction a as [|x a IH]; intros [|y b]; cbn; split; try discriminate; try reflexivity.
  - intros H. apply andb_true_iff in H. destruct H as (H & H2). apply pv_eqb_eq in H. apply IH in H2. congruence.
  - intros H. injection H as <- <-. rewrite pv_eqb_refl. apply IH. reflexivity.
Qed.
Lemma host_eqb_eq a b : host_eqb a b = true <-> a = b.
Proof.
  unfold host_eqb. rewrite pvs_eqb_eq. destruct a, b; cbn; split; intros H; try discriminate; try (injection H as <- <-; reflexivity); try (injection H as <- <- <- <-; reflexivity).
Qed.
Lemma key_eqb_eq a b : key_eqb a b = true <-> a = b.
Proof.
  unfold key_eqb. rewrite !andb_true_iff, !host_eqb_eq, !Z.eqb_eq, Nat.eqb_eq. destruct a, b; cbn. split.
  - intros (((((-> & ->) & ->) & ->) & ->) & ->). reflexivity.
  - intros H. injection H as <- <- <- <- <- <-. repeat split.
Qed.
Lemma key_eqb_dec a b : key_eqb a b = if key_dec a b then true else false.
Proof. destruct (key_dec a b) as [E|E]; [apply key_eqb_eq, E|]. destruct (key_eqb a b) eqn:X; [apply key_eqb_eq in X; contradiction|reflexivity]. Qed.
Lemma key_eqb_refl k : key_eqb k k = true.
Proof. apply key_eqb_eq. reflexivity. Qed.

Lemma discover_measured k f w : lookup k (cache w) = None ->
  snd (host_discover k f w) = measured k f /\
  cache (fst (host_discover k f w)) = cache w ++ match measured k f with Some v => [(k, v)] | None => [] end /\
  open_socks (fst (host_discover k f w)) = (open_socks w + if leaves_open k f then 1 else 0)%nat.
Proof.
  intros L. unfold host_discover. rewrite L. destruct f as [| | |y o]; cbn [measured leaves_open fst snd cache open_socks]; rewrite ?app_nil_r; try (repeat split; lia).
  unfold socket_discover. destruct (y_probe y); cbn [fst snd cache open_socks]; rewrite ?app_nil_r; try (repeat split; lia);
    destruct (y_mtu y) as [m|]; cbn; try (destruct (m =? 0) eqn:M; cbn); repeat split; lia.
Qed.
Lemma lookup_app k l1 : forall l2, lookup k (l1 ++ l2) = match lookup k l1 with Some v => Some v | None => lookup k l2 end.
Proof. induction l1 as [|[k' v] l1 IH]; intros l2; cbn; [reflexivity|]. destruct (key_eqb k' k); [reflexivity|apply IH]. Qed.

Lemma discover_cache k' f w k : lookup k (cache (fst (host_discover k' f w))) =
  match lookup k (cache w) with Some v => Some v | None => if key_eqb k' k then measured k' f else None end.
Proof.
  destruct (lookup k' (cache w)) as [v|] eqn:L.
  - unfold host_discover. rewrite L. cbn [fst]. destruct (lookup k (cache w)) eqn:L2; [reflexivity|].
    destruct (key_eqb k' k) eqn:E; [|reflexivity]. apply key_eqb_eq in E. congruence.
  - destruct (discover_measured k' f w L) as (_ & C & _). rewrite C, lookup_app.
    destruct (lookup k (cache w)); [reflexivity|]. destruct (measured k' f) as [v|]; cbn; destruct (key_eqb k' k); reflexivity.
Qed.
Lemma calls_cache : forall h w k, lookup k (cache (fst (calls h w))) =
  match lookup k (cache w) with Some v => Some v | None => first_result k h end.
Proof.
  induction h as [|[k' f] h IH]; intros w k; cbn [calls]; [cbn; destruct (lookup k (cache w)); reflexivity|].
  pose proof (discover_cache k' f w k) as D. destruct (host_discover k' f w) as [w1 r]. cbn [fst] in D.
  specialize (IH w1 k). destruct (calls h w1) as [w2 rs]. cbn [fst] in *. rewrite IH, D. cbn [first_result].
  destruct (lookup k (cache w)); [reflexivity|]. rewrite key_eqb_dec. destruct (key_dec k' k); [|reflexivity]. destruct (measured k' f); reflexivity.
Qed.

(** The answer to every call of every history: the first result that was found with
    these arguments, or what is measured now if there was none. *)
Theorem C97_answer : forall h k f,
  snd (host_discover k f (fst (calls h w0))) = match first_result k h with Some v => Some v | None => measured k f end.
Proof.
  intros h k f. pose proof (calls_cache h w0 k) as C. cbn [w0 cache lookup] in C.
  destruct (lookup k (cache (fst (calls h w0)))) as [v|] eqn:L.
  - unfold host_discover. rewrite L. rewrite <- C. reflexivity.
  - rewrite <- C. apply discover_measured. exact L.
Qed.
(** So a size that changed is never seen. *)
Theorem C97_current_refuted : forall k h v f, first_result k h = Some v ->
  snd (host_discover k f (fst (calls h w0))) = Some v.
Proof. intros k h v f H. rewrite C97_answer, H. reflexivity. Qed.
(** A call that fails is tried again. *)
Theorem C97_retried : forall k h f, first_result k h = None -> snd (host_discover k f (fst (calls h w0))) = measured k f.
Proof. intros k h f H. rewrite C97_answer, H. reflexivity. Qed.

(** Sockets: a call that returns leaves none open, and one that raises does not close
    its own, unless there was none. *)
Theorem C97_sockets : forall k f w, let '(w', r) := host_discover k f w in
  (r <> None -> open_socks w' = open_socks w) /\
  (r = None -> open_socks w' = (open_socks w + if leaves_open k f then 1 else 0)%nat).
Proof.
  intros k f w. destruct (lookup k (cache w)) as [v|] eqn:L.
  - unfold host_discover. rewrite L. split; [reflexivity|discriminate].
  - destruct (discover_measured k f w L) as (R & _ & O). destruct (host_discover k f w) as [w' r]. cbn [fst snd] in *. subst r.
    split; [|intros _; exact O]. intros N. rewrite O. destruct f as [| | |y o]; cbn in *; try congruence. destruct (y_probe y); try congruence; lia.
Qed.
(** The local end of a probe is the local host of its call with no particular port, so
    it cannot clash with the port of the connection it is made for; one is bound for
    each call that gets as far as connecting and has no answer yet. *)
Theorem C97_bound : forall k f h,
  let w := fst (calls h w0) in
  bound (fst (host_discover k f w)) =
    bound w ++ match first_result k h, f with
               | None, NotConnected | None, Probed _ _ => [zero_port (q_local k)]
               | _, _ => []
               end.
Proof.
  intros k f h. cbv zeta. pose proof (calls_cache h w0 k) as C. cbn [w0 cache lookup] in C. rewrite <- C.
  unfold host_discover. destruct (lookup k (cache (fst (calls h w0)))) as [v|]; [symmetry; apply app_nil_r|].
  destruct f as [| | |y o]; cbn [fst bound]; rewrite ?app_nil_r; try reflexivity.
  destruct (snd (socket_discover y o (q_fallback k))); reflexivity.
Qed.
Theorem C97_local_port_free : forall h,
  Forall (fun b => (exists n rest, fields b = n :: PInt 0 :: rest) /\ exists k f, In (k, f) h /\ b = zero_port (q_local k))
    (bound (fst (calls h w0))).
Proof.
  assert (Zp : forall b, exists n rest, fields (zero_port b) = n :: PInt 0 :: rest).
  { intros b. destruct (C97_zero_port b) as (-> & _). destruct b; cbn; eauto. }
  assert (G : forall h w (P : host -> Prop), (forall k f, In (k, f) h -> P (zero_port (q_local k))) ->
     Forall P (bound w) -> Forall P (bound (fst (calls h w)))).
  { induction h as [|[k f] h IH]; intros w P HP H; [exact H|]. cbn [calls].
    assert (H1 : Forall P (bound (fst (host_discover k f w)))).
    { unfold host_discover. destruct (lookup k (cache w)); [exact H|]. pose proof (HP k f (or_introl eq_refl)).
      destruct f as [| | |y o]; cbn [fst bound]; auto; [apply Forall_app; auto|].
      destruct (snd (socket_discover y o (q_fallback k))); cbn [fst bound]; apply Forall_app; auto. }
    destruct (host_discover k f w) as [w1 r]. cbn [fst] in H1.
    specialize (IH w1 P (fun k' f' X => HP k' f' (or_intror X)) H1). destruct (calls h w1) as [w2 rs]. exact IH. }
  intros h. apply G; [|constructor]. intros k f I. split; [apply Zp|exists k, f; auto].
Qed.
(** The cache has one entry for each tuple of arguments that ever had a result and
    loses none: a probe function that is made anew for every call is kept, with
    everything it refers to. *)
Theorem C97_kept_for_ever : forall h k, In k (map fst (cache (fst (calls h w0)))) <-> first_result k h <> None.
Proof.
  intros h k. pose proof (calls_cache h w0 k) as C. cbn [w0 cache lookup] in C. rewrite <- C.
  generalize (cache (fst (calls h w0))). induction l as [|[k' v] l IH]; cbn; [tauto|].
  destruct (key_eqb k' k) eqn:E.
  - apply key_eqb_eq in E. split; [discriminate|auto].
  - rewrite IH. split; [intros [->|H]; [rewrite key_eqb_refl in E; discriminate|exact H]|auto].
Qed.
Theorem C97_one_entry : forall h, NoDup (map fst (cache (fst (calls h w0)))).
Proof.
  assert (S1 : forall w k f, NoDup (map fst (cache w)) -> NoDup (map fst (cache (fst (host_discover k f w))))).
  { intros w k f H. destruct (lookup k (cache w)) as [v|] eqn:L.
    - unfold host_discover. rewrite L. exact H.
    - destruct (discover_measured k f w L) as (_ & -> & _). destruct (measured k f); [|rewrite app_nil_r; exact H].
      rewrite map_app. cbn [map fst].
      assert (N : ~ In k (map fst (cache w))).
      { clear H. induction (cache w) as [|[k' v] l IH]; cbn in *; [tauto|]. destruct (key_eqb k' k) eqn:E; [discriminate|].
        intros [->|X]; [rewrite key_eqb_refl in E; discriminate|apply (IH L X)]. }
      clear L. induction (map fst (cache w)) as [|x l IH]; cbn; [constructor; [exact (fun x => x)|constructor]|].
      inversion H as [|? ? Hx Hl]; subst. constructor.
      + intros X. apply in_app_or in X. destruct X as [X|[X|[]]]; [contradiction|]. apply N. left. symmetry. exact X.
      + apply IH; [exact Hl|]. intros X. apply N. right. exact X. }
  assert (G : forall h w, NoDup (map fst (cache w)) -> NoDup (map fst (cache (fst (calls h w))))).
  { induction h as [|[k f] h IH]; intros w H; [exact H|]. cbn [calls]. pose proof (S1 w k f H) as H1.
    destruct (host_discover k f w) as [w1 r]. specialize (IH w1 H1). destruct (calls h w1) as [w2 rs]. exact IH. }
  intros h. apply G. constructor.
Qed.
(** The arguments are passed on as they are given. *)
Theorem C97_arguments : forall dest local size fallback kind create,
  match discover_key dest local size fallback kind create with
  | None => normalize dest F4 = None
  | Some k =>
      normalize dest F4 = Some (q_dest k) /\ (forall l, local = Some l -> q_local k = l) /\
      q_size k = size /\ q_fallback k = fallback /\ q_kind k = kind /\ q_create k = create
  end.
Proof.
  intros. unfold discover_key. destruct (normalize dest F4) as [d|]; [|reflexivity].
  destruct local as [l|]; cbn; repeat split; congruence.
Qed.
(** Without a local host the probe is made from the family of the destination. *)
Theorem C97_same_family : forall dest size fallback kind create k,
  discover_key dest None size fallback kind create = Some k ->
  family_of (q_local k) = family_of (q_dest k) /\ normalize dest F4 = Some (q_dest k).
Proof.
  intros dest size fallback kind create k H. unfold discover_key in H. destruct (normalize dest F4) as [d|]; [|discriminate].
  cbn in H. injection H as <-. cbn. split; [destruct (family_of d); reflexivity|reflexivity].
Qed.
(** The default probe is the largest payload an Ethernet packet has room for after the
    largest headers. *)
Theorem C97_default_probe : UDP_DEFAULT_MTU + UDP_HEADER_SIZE = ETHERNET_MTU /\ UDP_DEFAULT_MTU = 1432.
Proof. split; reflexivity. Qed.

(** ** Cases *)
Definition ex_host : host := H4 (PStr "10.0.0.1") (PInt 80).
Definition ex_key : key := mkKey (host_default F4) ex_host 1432 1500 2 0.
Definition ex_sys (m : option Z) (p : probe) : sysenv := mkSys true true true p m.
Example C97_hosts_case :
  normalize [AV (PStr "::1"); AV (PInt 80); AV (PInt 0); AV (PInt 3)] F4 = Some (H6 (PStr "::1") (PInt 80) (PInt 0) (PInt 3)) /\
  normalize (map AV (fields ex_host)) F6 = Some ex_host /\ zero_port ex_host = H4 (PStr "10.0.0.1") (PInt 0) /\
  normalize (repeat (AV (PInt 1)) 5) F4 = None.
Proof. repeat split. Qed.
Example C97_option_case :
  socket_discover (ex_sys (Some 1400) Refused) 1 1500 = (1, 2, Some 1400) /\
  socket_discover (ex_sys None Sent) 1 1500 = (1, 2, Some 1500) /\
  socket_discover (ex_sys None Raises) 1 1500 = (2, 2, None).
Proof. repeat split. Qed.
Example C97_answers_case :
  calls [(ex_key, NotConnected); (ex_key, Probed (ex_sys (Some 1400) Sent) 1); (ex_key, Probed (ex_sys (Some 9000) Sent) 1)] w0 =
    (mkWorld [(ex_key, 1400)] 1 [H4 (PStr "") (PInt 0); H4 (PStr "") (PInt 0)], [None; Some 1400; Some 1400]) /\
  first_result ex_key [(ex_key, NotConnected); (ex_key, Probed (ex_sys (Some 1400) Sent) 1)] = Some 1400.
Proof. split; vm_compute; reflexivity. Qed.
Example C97_same_family_case : exists k, discover_key [AV (PStr "::1"); AV (PInt 80); AV (PInt 0); AV (PInt 0)] None 1432 1500 2 0 = Some k /\ family_of (q_local k) = F6.
Proof. eexists. split; reflexivity. Qed.

Print Assumptions C97_from_address.
Print Assumptions C97_host_unchanged.
Print Assumptions C97_family.
Print Assumptions C97_port_dropped_refuted.
Print Assumptions C97_v6_address_refuted.
Print Assumptions C97_zero_port.
Print Assumptions C97_result.
Print Assumptions C97_option_restored_partial.
Print Assumptions C97_option_restored_refuted.
Print Assumptions C97_answer.
Print Assumptions C97_current_refuted.
Print Assumptions C97_retried.
Print Assumptions C97_sockets.
Print Assumptions C97_local_port_free.
Print Assumptions C97_kept_for_ever.
Print Assumptions C97_one_entry.
Print Assumptions C97_same_family.
Print Assumptions C97_arguments.
Print Assumptions C97_bound.
Print Assumptions C97_default_probe.
