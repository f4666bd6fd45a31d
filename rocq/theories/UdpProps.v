(** C86: the datagrams of a UDP connection. *)
From Coq Require Import ZifyBool ZifyNat Lia.
From Verif Require Import Base BaseLemmas UdpModel UdpSpec UdpProofs.
Open Scope list_scope.
Open Scope Z_scope.

(** ** A connection created with a remote address. *)
(** Whatever happens to it afterwards (restarts, other addresses asked for,
    whatever its handler sends), everything it puts on the network goes there. *)
Theorem C86_connected_peer :
  forall handler n k d n1 c ops r,
    k_remote k = Some r -> create n true k d = (n1, Some c) ->
    exists l, n_sent (fst (run handler n1 c ops)) = n_sent n ++ l /\ Forall (fun e => snd (fst e) = r) l.
Proof.
  intros handler n k d n1 c ops r Hr Hc. destruct (to_peer_create r k n d n1 c Hr Hc) as (H & _).
  pose proof (to_peer_run r k (n_sent n) handler ops n1 c Hr H) as G. destruct (run handler n1 c ops) as [n2 c2].
  destruct G as (_ & _ & _ & l & E & F). exists l. split; [exact E|exact F].
Qed.
Print Assumptions C86_connected_peer.

(** Its remote address stays known, and while its socket is open a message is sent
    as it is, once. *)
Lemma connected_remote r k n0 handler ops n c : k_remote k = Some r -> to_peer r k n0 n c -> c_remote c = Some r ->
  Forall keeps_remote ops -> let '(n', c') := run handler n c ops in to_peer r k n0 n' c' /\ c_remote c' = Some r.
Proof.
  intros Hr H R Ho. apply (run_inv (fun n c => to_peer r k n0 n c /\ c_remote c = Some r) handler keeps_remote); auto.
  - intros n1 c1 data a f (A & B). pose proof (to_peer_send r k n0 n1 c1 data a f A) as G. pose proof (sendto_conn n1 c1 data a f) as G1.
    destruct (sendto n1 c1 data a f) as [[n' c'] b]. destruct G1 as (e & v & ->). auto.
  - intros n1 c1 c2 ((A & B & C & L) & D) T _ R' K. unfold to_peer, cap in *. rewrite T, K, R'. auto.
  - intros n1 c1 a _ [].
  - intros n1 c1 ((A & B & C & L) & D). split; [|exact D]. split; [exact A|]. split; [exact B|]. unfold cap, close in *. cbn. rewrite Nat.eqb_refl. auto.
  - intros n1 c1 d (H1 & D) _. pose proof (to_peer_restart r k n0 n1 c1 d Hr H1) as G. destruct H1 as (A & _).
    unfold restart in *. rewrite A in *. destruct (endpoint n1 k d) as [n' [| |t]] eqn:E; auto. split; [exact G|].
    cbn. apply (endpoint_remote n1 k d r n' t Hr E).
Qed.
Theorem C86_connected_sends :
  forall handler n k d n1 c ops r data,
    k_remote k = Some r -> create n true k d = (n1, Some c) -> Forall keeps_remote ops -> data <> [] ->
    let '(n2, c2) := run handler n1 c ops in
    c_remote c2 = Some r /\
    (s_open (n_sock n2 (tr_sock (c_tr c2))) = true ->
     let '(n3, _, raised) := send_binary n2 c2 data Leaves in
     raised = false /\ n_sent n3 = n_sent n2 ++ [(s_local (n_sock n2 (tr_sock (c_tr c2))), r, data)]).
Proof.
  intros handler n k d n1 c ops r data Hr Hc Ho Hd. destruct (to_peer_create r k n d n1 c Hr Hc) as (H & R & _).
  pose proof (connected_remote r k (n_sent n) handler ops n1 c Hr H R Ho) as G. destruct (run handler n1 c ops) as [n2 c2].
  destruct G as ((A & B & C & _) & R2). split; [exact R2|]. intros O. unfold send_binary, sendto, tr_sendto.
  destruct data as [|z data]; [congruence|]. rewrite R2, B, addr_eqb_refl. cbn [negb]. cbn zeta. rewrite O. unfold cap in C. rewrite C. cbn. auto.
Qed.
Print Assumptions C86_connected_sends.

(** ** A connection that is not connected. *)
(** Until it is restarted, it sends to the address given at creation, or set
    since, and to whatever other address it is asked to. *)
Lemma endpoint_free n k d n' t : k_remote k = None -> k_sock k = None -> endpoint n k d = (n', MOk t) ->
  tr_addr t = None /\ s_peer (n_sock n' (tr_sock t)) = None /\ s_open (n_sock n' (tr_sock t)) = true /\
  s_local (n_sock n' (tr_sock t)) = choose (k_local k) (d_addr d) /\ n_sent n' = n_sent n.
Proof.
  intros Hr Hs. unfold endpoint. destruct (k_backoff k); [discriminate|]. rewrite Hr, Hs.
  destruct (k_local k), (k_family k); try discriminate; (destruct (d_refused d); [discriminate|]; intros Q; injection Q as <- <-; cbn; rewrite Nat.eqb_refl; auto).
Qed.
Lemma create_free n k d n1 c : create n false k d = (n1, Some c) ->
  k_sock k = None /\ c_remote c = k_remote k /\ tr_addr (c_tr c) = None /\ s_peer (cap n1 c) = None /\ s_open (cap n1 c) = true /\
  n_sent n1 = n_sent n /\ c_seen c = [] /\ c_queue c = [] /\ c_enabled c = true /\ c_local c = s_local (cap n1 c) /\
  c_kw c = match k_local k with Some _ => mkKw (k_local k) None None (k_family k) (k_backoff k)
           | None => mkKw (Some ("0.0.0.0"%string, 0)) None None true (k_backoff k) end.
Proof.
  unfold create. set (k1 := match k_local k with Some _ => _ | None => _ end).
  assert (K : k_remote k1 = None /\ k_sock k1 = k_sock k /\ k_local k1 <> None) by (subst k1; destruct (k_local k); cbn; repeat split; congruence).
  destruct K as (K1 & K2 & K3).
  destruct (endpoint n (no_backoff k1) d) as [n' [| |t]] eqn:E; try discriminate.
  assert (S : k_sock k = None).
  { rewrite <- K2. unfold endpoint, no_backoff in E. cbn in E. destruct (k_sock k1); [|reflexivity]. exfalso.
    destruct (k_local k1); [discriminate|congruence]. }
  intros Q; injection Q as <- <-. destruct (endpoint_free n (no_backoff k1) d n' t K1 (eq_trans K2 S) E) as (E1 & E2 & E3 & E4 & E5).
  assert (K4 : k1 = match k_local k with Some _ => mkKw (k_local k) None None (k_family k) (k_backoff k)
           | None => mkKw (Some ("0.0.0.0"%string, 0)) None None true (k_backoff k) end) by (subst k1; rewrite S; reflexivity).
  split; [exact S|]. unfold cap. destruct (k_remote k); cbn; rewrite E2; repeat split; auto.
Qed.
Theorem C86_unconnected_sends :
  forall handler n k d n1 c ops data a,
    create n false k d = (n1, Some c) -> Forall no_restart ops -> data <> [] ->
    let '(n2, c2) := run handler n1 c ops in
    c_remote c2 = aimed (k_remote k) ops /\
    (s_open (n_sock n2 (tr_sock (c_tr c2))) = true ->
     (let '(n3, _, raised) := sendto n2 c2 data (Some a) Leaves in
      raised = false /\ n_sent n3 = n_sent n2 ++ [(c_local c, a, data)]) /\
     (aimed (k_remote k) ops = Some a ->
      let '(n3, _, raised) := send_binary n2 c2 data Leaves in
      raised = false /\ n_sent n3 = n_sent n2 ++ [(c_local c, a, data)])).
Proof.
  intros handler n k d n1 c ops data a Hc Ho Hd. destruct (create_free n k d n1 c Hc) as (S & R & A & P & _ & _ & _ & _ & _ & L & _).
  pose proof (run_reads handler ops n1 c Ho) as G. destruct (run handler n1 c ops) as [n2 c2].
  destruct G as ((T & _ & _ & P2 & L2 & _) & R2 & _). rewrite R in R2. split; [exact R2|]. intros O.
  assert (Q : let '(n3, _, raised) := sendto n2 c2 data (Some a) Leaves in
      raised = false /\ n_sent n3 = n_sent n2 ++ [(c_local c, a, data)]).
  { unfold sendto, tr_sendto. destruct data as [|z data]; [congruence|]. rewrite T, A. cbn zeta. rewrite T in O. rewrite O.
    unfold cap in P, P2, L, L2. rewrite T in P2, L2. rewrite P2, P. cbn. rewrite L2, L. auto. }
  split; [exact Q|]. intros Aim. unfold send_binary. rewrite R2, Aim. exact Q.
Qed.
Print Assumptions C86_unconnected_sends.

(** Restarting forgets where to send to, always; the next message is not sent and
    ends the transport, although the connection stays enabled. *)
Theorem C86_restart_forgets_refuted :
  forall handler n k d n1 c ops d' n2 c2 data f,
    create n false k d = (n1, Some c) -> Forall no_restart ops -> run handler n1 c ops = (n2, c2) ->
    c_enabled c2 = false -> k_backoff k = false -> d_refused d' = false -> data <> [] ->
    let '(n3, c3, raised) := step handler n2 c2 (ORestart d') in
    raised = false /\ c_enabled c3 = true /\ c_remote c3 = None /\
    let '(n4, c4, raised') := step handler n3 c3 (OSend data f) in
    raised' = false /\ n_sent n4 = n_sent n3 /\ s_open (n_sock n4 (tr_sock (c_tr c4))) = false /\ c_enabled c4 = true.
Proof.
  intros handler n k d n1 c ops d' n2 c2 data f Hc Ho Er En Hb Hd Hdata.
  destruct (create_free n k d n1 c Hc) as (S & R & A & P & _ & _ & _ & _ & _ & L & K).
  pose proof (run_reads handler ops n1 c Ho) as G. rewrite Er in G. destruct G as ((T & K2 & _) & _ & _).
  cbn [step]. rewrite En. unfold restart. rewrite K2, K, Hb.
  assert (E : exists t n3, endpoint n2 (match k_local k with Some _ => mkKw (k_local k) None None (k_family k) false
      | None => mkKw (Some ("0.0.0.0"%string, 0)) None None true false end) d' = (n3, MOk t) /\ tr_addr t = None /\
      s_peer (n_sock n3 (tr_sock t)) = None /\ s_open (n_sock n3 (tr_sock t)) = true).
  { destruct (k_local k) as [lo|]; unfold endpoint; cbn; rewrite Hd; eexists _, _; (split; [reflexivity|]); cbn; rewrite Nat.eqb_refl; auto. }
  destruct E as (t & n3 & E & E1 & E2 & E3). rewrite E. cbn. rewrite E2.
  split; [reflexivity|]. split; [reflexivity|]. split; [reflexivity|].
  unfold send_binary, sendto, tr_sendto. cbn. destruct data as [|z data]; [congruence|]. rewrite E1, E3, E2. cbn. rewrite Nat.eqb_refl. auto.
Qed.
Print Assumptions C86_restart_forgets_refuted.

(** ** A remote address set on a connected connection. *)
Theorem C86_other_remote_refuted :
  forall handler n k d n1 c r a data f,
    k_remote k = Some r -> create n true k d = (n1, Some c) -> a <> r -> data <> [] ->
    let '(n2, c2, _) := step handler n1 c (OSetRemote a) in
    c_remote c2 = Some a /\ step handler n2 c2 (OSend data f) = (n2, c2, true).
Proof.
  intros handler n k d n1 c r a data f Hr Hc Ha Hd. destruct (to_peer_create r k n d n1 c Hr Hc) as ((A & B & _) & _).
  cbn [step set_remote c_remote]. split; [reflexivity|]. unfold send_binary, sendto, tr_sendto. cbn.
  destruct data as [|z data]; [congruence|]. rewrite B, addr_eqb_neq by congruence. reflexivity.
Qed.
Print Assumptions C86_other_remote_refuted.
(** Created from a connected socket, the message silently goes to the peer. *)
Theorem C86_socket_other_remote_refuted :
  forall handler n k d n1 c s p a data,
    k_sock k = Some s -> s_peer (n_sock n s) = Some p -> create n true k d = (n1, Some c) -> data <> [] ->
    let '(n2, c2, _) := step handler n1 c (OSetRemote a) in
    c_remote c2 = Some a /\
    let '(n3, _, raised) := step handler n2 c2 (OSend data Leaves) in
    raised = false /\ n_sent n3 = n_sent n ++ [(c_local c, p, data)].
Proof.
  intros handler n k d n1 c s p a data Hs Hp. unfold create, endpoint. cbn. rewrite Hs.
  destruct (k_local k), (k_remote k), (k_family k); try discriminate. destruct (s_open (n_sock n s)) eqn:O; [|discriminate].
  intros Q; injection Q as <- <-. intros Hd. cbn. split; [reflexivity|]. unfold send_binary, sendto, tr_sendto. cbn.
  destruct data as [|z data]; [congruence|]. rewrite O, Hp. cbn. auto.
Qed.
Print Assumptions C86_socket_other_remote_refuted.

(** ** Sending without an address, and messages (size-prefixed). *)
(** A connection without a remote address is ended by sending, and not disabled. *)
Theorem C86_no_address_refuted :
  forall n c data f, tr_addr (c_tr c) = None -> s_peer (n_sock n (tr_sock (c_tr c))) = None -> c_remote c = None -> data <> [] ->
    let '(n', c', raised) := send_binary n c data f in
    raised = false /\ c_enabled c' = c_enabled c /\ n_sent n' = n_sent n /\ s_open (n_sock n' (tr_sock (c_tr c'))) = false.
Proof.
  intros n c data f A P R Hd. unfold send_binary, sendto, tr_sendto. destruct data as [|z data]; [congruence|]. rewrite R, A. cbn zeta.
  destruct (s_open (n_sock n (tr_sock (c_tr c)))) eqn:O; [rewrite P|]; cbn; [rewrite Nat.eqb_refl|rewrite O]; auto.
Qed.
Print Assumptions C86_no_address_refuted.
(** A message sent without naming an address does not go to the remote address
    of an unconnected connection. *)
Theorem C86_message_remote_refuted :
  forall frame n k d n1 c r data f,
    create n false k d = (n1, Some c) -> k_remote k = Some r -> frame data <> [] ->
    c_remote c = Some r /\
    let '(n2, c2, raised) := send_message frame n1 c data None f in
    raised = false /\ n_sent n2 = n_sent n /\ s_open (n_sock n2 (tr_sock (c_tr c2))) = false.
Proof.
  intros frame n k d n1 c r data f Hc Hr Hf. destruct (create_free n k d n1 c Hc) as (S & R & A & P & O & Se & _).
  split; [congruence|]. unfold send_message, sendto, tr_sendto. destruct (frame data) as [|z l]; [congruence|]. rewrite A. cbn zeta.
  unfold cap in *. rewrite O, P. cbn. rewrite Nat.eqb_refl. auto.
Qed.
Print Assumptions C86_message_remote_refuted.

(** ** Receiving. *)
(** Every datagram the system accepts is processed once, in order, with its
    sender; what is not processed yet is kept.  (A connected socket accepts what
    comes from its peer.) *)
Theorem C86_received_in_order :
  forall handler ops n c, Forall no_restart ops -> c_seen c = [] -> c_queue c = [] ->
    let '(n', c') := run handler n c ops in
    s_open (n_sock n' (tr_sock (c_tr c'))) = true ->
    c_seen c' ++ c_queue c' =
    flat_map (fun o => match o with
      | OReceive data from =>
          if match s_peer (n_sock n (tr_sock (c_tr c))) with Some p => addr_eqb p from | None => true end then [(data, from)] else []
      | _ => [] end) ops.
Proof.
  intros handler ops n c Ho Hs Hq. pose proof (run_reads handler ops n c Ho) as G. destruct (run handler n c ops) as [n' c'].
  destruct G as (_ & _ & G). intros O. rewrite (G O), Hs, Hq. cbn [app].
  assert (Q : forall l, receives (s_peer (cap n c)) l = flat_map (fun o => match o with
      | OReceive data from => if match s_peer (n_sock n (tr_sock (c_tr c))) with Some p => addr_eqb p from | None => true end then [(data, from)] else []
      | _ => [] end) l).
  { induction l as [|o l IH]; [reflexivity|]. cbn [receives flat_map]. rewrite IH. reflexivity. }
  apply Q.
Qed.
Print Assumptions C86_received_in_order.
(** What was received and not processed is lost by a restart. *)
Theorem C86_restart_drops_refuted :
  forall handler n c d, c_enabled c = false ->
    (let '(_, _, raised) := step handler n c (ORestart d) in raised = false) ->
    let '(_, c', _) := step handler n c (ORestart d) in
    c_enabled c' = true -> c_queue c' = [] /\ c_seen c' = c_seen c.
Proof.
  intros handler n c d En. cbn [step]. rewrite En. unfold restart. destruct (endpoint n (c_kw c) d) as [n' [| |t]]; cbn; auto; congruence.
Qed.
Print Assumptions C86_restart_drops_refuted.

(** ** The echo connection. *)
Definition nonempty (e : list Z * addr) : bool := match fst e with [] => false | _ => true end.
Definition answered (l : addr) (e : list Z * addr) : addr * addr * list Z := (l, snd e, fst e).
Lemma echo_run ops : forall n c, Forall quiet ops -> c_enabled c = true -> s_open (cap n c) = true ->
  tr_addr (c_tr c) = None -> s_peer (cap n c) = None ->
  let '(n', c') := run echo_handler n c ops in
  exists done, c_seen c' = c_seen c ++ done /\ c_seen c' ++ c_queue c' = c_seen c ++ c_queue c ++ receives None ops /\
    n_sent n' = n_sent n ++ map (answered (s_local (cap n c))) (filter nonempty done) /\
    c_enabled c' = true.
Proof.
  induction ops as [|o ops IH]; intros n c Ho En O T P.
  - exists []. cbn. rewrite !app_nil_r. auto.
  - inversion Ho as [|? ? H1 H2]; subst. cbn [run]. destruct o as [data f|data a f|a|data from|fs| | |d]; try (destruct H1; fail); cbn [step].
    + unfold received, cap in *. rewrite O, P. cbn [andb].
      set (c1 := mkConn _ _ _ _ _ _ _ _ _ _ _). specialize (IH n c1 H2 En O T P).
      destruct (run echo_handler n c1 ops) as [n' c']. destruct IH as (done & A & B & C & D). exists done. subst c1.
      cbn [c_seen c_queue c_tr] in *. split; [exact A|]. split; [|split; [exact C|exact D]]. rewrite B. cbn [receives got]. rewrite <- !app_assoc. reflexivity.
    + unfold read_one. rewrite En. destruct (c_queue c) as [|[data from] rest] eqn:Eq.
      { specialize (IH n c H2 En O T P). destruct (run echo_handler n c ops) as [n' c']. rewrite Eq in IH. cbn [receives got app]. exact IH. }
      cbn [echo_handler replies]. rewrite (H1 0%nat). unfold sendto, tr_sendto. cbn [c_tr].
      unfold cap in *. destruct data as [|z data].
      * cbn [add_tx c_tr c_local c_remote c_kw c_connected c_enabled c_queue c_latest c_tx c_rx c_seen]. set (c1 := mkConn _ _ _ _ _ _ _ _ _ _ _).
        specialize (IH n c1 H2 eq_refl O T P). destruct (run echo_handler n c1 ops) as [n' c']. destruct IH as (done & A & B & C & D). subst c1.
        cbn [c_seen c_queue c_tr] in *. exists (([], from) :: done). rewrite <- app_assoc in A. split; [exact A|]. rewrite <- app_assoc in B.
        split; [exact B|]. split; [exact C|exact D].
      * rewrite T. cbn zeta. rewrite O, P. cbn [add_tx c_tr c_local c_remote c_kw c_connected c_enabled c_queue c_latest c_tx c_rx c_seen].
        set (c1 := mkConn _ _ _ _ _ _ _ _ _ _ _). set (n1 := mkNet _ _ _).
        specialize (IH n1 c1 H2 eq_refl O T P). destruct (run echo_handler n1 c1 ops) as [n' c']. destruct IH as (done & A & B & C & D). subst c1 n1.
        cbn [c_seen c_queue c_tr n_sent n_sock] in *. exists ((z :: data, from) :: done). rewrite <- app_assoc in A. split; [exact A|]. rewrite <- app_assoc in B.
        split; [exact B|]. split; [|exact D]. cbn [filter nonempty fst map]. rewrite C, <- app_assoc. reflexivity.
Qed.
(** Every datagram processed is sent back to its sender, once, in order (an empty
    one is not). *)
Theorem C86_echo :
  forall n k d n1 c ops, create n false k d = (n1, Some c) -> Forall quiet ops ->
    let '(n2, c2) := run echo_handler n1 c ops in
    c_seen c2 ++ c_queue c2 = flat_map (fun o => match o with OReceive data from => [(data, from)] | _ => [] end) ops /\
    n_sent n2 = n_sent n ++ map (fun e => (c_local c, snd e, fst e)) (filter (fun e => negb (Nat.eqb (List.length (fst e)) 0)) (c_seen c2)).
Proof.
  intros n k d n1 c ops Hc Ho. destruct (create_free n k d n1 c Hc) as (S & R & A & P & O & Se & Sn & Q & En & L & _).
  pose proof (echo_run ops n1 c Ho En O A P) as G. destruct (run echo_handler n1 c ops) as [n2 c2]. destruct G as (done & G1 & G2 & G3 & _).
  rewrite Sn in G1. cbn in G1. subst done. rewrite Sn, Q in G2. cbn [app] in G2. split.
  - rewrite G2. clear. induction ops as [|o ops IH]; [reflexivity|]. cbn [receives flat_map]. rewrite IH. destruct o; reflexivity.
  - rewrite G3, Se, L. f_equal.
    assert (W : forall l, filter nonempty l = filter (fun e => negb (Nat.eqb (List.length (fst e)) 0)) l).
    { induction l as [|[[|z x] a] l IH]; cbn; [reflexivity|exact IH|rewrite IH; reflexivity]. }
    rewrite W. reflexivity.
Qed.
Print Assumptions C86_echo.

(** ** Restarting. *)
(** It raises exactly when a back-off was given at creation, or an existing socket
    that has been closed (which closing the connection does). *)
Theorem C86_restart_raises_iff :
  forall handler n connect k d n1 c ops n2 c2 d',
    create n connect k d = (n1, Some c) -> Forall no_restart ops -> run handler n1 c ops = (n2, c2) -> c_enabled c2 = false ->
    snd (step handler n2 c2 (ORestart d')) = true <->
    k_backoff k = true \/ exists s, k_sock k = Some s /\ s_open (n_sock n2 s) = false.
Proof.
  intros handler n connect k d n1 c ops n2 c2 d' Hc Ho Er En. pose proof (run_reads handler ops n1 c Ho) as G. rewrite Er in G.
  destruct G as ((T & K2 & _) & _ & _). cbn [step]. rewrite En. unfold restart. rewrite K2.
  destruct connect.
  - unfold create in Hc. destruct (endpoint n (no_backoff k) d) as [n' [| |t]] eqn:E; try discriminate. injection Hc as <- <-. cbn [new_conn c_kw].
    unfold endpoint, no_backoff in E. cbn in E. unfold endpoint. destruct (k_backoff k); [cbn; tauto|].
    destruct (k_sock k) as [s|] eqn:Es.
    + destruct (k_local k), (k_remote k), (k_family k); try discriminate. destruct (s_open (n_sock n2 s)) eqn:O; cbn; split; auto; try congruence.
      * intros [|(s' & Q & O')]; congruence.
      * intros _. right. exists s. auto.
    + split; [|intros [|(s' & Q & _)]; congruence]. destruct (k_local k), (k_remote k), (k_family k); try discriminate; destruct (d_refused d'); cbn; congruence.
  - destruct (create_free n k d n1 c Hc) as (S & _ & _ & _ & _ & _ & _ & _ & _ & _ & K). rewrite K, S. unfold endpoint.
    destruct (k_local k); cbn; (destruct (k_backoff k); [cbn; tauto|]; destruct (d_refused d'); cbn; (split; [congruence|intros [|(s' & Q & _)]; congruence])).
Qed.
Print Assumptions C86_restart_raises_iff.

(** The local address is the same after a restart when a port was given; otherwise
    it is the system's choice. *)
Theorem C86_local_address :
  forall handler n k d n1 c ops n2 c2 d' h p,
    create n true k d = (n1, Some c) \/ create n false k d = (n1, Some c) ->
    k_local k = Some (h, p) -> p <> 0 -> Forall no_restart ops -> run handler n1 c ops = (n2, c2) ->
    c_local c = (h, p) /\
    let '(_, c3, _) := step handler n2 c2 (ORestart d') in c_local c3 = (h, p).
Proof.
  intros handler n k d n1 c ops n2 c2 d' h p Hc Hl Hp Ho Er. pose proof (run_reads handler ops n1 c Ho) as G. rewrite Er in G.
  destruct G as ((T & K2 & Lo & _) & _ & _).
  assert (W : exists kk, endpoint n (no_backoff kk) d = (n1, MOk (c_tr c)) /\ c_kw c = kk /\ k_local kk = Some (h, p) /\ c_local c = s_local (n_sock n1 (tr_sock (c_tr c)))).
  { destruct Hc as [Hc|Hc]; unfold create in Hc.
    - destruct (endpoint n (no_backoff k) d) as [n' [| |t]] eqn:E; try discriminate. injection Hc as <- <-. exists k. cbn. auto.
    - rewrite Hl in Hc. set (kk := mkKw _ _ _ _ _) in Hc. destruct (endpoint n (no_backoff kk) d) as [n' [| |t]] eqn:E; try discriminate. injection Hc as <- <-.
      exists kk. destruct (k_remote k); cbn; auto. }
  destruct W as (kk & E & Kk & Kl & Lc).
  assert (Z0 : forall m q dd m' t, k_local q = Some (h, p) -> endpoint m q dd = (m', MOk t) -> s_local (n_sock m' (tr_sock t)) = (h, p)).
  { intros m q dd m' t Hq. unfold endpoint. destruct (k_backoff q); [discriminate|]. rewrite Hq. destruct (k_sock q); [discriminate|].
    assert (X : choose (Some (h, p)) (d_addr dd) = (h, p)) by (cbn; destruct (Z.eqb_spec p 0); [congruence|reflexivity]).
    destruct (d_refused dd); [discriminate|]. intros Q; injection Q as <- <-. cbn. rewrite Nat.eqb_refl. exact X. }
  assert (L1 : c_local c = (h, p)) by (rewrite Lc; apply (Z0 n (no_backoff kk) d n1 (c_tr c)); [exact Kl|exact E]).
  split; [exact L1|]. cbn [step]. destruct (c_enabled c2); [congruence|]. unfold restart. rewrite K2, Kk.
  destruct (endpoint n2 kk d') as [n3 [| |t]] eqn:E3; [congruence|congruence|]. cbn. apply (Z0 n2 kk d' n3 t Kl E3).
Qed.
Print Assumptions C86_local_address.

(** ** Concrete cases. *)
Definition ex_net : net := mkNet (fun _ => mkSock (""%string, 0) None false) 0 [].
Definition ex_dec (p : Z) : decision := mkDec false ("127.0.0.1"%string, p).
Definition ex_r : addr := ("10.0.0.1"%string, 5000).
Definition ex_kw : kwargs := mkKw None (Some ex_r) None false false.
Example C86_connected_case : exists n c, create ex_net true ex_kw (ex_dec 4000) = (n, Some c) /\
  n_sent (fst (run null_handler n c [OSend [1; 2] Leaves; OSendTo [9] ("10.0.0.2"%string, 1) Leaves; OClose; ODisable; ORestart (ex_dec 4001); OSend [3] Leaves]))
  = [(("127.0.0.1"%string, 4000), ex_r, [1; 2]); (("127.0.0.1"%string, 4001), ex_r, [3])].
Proof. eexists _, _. split; [reflexivity|]. vm_compute. reflexivity. Qed.
Example C86_unconnected_case : exists n c, create ex_net false ex_kw (ex_dec 4000) = (n, Some c) /\
  n_sent (fst (run null_handler n c [OSend [1; 2] Leaves; OSendTo [9] ("10.0.0.2"%string, 1) Leaves; OSetRemote ("10.0.0.3"%string, 7); OSend [4] Leaves;
    OClose; ODisable; ORestart (ex_dec 4001); OSend [3] Leaves]))
  = [(("0.0.0.0"%string, 4000), ex_r, [1; 2]); (("0.0.0.0"%string, 4000), ("10.0.0.2"%string, 1), [9]); (("0.0.0.0"%string, 4000), ("10.0.0.3"%string, 7), [4])].
Proof. eexists _, _. split; [reflexivity|]. vm_compute. reflexivity. Qed.
Example C86_echo_case : exists n c, create ex_net false (mkKw (Some ("127.0.0.1"%string, 69)) None None false false) (ex_dec 0) = (n, Some c) /\
  n_sent (fst (run echo_handler n c [OReceive [1] ex_r; OReceive [] ex_r; OReceive [2] ("x"%string, 1); ORead (fun _ => Leaves); ORead (fun _ => Leaves); ORead (fun _ => Leaves)]))
  = [(("127.0.0.1"%string, 69), ex_r, [1]); (("127.0.0.1"%string, 69), ("x"%string, 1), [2])].
Proof. eexists _, _. split; [reflexivity|]. vm_compute. reflexivity. Qed.
(** Without a port the address changes. *)
Theorem C86_local_address_refuted :
  exists n c n2 c2, create ex_net false ex_kw (ex_dec 4000) = (n, Some c) /\
    run null_handler n c [ODisable; OClose; ORestart (ex_dec 4001)] = (n2, c2) /\ c_enabled c2 = true /\ c_local c2 <> c_local c.
Proof. eexists _, _, _, _. split; [reflexivity|]. split; [reflexivity|]. split; [reflexivity|]. cbn. congruence. Qed.
Print Assumptions C86_local_address_refuted.

(** ** What one send and one turn of the reading task do. *)
Theorem C86_send_raises_iff :
  forall n c data a f, snd (sendto n c data a f) = true <->
    data <> [] /\ exists x y, tr_addr (c_tr c) = Some x /\ a = Some y /\ x <> y.
Proof.
  intros n c data a f. unfold sendto, tr_sendto. destruct data as [|z data]; [cbn; split; [discriminate|intros [H _]; congruence]|].
  destruct (tr_addr (c_tr c)) as [x|], a as [y|].
  1:{ destruct (addr_eqb x y) eqn:E; cbn [negb].
      - apply addr_eqb_spec in E. subst y. split.
        + destruct (s_open _); [destruct (s_peer _), f; cbn; discriminate|cbn; discriminate].
        + intros (_ & x' & y' & Q1 & Q2 & N). congruence.
      - cbn. split; auto. intros _. split; [discriminate|]. exists x, y. repeat split; auto. intros ->. rewrite addr_eqb_refl in E. discriminate. }
  all: split; [|intros (_ & x' & y' & Q1 & Q2 & N); congruence].
  all: destruct (s_open _); [destruct (s_peer _), f; cbn; discriminate|cbn; discriminate].
Qed.
Print Assumptions C86_send_raises_iff.
(** A failure the system reports disables the connection, nothing else does. *)
Theorem C86_send_disables :
  forall n c data a f, data <> [] -> s_open (n_sock n (tr_sock (c_tr c))) = true ->
    match s_peer (n_sock n (tr_sock (c_tr c))), a with None, None => False | _, _ => True end ->
    match tr_addr (c_tr c), a with Some x, Some y => x = y | _, _ => True end ->
    c_enabled (snd (fst (sendto n c data a f))) = match f with Errors | Vanished => false | _ => c_enabled c end.
Proof.
  intros n c data a f Hd O Hp Ha. unfold sendto, tr_sendto. destruct data as [|z data]; [congruence|].
  destruct (tr_addr (c_tr c)) as [x|]; [destruct a as [y|]; [subst y; rewrite addr_eqb_refl; cbn [negb]|]|];
    cbn zeta; rewrite O; destruct (s_peer _) as [p|], f; try (destruct a); try tauto; reflexivity.
Qed.
Print Assumptions C86_send_disables.

Definition dest (r : option addr) (x : reply) : option addr := match x with Send _ => r | SendTo _ a => Some a end.
Definition what (x : reply) : list Z := match x with Send d => d | SendTo d _ => d end.
Lemma replies_free l : forall n c fs, (forall i, fs i = Leaves) -> s_open (cap n c) = true -> s_peer (cap n c) = None -> tr_addr (c_tr c) = None ->
  Forall (fun x => what x <> [] /\ dest (c_remote c) x <> None) l ->
  let '(n', c', raised) := replies n c l fs in raised = false /\
  map (fun e => (from_of e, Some (to_of e), snd e)) (n_sent n') =
  map (fun e => (from_of e, Some (to_of e), snd e)) (n_sent n) ++ map (fun x => (s_local (cap n c), dest (c_remote c) x, what x)) l /\
  exists v, c' = mkConn (c_tr c) (c_local c) (c_remote c) (c_kw c) (c_connected c) (c_enabled c) (c_queue c) (c_latest c) v (c_rx c) (c_seen c).
Proof.
  induction l as [|x l IH]; intros n c fs Hf O P T Hl.
  - cbn. rewrite app_nil_r. split; [reflexivity|]. split; [reflexivity|]. exists (c_tx c). destruct c; reflexivity.
  - inversion Hl as [|? ? [H1 H2] H3]; subst. cbn [replies]. rewrite (Hf 0%nat).
    assert (G : exists a, dest (c_remote c) x = Some a /\
      (match x with Send d => send_binary n c d Leaves | SendTo d b => sendto n c d (Some b) Leaves end) = sendto n c (what x) (Some a) Leaves).
    { destruct x as [d|d b]; cbn [dest what] in *; [|exists b; auto]. unfold send_binary. destruct (c_remote c) as [a|]; [exists a; auto|congruence]. }
    destruct G as (a & Ga & ->). unfold sendto, tr_sendto. unfold cap in *. rewrite T. cbn zeta. rewrite O, P.
    destruct (what x) as [|z d] eqn:Ew; [congruence|].
    set (n1 := mkNet _ _ _). set (c1 := add_tx c _).
    specialize (IH n1 c1 (fun i => fs (S i)) (fun i => Hf (S i)) O P T H3).
    destruct (replies n1 c1 l (fun i => fs (S i))) as [[n' c'] b]. destruct IH as (A & B & v & C). split; [exact A|]. split.
    + rewrite B. subst n1 c1. cbn [n_sent n_sock add_tx c_tr c_remote]. rewrite map_app. cbn [map from_of to_of fst snd]. rewrite <- app_assoc. cbn [app]. rewrite Ga, Ew. reflexivity.
    + exists v. exact C.
Qed.
Theorem C86_process_one :
  forall handler n c fs data from rest,
    c_enabled c = true -> c_queue c = (data, from) :: rest -> (forall i, fs i = Leaves) ->
    s_open (n_sock n (tr_sock (c_tr c))) = true -> s_peer (n_sock n (tr_sock (c_tr c))) = None -> tr_addr (c_tr c) = None ->
    Forall (fun x => what x <> [] /\ dest (c_remote c) x <> None) (fst (handler data from)) ->
    let '(n', c', raised) := step handler n c (ORead fs) in
    raised = false /\ c_seen c' = c_seen c ++ [(data, from)] /\ c_queue c' = rest /\ c_latest c' = Some from /\
    c_rx c' = c_rx c + Z.of_nat (List.length data) /\ c_enabled c' = snd (handler data from) /\
    map (fun e => (from_of e, Some (to_of e), snd e)) (n_sent n') =
    map (fun e => (from_of e, Some (to_of e), snd e)) (n_sent n) ++
    map (fun x => (s_local (n_sock n (tr_sock (c_tr c))), dest (c_remote c) x, what x)) (fst (handler data from)).
Proof.
  intros handler n c fs data from rest En Eq Hf O P T Hl. cbn [step]. unfold read_one. rewrite En, Eq.
  destruct (handler data from) as [l ok]. cbn [fst snd] in *.
  set (c1 := mkConn _ _ _ _ _ _ _ _ _ _ _). pose proof (replies_free l n c1 fs Hf O P T Hl) as G.
  destruct (replies n c1 l fs) as [[n' c'] b]. destruct G as (-> & G & v & ->). subst c1. cbn in G. cbn.
  destruct ok; cbn; repeat split; auto.
Qed.
Print Assumptions C86_process_one.
Theorem C86_disabled_reads_nothing :
  forall handler n c fs, c_enabled c = false -> step handler n c (ORead fs) = (n, c, false).
Proof. intros handler n c fs H. cbn [step]. unfold read_one. rewrite H. reflexivity. Qed.
Print Assumptions C86_disabled_reads_nothing.
Example C86_process_case : exists n c, create ex_net false ex_kw (ex_dec 4000) = (n, Some c) /\
  let h := fun d a => ([Send (d ++ d); SendTo d a], match d with [7] => false | _ => true end) in
  let '(n2, c2) := run h n c [OReceive [1] ("a"%string, 1); OReceive [7] ("b"%string, 2); OReceive [2] ("c"%string, 3);
                              ORead (fun _ => Leaves); ORead (fun _ => Leaves); ORead (fun _ => Leaves)] in
  List.length (n_sent n2) = 4%nat /\ c_seen c2 = [([1], ("a"%string, 1)); ([7], ("b"%string, 2))] /\ c_enabled c2 = false.
Proof. eexists _, _. split; [reflexivity|]. vm_compute. auto. Qed.

(** [connected], by which a JSON connection decides whether it tests the link and
    sends remote commands (stream/json/__init__.py:38, 58), is what it was at the
    creation, whatever happens: naming a remote address later does not change it. *)
Lemma connected_kept handler : forall ops n c, c_connected (snd (run handler n c ops)) = c_connected c.
Proof.
  assert (S1 : forall b (n : net) (c : conn) data a f, c_connected c = b -> let '(n', c', _) := sendto n c data a f in c_connected c' = b).
  { intros b n c data a f H. pose proof (sendto_conn n c data a f) as G. destruct (sendto n c data a f) as [[n' c'] r].
    destruct G as (e & v & ->). exact H. }
  induction ops as [|o ops IH]; intros n c; [reflexivity|]. cbn [run].
  assert (G : let '(n', c', _) := step handler n c o in c_connected c' = c_connected c).
  { destruct o as [data f|data a f|a|data from|fs| | |d]; cbn [step]; try reflexivity.
    - apply S1. reflexivity.
    - apply S1. reflexivity.
    - unfold received. destruct (_ && _); reflexivity.
    - refine (read_inv (fun _ c' => c_connected c' = c_connected c) handler _ _ _ _ n c fs eq_refl).
      + intros n1 c1 data a f H. pose proof (S1 _ n1 c1 data a f H) as G. exact G.
      + intros n1 c1 data from rest H _. exact H.
      + intros n1 c1 v H. exact H.
      + intros n1 c1 H. exact H.
    - destruct (c_enabled c); [reflexivity|]. unfold restart. destruct (endpoint n (c_kw c) d) as [n' []]; reflexivity. }
  destruct (step handler n c o) as [[n' c'] r]. rewrite IH. exact G.
Qed.
Theorem C86_connected_flag :
  forall handler n connect k d n' c ops,
    k_sock k = None -> create n connect k d = (n', Some c) ->
    (c_connected (snd (run handler n' c ops)) = true <-> connect = true /\ k_remote k <> None).
Proof.
  intros handler n connect k d n' c ops Hs Hc. rewrite connected_kept. unfold create in Hc.
  set (k1 := if connect then k else _) in Hc.
  assert (K : k_sock k1 = None /\ k_remote k1 = if connect then k_remote k else None).
  { subst k1. destruct connect; [auto|]. destruct (k_local k); split; try exact Hs; reflexivity. }
  destruct K as (K1 & K2).
  destruct (endpoint n (no_backoff k1) d) as [n1 r] eqn:E. unfold endpoint in E.
  cbn [no_backoff k_backoff k_sock k_local k_remote k_family] in E. rewrite K1 in E.
  assert (G : forall t, r = MOk t -> s_peer (n_sock n1 (tr_sock t)) = k_remote k1).
  { intros t ->. destruct (k_local k1), (k_remote k1), (k_family k1); try discriminate; destruct (d_refused d); try discriminate;
      injection E as <- <-; cbn; rewrite Nat.eqb_refl; reflexivity. }
  destruct r as [| |t]; try discriminate. specialize (G t eq_refl).
  assert (C : c_connected c = match k_remote k1 with Some _ => true | None => false end).
  { destruct (if connect then None else k_remote k); injection Hc as _ <-; cbn; rewrite G; reflexivity. }
  rewrite C, K2. destruct connect; [destruct (k_remote k)|]; split; try discriminate; try tauto; try (intros _; split; congruence); intros [_ H]; congruence.
Qed.
Print Assumptions C86_connected_flag.
Example C86_connected_flag_case : exists n c, create ex_net false ex_kw (ex_dec 4000) = (n, Some c) /\
  c_connected (snd (run null_handler n c [OSetRemote ("a"%string, 1)])) = false /\
  c_remote (snd (run null_handler n c [OSetRemote ("a"%string, 1)])) = Some ("a"%string, 1).
Proof. eexists _, _. split; [reflexivity|]. vm_compute. auto. Qed.
