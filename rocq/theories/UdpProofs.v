From Coq Require Import ZifyBool ZifyNat Lia.
From Verif Require Import Base BaseLemmas UdpModel UdpSpec.
Open Scope list_scope.
Open Scope Z_scope.

Lemma addr_eqb_refl a : addr_eqb a a = true.
Proof. unfold addr_eqb. rewrite String.eqb_refl, Z.eqb_refl. reflexivity. Qed.
Lemma addr_eqb_spec a b : addr_eqb a b = true <-> a = b.
Proof.
  unfold addr_eqb. rewrite andb_true_iff, String.eqb_eq, Z.eqb_eq. destruct a, b; cbn. split; [intros [-> ->]; reflexivity|].
  intros Q; injection Q as -> ->. auto.
Qed.
Lemma addr_eqb_neq a b : a <> b -> addr_eqb a b = false.
Proof. intros H. destruct (addr_eqb a b) eqn:E; [apply addr_eqb_spec in E; congruence|reflexivity]. Qed.

(** Everything one step does outside a restart is a composition of a few moves;
    an invariant is kept if those keep it. *)
Section Inv.
  Context (P : net -> conn -> Prop).
  Context (handler : list Z -> addr -> list reply * bool).
  Context (Psend : forall n c data a f, P n c -> let '(n', c', _) := sendto n c data a f in P n' c').
  Context (Pread : forall n c data from rest, P n c -> c_queue c = (data, from) :: rest ->
    P n (mkConn (c_tr c) (c_local c) (c_remote c) (c_kw c) (c_connected c) (c_enabled c) rest (Some from) (c_tx c) (c_rx c) (c_seen c ++ [(data, from)]))).
  Context (Prx : forall n c v, P n c ->
    P n (mkConn (c_tr c) (c_local c) (c_remote c) (c_kw c) (c_connected c) (c_enabled c) (c_queue c) (c_latest c) (c_tx c) v (c_seen c))).
  Context (Pdis : forall n c, P n c -> P n (disable c)).
  Lemma replies_inv l : forall n c fs, P n c -> let '(n', c', _) := replies n c l fs in P n' c'.
  Proof.
    induction l as [|r l IH]; intros n c fs H; [exact H|]. cbn [replies].
    assert (G : let '(n', c', _) := (match r with Send d => send_binary n c d (fs 0%nat) | SendTo d a => sendto n c d (Some a) (fs 0%nat) end) in P n' c').
    { destruct r; [apply (Psend n c data (c_remote c)), H|apply Psend, H]. }
    destruct (match r with Send d => _ | SendTo d a => _ end) as [[n1 c1] []]; [exact G|]. apply IH, G.
  Qed.
  Lemma read_inv n c fs : P n c -> let '(n', c', _) := read_one handler n c fs in P n' c'.
  Proof.
    intros H. unfold read_one. destruct (c_enabled c) eqn:En; [|exact H]. destruct (c_queue c) as [|[data from] rest] eqn:Eq; [exact H|].
    pose proof (Pread n c data from rest H Eq) as H1. rewrite En in H1. destruct (handler data from) as [l ok].
    pose proof (replies_inv l _ _ fs H1) as H2. destruct (replies _ _ _ _) as [[n2 c2] []]; [exact H2|].
    destruct ok; [apply Prx, H2|apply Pdis, Prx, H2].
  Qed.
End Inv.

(** What [sendto] does to the connection. *)
Lemma sendto_conn n c data a f : let '(n', c', b) := sendto n c data a f in
  exists e v, c' = mkConn (c_tr c) (c_local c) (c_remote c) (c_kw c) (c_connected c) e (c_queue c) (c_latest c) v (c_rx c) (c_seen c).
Proof.
  unfold sendto. destruct (tr_sendto n (c_tr c) data a f) as [[n' r] err]. destruct r.
  - destruct err; eexists _, _; reflexivity.
  - exists (c_enabled c), (c_tx c). destruct c; reflexivity.
  - eexists _, _; reflexivity.
Qed.
(** What it does to the network: nothing else than sending at most one datagram
    and closing at most the transport's own socket. *)
Lemma sendto_net n c data a f : let '(n', _, _) := sendto n c data a f in
  let s := tr_sock (c_tr c) in let x := n_sock n s in
  n_next n' = n_next n /\ (forall i, i <> s -> n_sock n' i = n_sock n i) /\
  s_local (n_sock n' s) = s_local x /\ s_peer (n_sock n' s) = s_peer x /\ (s_open (n_sock n' s) = true -> s_open x = true) /\
  (n_sent n' = n_sent n \/
   exists to, n_sent n' = n_sent n ++ [(s_local x, to, data)] /\ s_open x = true /\
     match s_peer x with Some p => to = p | None => a = Some to end /\
     match tr_addr (c_tr c), a with Some r, Some y => r = y | _, _ => True end).
Proof.
  unfold sendto, tr_sendto. destruct data as [|z data]; [cbn; auto 10|].
  destruct (match tr_addr (c_tr c), a with Some x, Some y => negb (addr_eqb x y) | _, _ => false end) eqn:Ea; [cbn; auto 10|].
  assert (Ea' : match tr_addr (c_tr c), a with Some r, Some y => r = y | _, _ => True end).
  { destruct (tr_addr (c_tr c)), a; auto. apply negb_false_iff, addr_eqb_spec in Ea. exact Ea. }
  cbn zeta. destruct (s_open (n_sock n (tr_sock (c_tr c)))) eqn:Eo; [|cbn; rewrite Eo; auto 10].
  destruct (s_peer (n_sock n (tr_sock (c_tr c)))) as [p|] eqn:Ep, a as [a|].
  1,2,3: destruct f; cbn; repeat split; auto; try (rewrite Eo; auto); right; eexists; (split; [reflexivity|]); auto.
  cbn. rewrite Nat.eqb_refl. cbn. repeat split; auto; try discriminate.
  intros i Hi. destruct (Nat.eqb_spec i (tr_sock (c_tr c))); [congruence|reflexivity].
Qed.

(** The general induction: an invariant of the moves, of closing and of
    restarting holds after every history. *)
Section RunInv.
  Context (P : net -> conn -> Prop).
  Context (handler : list Z -> addr -> list reply * bool) (okop : op -> Prop).
  Context (Psend : forall n c data a f, P n c -> let '(n', c', _) := sendto n c data a f in P n' c').
  Context (Pconn : forall n c c', P n c -> c_tr c' = c_tr c -> c_local c' = c_local c -> c_remote c' = c_remote c -> c_kw c' = c_kw c -> P n c').
  Context (Premote : forall n c a, P n c -> okop (OSetRemote a) -> P n (set_remote c (Some a))).
  Context (Pclose : forall n c, P n c -> P (close n c) c).
  Context (Prestart : forall n c d, P n c -> okop (ORestart d) -> let '(n', c', _) := restart n c d in P n' c').
  Lemma step_inv n c o : P n c -> okop o -> let '(n', c', _) := step handler n c o in P n' c'.
  Proof.
    intros H Ho. destruct o as [data f|data a f|a|data from|fs| | |d]; cbn [step].
    - apply (Psend n c data (c_remote c)), H.
    - apply Psend, H.
    - apply Premote; assumption.
    - eapply Pconn; [exact H| | | |]; unfold received; destruct (_ && _); reflexivity.
    - apply read_inv; auto.
      + intros n1 c1 data from rest H1 _. eapply Pconn; [exact H1| | | |]; reflexivity.
      + intros n1 c1 v H1. eapply Pconn; [exact H1| | | |]; reflexivity.
      + intros n1 c1 H1. eapply Pconn; [exact H1| | | |]; reflexivity.
    - eapply Pconn; [exact H| | | |]; reflexivity.
    - apply Pclose, H.
    - destruct (c_enabled c); [exact H|apply Prestart; assumption].
  Qed.
  Lemma run_inv ops : forall n c, P n c -> Forall okop ops -> let '(n', c') := run handler n c ops in P n' c'.
  Proof.
    induction ops as [|o ops IH]; intros n c H Ho; [exact H|]. inversion Ho as [|? ? H1 H2]; subst. cbn [run].
    pose proof (step_inv n c o H H1) as H'. destruct (step handler n c o) as [[n1 c1] b]. apply IH; assumption.
  Qed.
End RunInv.

Definition cap (n : net) (c : conn) : sock := n_sock n (tr_sock (c_tr c)).
Definition to_of (e : addr * addr * list Z) : addr := snd (fst e).
Definition from_of (e : addr * addr * list Z) : addr := fst (fst e).

(** Connected by address. *)
Definition to_peer (r : addr) (k : kwargs) (n0 : list (addr * addr * list Z)) (n : net) (c : conn) : Prop :=
  c_kw c = k /\ tr_addr (c_tr c) = Some r /\ s_peer (cap n c) = Some r /\
  exists l, n_sent n = n0 ++ l /\ Forall (fun e => to_of e = r) l.
Lemma to_peer_send r k n0 n c data a f : to_peer r k n0 n c -> let '(n', c', _) := sendto n c data a f in to_peer r k n0 n' c'.
Proof.
  intros (A & B & C & l & D & F). pose proof (sendto_conn n c data a f) as G1. pose proof (sendto_net n c data a f) as G2.
  destruct (sendto n c data a f) as [[n' c'] b]. destruct G1 as (e & v & ->). cbn zeta in G2. destruct G2 as (_ & _ & _ & P & _ & S).
  split; [exact A|]. split; [exact B|]. unfold cap in *. cbn [c_tr]. rewrite P. split; [exact C|].
  destruct S as [S|(to & S & _ & Q & _)]; rewrite S.
  - exists l. auto.
  - rewrite C in Q. subst to. exists (l ++ [(s_local (n_sock n (tr_sock (c_tr c))), r, data)]). rewrite D, app_assoc. split; [reflexivity|].
    apply Forall_app. split; [exact F|]. constructor; [reflexivity|constructor].
Qed.
Lemma endpoint_remote n k d r n' t : k_remote k = Some r -> endpoint n k d = (n', MOk t) ->
  tr_addr t = Some r /\ s_peer (n_sock n' (tr_sock t)) = Some r /\ s_open (n_sock n' (tr_sock t)) = true /\
  s_local (n_sock n' (tr_sock t)) = choose (k_local k) (d_addr d) /\ n_sent n' = n_sent n.
Proof.
  intros Hr. unfold endpoint. destruct (k_backoff k); [discriminate|]. rewrite Hr.
  destruct (k_sock k); [destruct (k_local k); discriminate|].
  destruct (k_local k), (k_family k); (destruct (d_refused d); [discriminate|]; intros Q; injection Q as <- <-; cbn; rewrite Nat.eqb_refl; auto).
Qed.
Lemma endpoint_other n k d : match endpoint n k d with (n', MRefused) => n' = n | (n', MRaised) => n' = n | _ => True end.
Proof.
  unfold endpoint. destruct (k_backoff k); [reflexivity|]. destruct (k_sock k), (k_local k), (k_remote k), (k_family k); try reflexivity;
    try (destruct (d_refused d); [reflexivity|exact I]). destruct (s_open _); [exact I|reflexivity].
Qed.
Lemma to_peer_restart r k n0 n c d : k_remote k = Some r -> to_peer r k n0 n c -> let '(n', c', _) := restart n c d in to_peer r k n0 n' c'.
Proof.
  intros Hr H. pose proof H as (A & B & C & l & D & F). unfold restart. rewrite A.
  pose proof (endpoint_other n k d) as G. destruct (endpoint n k d) as [n' [| |t]] eqn:E; [subst n'; exact H|subst n'; exact H|].
  destruct (endpoint_remote n k d r n' t Hr E) as (E1 & E2 & E3 & E4 & E5).
  split; [exact A|]. split; [exact E1|]. split; [exact E2|]. exists l. rewrite E5. auto.
Qed.
Lemma to_peer_run r k n0 handler ops n c : k_remote k = Some r -> to_peer r k n0 n c ->
  let '(n', c') := run handler n c ops in to_peer r k n0 n' c'.
Proof.
  intros Hr H. apply (run_inv (to_peer r k n0) handler (fun _ => True)); auto.
  - intros. apply to_peer_send; assumption.
  - intros n1 c1 c2 (A & B & C & L) T _ _ K. unfold to_peer, cap in *. rewrite T, K. auto.
  - intros n1 c1 (A & B & C & L). split; [exact A|]. split; [exact B|]. unfold cap, close in *. cbn. rewrite Nat.eqb_refl. auto.
  - intros n1 c1 d H1 _. apply to_peer_restart; assumption.
  - apply Forall_forall. auto.
Qed.
Lemma to_peer_create r k n d n' c : k_remote k = Some r -> create n true k d = (n', Some c) ->
  to_peer r k (n_sent n) n' c /\ c_remote c = Some r /\ s_open (cap n' c) = true /\ c_enabled c = true /\ c_connected c = true.
Proof.
  intros Hr. unfold create. destruct (endpoint n (no_backoff k) d) as [n1 [| |t]] eqn:E; try discriminate. intros Q; injection Q as <- <-.
  destruct (endpoint_remote n (no_backoff k) d r n1 t Hr E) as (E1 & E2 & E3 & E4 & E5). unfold new_conn, cap. cbn. rewrite E2.
  split; [|auto]. split; [reflexivity|]. split; [exact E1|]. split; [exact E2|]. exists []. rewrite app_nil_r. auto.
Qed.

(** One step that is not a restart. *)
Definition same_cap (n : net) (c : conn) (n' : net) (c' : conn) : Prop :=
  c_tr c' = c_tr c /\ c_kw c' = c_kw c /\ c_local c' = c_local c /\ s_peer (cap n' c') = s_peer (cap n c) /\
  s_local (cap n' c') = s_local (cap n c) /\ (s_open (cap n' c') = true -> s_open (cap n c) = true).
Lemma same_cap_refl n c : same_cap n c n c.
Proof. unfold same_cap. auto 10. Qed.
Lemma same_cap_send n0 c0 n c data a f : same_cap n0 c0 n c -> let '(n', c', _) := sendto n c data a f in same_cap n0 c0 n' c'.
Proof.
  intros (A & B & C & D & E & F). pose proof (sendto_conn n c data a f) as G1. pose proof (sendto_net n c data a f) as G2.
  destruct (sendto n c data a f) as [[n' c'] b]. destruct G1 as (e & v & ->). cbn zeta in G2. destruct G2 as (_ & _ & L & P & O & _).
  unfold same_cap, cap in *. cbn [c_tr c_kw c_local]. rewrite L, P. auto 10.
Qed.
Definition reads (n0 : net) (c0 : conn) (n : net) (c : conn) : Prop :=
  same_cap n0 c0 n c /\ c_remote c = c_remote c0 /\ c_seen c ++ c_queue c = c_seen c0 ++ c_queue c0.
Lemma reads_send n0 c0 n c data a f : reads n0 c0 n c -> let '(n', c', _) := sendto n c data a f in reads n0 c0 n' c'.
Proof.
  intros (A & R & B). pose proof (same_cap_send n0 c0 n c data a f A) as G. pose proof (sendto_conn n c data a f) as G1.
  destruct (sendto n c data a f) as [[n' c'] b]. destruct G1 as (e & v & ->). split; [exact G|]. split; [exact R|exact B].
Qed.
Definition got (o : op) (p : option addr) : list (list Z * addr) :=
  match o with
  | OReceive data from => if match p with Some x => addr_eqb x from | None => true end then [(data, from)] else []
  | _ => []
  end.
Lemma step_reads handler n c o : no_restart o -> let '(n', c', _) := step handler n c o in
  same_cap n c n' c' /\ c_remote c' = match o with OSetRemote a => Some a | _ => c_remote c end /\
  (s_open (cap n' c') = true -> c_seen c' ++ c_queue c' = c_seen c ++ c_queue c ++ got o (s_peer (cap n c))).
Proof.
  intros Ho. assert (R0 : reads n c n c) by (split; [apply same_cap_refl|auto]).
  assert (K : forall n' c', reads n c n' c' -> same_cap n c n' c' /\ c_remote c' = c_remote c /\
    (s_open (cap n' c') = true -> c_seen c' ++ c_queue c' = c_seen c ++ c_queue c ++ [])).
  { intros n' c' (A & R & B). rewrite app_nil_r. auto. }
  destruct o as [data f|data a f|a|data from|fs| | |d]; cbn [step got].
  - pose proof (reads_send n c n c data (c_remote c) f R0) as G. unfold send_binary. destruct (sendto _ _ _ _ _) as [[n' c'] b]. apply K, G.
  - pose proof (reads_send n c n c data (Some a) f R0) as G. destruct (sendto _ _ _ _ _) as [[n' c'] b]. apply K, G.
  - split; [unfold same_cap, cap; cbn; auto 10|]. rewrite app_nil_r. auto.
  - assert (G : c_tr (received n c data from) = c_tr c /\ c_kw (received n c data from) = c_kw c /\
      c_local (received n c data from) = c_local c /\ c_remote (received n c data from) = c_remote c).
    { unfold received. destruct (_ && _); auto. }
    destruct G as (G1 & G2 & G3 & G4). split; [unfold same_cap, cap; rewrite G1, G2, G3; auto 10|]. split; [exact G4|].
    unfold cap. rewrite G1. intros O. unfold received. rewrite O. cbn [andb].
    destruct (match s_peer _ with Some _ => _ | None => _ end); [cbn [c_seen c_queue]; reflexivity|rewrite app_nil_r; reflexivity].
  - pose proof (read_inv (reads n c) handler) as G. assert (G' : let '(n', c', _) := read_one handler n c fs in reads n c n' c').
    { apply G; clear G.
      - intros. apply reads_send; assumption.
      - intros n1 c1 data from rest (A & R & B) Q. split; [exact A|]. split; [exact R|]. cbn [c_seen c_queue].
        rewrite <- app_assoc. cbn [app]. rewrite <- B, Q. reflexivity.
      - intros n1 c1 v H. exact H.
      - intros n1 c1 H. exact H.
      - exact R0. }
    destruct (read_one handler n c fs) as [[n' c'] b]. apply K, G'.
  - rewrite app_nil_r. split; [exact (same_cap_refl n c)|]. auto.
  - unfold close, same_cap, cap. cbn. rewrite Nat.eqb_refl. cbn. repeat split; auto; discriminate.
  - destruct Ho.
Qed.
Fixpoint receives (p : option addr) (ops : list op) : list (list Z * addr) :=
  match ops with [] => [] | o :: r => got o p ++ receives p r end.
Lemma run_reads handler ops : forall n c, Forall no_restart ops -> let '(n', c') := run handler n c ops in
  same_cap n c n' c' /\ c_remote c' = aimed (c_remote c) ops /\
  (s_open (cap n' c') = true -> c_seen c' ++ c_queue c' = c_seen c ++ c_queue c ++ receives (s_peer (cap n c)) ops).
Proof.
  induction ops as [|o ops IH]; intros n c Ho.
  - cbn [run receives aimed]. rewrite app_nil_r. split; [apply same_cap_refl|auto].
  - inversion Ho as [|? ? H1 H2]; subst. cbn [run]. pose proof (step_reads handler n c o H1) as G.
    destruct (step handler n c o) as [[n1 c1] b]. destruct G as (S1 & R1 & Q1). specialize (IH n1 c1 H2).
    destruct (run handler n1 c1 ops) as [n2 c2]. destruct IH as (S2 & R2 & Q2).
    destruct S1 as (A1 & B1 & C1 & D1 & E1 & F1), S2 as (A2 & B2 & C2 & D2 & E2 & F2). split; [|split].
    + unfold same_cap. repeat split; try congruence. auto.
    + rewrite R2, R1. destruct o; reflexivity.
    + intros O. rewrite Q2, D1 by exact O. cbn [receives].
      assert (O1 : s_open (cap n1 c1) = true) by auto. specialize (Q1 O1). rewrite !app_assoc in *. rewrite Q1, <- !app_assoc. reflexivity.
Qed.
