(** Before the peer's environment is known, nothing on stderr stops the polling
    task. *)
From Verif Require Import Base BaseLemmas PrimModel FifoModel MessageModel MessageSpec EventModel SubprocModel SubprocSpec SubprocProofs SubprocProps.
From Coq Require Import ZifyBool ZifyNat Lia.
Open Scope list_scope.
Open Scope Z_scope.

Section Before.
Context (nl : bool) (names : Z -> option string) (fields : string -> option kind) (chans : string -> option kind) (ingests : parsed -> bool) (parses : list Z -> bool).
Notation run := (sub_run nl names fields chans ingests parses).

Lemma handle_err_unknown data s : s_known s = false ->
  exists s', handle_err nl names fields chans ingests data s = (s', true) /\ s_known s' = false /\ s_poll s' = s_poll s /\ s_msgs s' = s_msgs s /\
    s_gerr s' = s_gerr s ++ [(false, data)] /\ s_events s' = s_events s.
Proof. intros K. unfold handle_err. destruct data; rewrite ?K; eexists; (split; [reflexivity|]); cbn; rewrite ?K; repeat split; exact K. Qed.
Lemma drain_err_unknown l : forall s, s_known s = false ->
  exists s', drain_err nl names fields chans ingests l s = (s', true) /\ s_known s' = false /\ s_poll s' = s_poll s /\ s_msgs s' = s_msgs s /\
    s_gerr s' = s_gerr s ++ map (fun c => (false, c)) l /\ s_events s' = s_events s.
Proof.
  induction l as [|c l IH]; intros s K; cbn [drain_err].
  - exists s. rewrite app_nil_r. repeat split; auto.
  - destruct (handle_err_unknown c (with_queues (s_out s) (Some l) s) K) as (s1 & -> & K1 & P1 & M1 & G1 & E1). cbn iota beta.
    destruct (IH s1 K1) as (s2 & -> & K2 & P2 & M2 & G2 & E2). exists s2. split; [reflexivity|]. split; [exact K2|]. split; [rewrite P2, P1; reflexivity|].
    split; [rewrite M2, M1; reflexivity|]. split; [|rewrite E2, E1; reflexivity]. rewrite G2, G1. cbn [with_queues s_gerr map]. rewrite <- app_assoc. reflexivity.
Qed.

(** C74.  As long as the peer's environment is not known, whatever arrives on stderr
    is counted and dropped: no event comes out of it, and the polling task fails only
    if a message on stdout is not JSON or its handler raises. *)
Theorem C74_before_the_peer_is_known : forall ops, ~ In OPeer ops ->
  (forall m, parses m = true) -> handlers_ok ops ->
  let s := run sub_init ops in
  s_poll s <> PFailed /\ s_events s = [] /\ s_known s = false /\ Forall (fun x => fst x = false) (s_gerr s).
Proof.
  intros ops NP Pa H. cbv zeta. unfold sub_run. rewrite <- fold_left_rev_right.
  assert (NP' : ~ In OPeer (rev ops)) by (rewrite <- in_rev; exact NP). assert (H' : ~ In (OMsg false) (rev ops)) by (rewrite <- in_rev; exact H).
  clear NP H. induction (rev ops) as [|o l IH]; [cbn; repeat split; [discriminate|constructor]|]. cbn [fold_right].
  destruct IH as (P & E & K & G); [intros X; apply NP'; right; exact X|intros X; apply H'; right; exact X|].
  set (s := fold_right (fun y x => sub_step nl names fields chans ingests parses x y) sub_init l) in *.
  destruct o as [fd d|fd| |so se| | | |ok| |]; cbn [sub_step].
  - unfold sub_data. destruct (fd =? 1), (s_out s), (s_err s); try (destruct (fd =? 2)); cbn; auto.
  - unfold sub_lost. destruct (fd =? 1); [cbn; auto|]. destruct (fd =? 2); cbn; auto.
  - cbn; auto.
  - unfold sub_attach. destruct (s_spawned s); cbn; auto.
  - destruct NP'. left. reflexivity.
  - unfold sub_wake. destruct (s_poll s) eqn:Q; try (rewrite Q; auto). destruct (s_err s) as [q|] eqn:Er.
    + destruct (drain_err_unknown q s K) as (s' & -> & K' & P' & M' & G' & E'). cbn iota beta.
      assert (X : Forall (fun x => fst x = false) (s_gerr s')).
      { rewrite G'. apply Forall_app. split; [exact G|]. apply Forall_forall. intros x Hx. apply in_map_iff in Hx. destruct Hx as (c & <- & _). reflexivity. }
      destruct (s_out s'), (s_err s'); cbn; rewrite ?P', ?E', ?Q; repeat split; auto; try discriminate.
    + cbn iota beta. destruct (s_out s); rewrite ?Er; cbn; repeat split; auto; try discriminate.
  - unfold sub_take. destruct (s_poll s) as [|[|m ms]| |] eqn:Q; try (rewrite Q; auto). destruct (s_out s) as [[|d rest]|]; [cbn; repeat split; auto; discriminate| |rewrite Q; auto].
    destruct d as [|b d]; [cbn; rewrite ?Q; auto|]. destruct (m_process _ _ _ _ _ _) as [[ms p] z]. cbn; repeat split; auto; discriminate.
  - unfold sub_msg. destruct (s_poll s) as [|[|m ms]| |] eqn:Q; try (rewrite Q; auto). rewrite Pa. destruct ok; [|destruct H'; left; reflexivity]. cbn; repeat split; auto; discriminate.
  - unfold sub_cancel. destruct (s_poll s) eqn:Q; try (rewrite Q; auto); cbn; repeat split; auto; discriminate.
  - unfold sub_close. destruct (s_exited s); [|auto]. destruct (s_poll s) eqn:Q; rewrite ?Q; auto; cbn; rewrite ?Q; auto.
Qed.
End Before.
Print Assumptions C74_before_the_peer_is_known.

(** A warning on stderr and a message on stdout, before the environment is known. *)
Example C74_before_case :
  let ops := [OAttach true true; OData 2 [87; 33]; OData 1 (frame [123; 125]); OWake; OTake; OMsg true] in
  ~ In OPeer ops /\ handlers_ok ops /\
  let s := sub_run true (fun _ => None) (fun _ => None) (fun _ => None) (fun _ => true) (fun _ => true) sub_init ops in
  s_poll s = PBusy [] /\ s_msgs s = [[123; 125]] /\ s_gerr s = [(false, [87; 33])].
Proof. split; [cbn; intuition discriminate|]. split; [unfold handlers_ok; cbn; intuition discriminate|]. vm_compute. repeat split. Qed.
