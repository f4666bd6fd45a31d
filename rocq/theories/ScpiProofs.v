(** Proofs about SCPI connections. *)
From Verif Require Import Base BaseLemmas PyStrModel TaskModel TaskProofs ScpiModel ScpiSpec.
From Coq Require Import ZifyBool ZifyNat Lia.
Open Scope list_scope.
Open Scope Z_scope.

Definition pc_at (s : scpi) (k : nat) : option cpc := option_map cl_pc (nth_error (sc_calls s) k).
Definition ended (o : option cpc) : Prop := exists r, o = Some (CEnd r).
Definition started_count (s : scpi) (e : nat) : nat := match pc_at s e with Some CReply => S e | _ => e end.
Definition wire (c : call) : str := cl_cmd c ++ [10].
(** [e] calls have ended; the next may be waiting for its reply; the others wait
    for the lock. *)
Record inv (s : scpi) (e : nat) : Prop := {
  i_le : (e <= List.length (sc_calls s))%nat;
  i_done : forall k, (k < e)%nat -> ended (pc_at s k);
  i_cur : forall r, pc_at s e <> Some (CEnd r);
  i_wait : forall k, (e < k)%nat -> (k < List.length (sc_calls s))%nat -> pc_at s k = Some CWait;
  i_line : sc_line s = seq e (List.length (sc_calls s) - e);
  i_sent : sc_sent s = map wire (firstn (started_count s e) (sc_calls s));
  i_got : forall k x, In (k, x) (sc_got s) -> (k < e)%nat /\ pc_at s k = Some (CEnd x);
  i_once : NoDup (map fst (sc_got s))
}.

Lemma set_len k pc l : List.length (set_call k pc l) = List.length l.
Proof. unfold set_call. destruct (nth_error l k); [apply upd_length|reflexivity]. Qed.
Lemma set_same k pc l : (k < List.length l)%nat -> option_map cl_pc (nth_error (set_call k pc l) k) = Some pc.
Proof.
  intros H. unfold set_call. destruct (nth_error l k) eqn:N; [|apply nth_error_None in N; lia]. rewrite upd_nth by exact H. reflexivity.
Qed.
Lemma set_other k j pc l : j <> k -> nth_error (set_call k pc l) j = nth_error l j.
Proof. intros H. unfold set_call. destruct (nth_error l k); [apply upd_nth_ne; congruence|reflexivity]. Qed.
Lemma upd_map {A B} (f : A -> B) k x l : map f (upd k x l) = upd k (f x) (map f l).
Proof. revert k. induction l as [|a l IH]; intros [|k]; cbn; [reflexivity..|]. rewrite <- IH. reflexivity. Qed.
Lemma upd_id {A} k (x : A) l : nth_error l k = Some x -> upd k x l = l.
Proof. revert k. induction l as [|a l IH]; intros [|k] H; cbn in *; try discriminate; [congruence|]. f_equal. apply IH, H. Qed.
Lemma set_wire k pc l : map wire (set_call k pc l) = map wire l.
Proof.
  unfold set_call. destruct (nth_error l k) as [c|] eqn:N; [|reflexivity]. rewrite upd_map. apply upd_id. rewrite nth_error_map, N. reflexivity.
Qed.
Lemma set_wire_firstn n k pc l : map wire (firstn n (set_call k pc l)) = map wire (firstn n l).
Proof. rewrite <- !firstn_map, set_wire. reflexivity. Qed.
Lemma firstn_next {A} n (l : list A) x : nth_error l n = Some x -> firstn (S n) l = firstn n l ++ [x].
Proof. revert l. induction n as [|n IH]; intros [|a l] H; cbn in *; try discriminate; [congruence|]. f_equal. apply IH, H. Qed.
Lemma pc_lt s k p : pc_at s k = Some p -> (k < List.length (sc_calls s))%nat.
Proof. unfold pc_at. intros H. apply nth_error_Some. destruct (nth_error _ k); [discriminate|discriminate H]. Qed.

Lemma inv_new : inv sc_new 0.
Proof. constructor; cbn; try lia; try reflexivity; try (intros; lia); try constructor; try discriminate; contradiction. Qed.

(** The current call ends. *)
Lemma inv_end s e r q p g : inv s e -> pc_at s e = Some CReply ->
  (g = sc_got s \/ g = sc_got s ++ [(e, r)]) ->
  inv (mkScpi (set_call e (CEnd r) (sc_calls s)) (tl (sc_line s)) (sc_sent s) q p g) (S e).
Proof.
  intros I P G. pose proof (pc_lt _ _ _ P) as Lt.
  constructor; cbn [sc_calls sc_line sc_sent sc_got]; unfold started_count, pc_at; cbn [sc_calls].
  - rewrite set_len. lia.
  - intros k Hk. destruct (Nat.eq_dec k e) as [->|N]; [rewrite set_same by exact Lt; eexists; reflexivity|]. rewrite set_other by exact N. apply (i_done _ _ I). lia.
  - intros x. rewrite set_other by lia. destruct (Nat.lt_ge_cases (S e) (List.length (sc_calls s))) as [L|L].
    + pose proof (i_wait _ _ I (S e) ltac:(lia) L) as W. unfold pc_at in W. rewrite W. discriminate.
    + rewrite (proj2 (nth_error_None _ _)) by exact L. discriminate.
  - intros k Hk. rewrite set_len. intros L. rewrite set_other by lia. apply (i_wait _ _ I); lia.
  - rewrite (i_line _ _ I), set_len. destruct (List.length (sc_calls s) - e)%nat as [|m] eqn:E; [lia|]. cbn [seq tl]. f_equal. lia.
  - rewrite (i_sent _ _ I). unfold started_count. rewrite P. rewrite set_other by lia.
    assert (W : match option_map cl_pc (nth_error (sc_calls s) (S e)) with Some CReply => S (S e) | _ => S e end = S e).
    { destruct (Nat.lt_ge_cases (S e) (List.length (sc_calls s))) as [L|L].
      - pose proof (i_wait _ _ I (S e) ltac:(lia) L) as W. unfold pc_at in W. rewrite W. reflexivity.
      - rewrite (proj2 (nth_error_None _ _)) by exact L. reflexivity. }
    rewrite W, set_wire_firstn. reflexivity.
  - intros k x H. assert (K : In (k, x) (sc_got s) \/ (k, x) = (e, r)).
    { destruct G as [->| ->]; [auto|]. apply in_app_iff in H. destruct H as [H|[H|[]]]; auto. }
    destruct K as [K|K].
    + destruct (i_got _ _ I k x K) as [Hk Pk]. split; [lia|]. rewrite set_other by lia. exact Pk.
    + injection K as -> ->. split; [lia|]. apply set_same, Lt.
  - destruct G as [->| ->]; [apply (i_once _ _ I)|]. rewrite map_app. apply NoDup_app; [apply (i_once _ _ I)|constructor; [intros []|constructor]|].
    intros k Hk Hk'. cbn in Hk'. destruct Hk' as [Hk'|[]]. apply in_map_iff in Hk. destruct Hk as ([k2 x] & E & Hk). destruct (i_got _ _ I k2 x Hk). cbn in *. lia.
Qed.

(** The current call takes the lock and sends. *)
Lemma inv_start s e : inv s e -> pc_at s e = Some CWait -> exists e', inv (sc_start e s) e' /\
  ((e' = e /\ pc_at (sc_start e s) e = Some CReply) \/ (e' = S e /\ pc_at (sc_start e s) e = Some (CEnd []) /\ exists c, nth_error (sc_calls s) e = Some c /\ cl_wants c = false)).
Proof.
  intros I P. pose proof (pc_lt _ _ _ P) as Lt. unfold sc_start. destruct (nth_error (sc_calls s) e) as [c|] eqn:N; [|apply nth_error_None in N; lia].
  assert (S1 : sc_sent s ++ [cl_cmd c ++ [10]] = map wire (firstn (S e) (sc_calls s))).
  { rewrite (firstn_next _ _ _ N), map_app. rewrite (i_sent _ _ I). unfold started_count. rewrite P. reflexivity. }
  destruct (cl_wants c) eqn:Wa.
  - exists e. split; [|left; split; [reflexivity|unfold pc_at; cbn [sc_calls]; apply set_same, Lt]].
    constructor; cbn [sc_calls sc_line sc_sent sc_got]; unfold started_count, pc_at; cbn [sc_calls].
    + rewrite set_len. lia.
    + intros k Hk. rewrite set_other by lia. apply (i_done _ _ I). lia.
    + intros r. rewrite set_same by exact Lt. discriminate.
    + intros k Hk. rewrite set_len. intros L. rewrite set_other by lia. apply (i_wait _ _ I); lia.
    + rewrite set_len. apply (i_line _ _ I).
    + rewrite set_same by exact Lt. rewrite set_wire_firstn. exact S1.
    + intros k x H. destruct (i_got _ _ I k x H) as [Hk Pk]. split; [exact Hk|]. rewrite set_other by lia. exact Pk.
    + apply (i_once _ _ I).
  - exists (S e). split; [|right; split; [reflexivity|split; [unfold pc_at; cbn [sc_calls]; apply set_same, Lt|exists c; auto]]].
    constructor; cbn [sc_calls sc_line sc_sent sc_got]; unfold started_count, pc_at; cbn [sc_calls].
    + rewrite set_len. lia.
    + intros k Hk. destruct (Nat.eq_dec k e) as [->|Ne]; [rewrite set_same by exact Lt; eexists; reflexivity|]. rewrite set_other by exact Ne. apply (i_done _ _ I). lia.
    + intros x. rewrite set_other by lia. destruct (Nat.lt_ge_cases (S e) (List.length (sc_calls s))) as [L|L].
      * pose proof (i_wait _ _ I (S e) ltac:(lia) L) as W. unfold pc_at in W. rewrite W. discriminate.
      * rewrite (proj2 (nth_error_None _ _)) by exact L. discriminate.
    + intros k Hk. rewrite set_len. intros L. rewrite set_other by lia. apply (i_wait _ _ I); lia.
    + rewrite (i_line _ _ I), set_len. destruct (List.length (sc_calls s) - e)%nat as [|m] eqn:E; [lia|]. cbn [seq tl]. f_equal. lia.
    + rewrite set_other by lia.
      assert (W : match option_map cl_pc (nth_error (sc_calls s) (S e)) with Some CReply => S (S e) | _ => S e end = S e).
      { destruct (Nat.lt_ge_cases (S e) (List.length (sc_calls s))) as [L|L].
        - pose proof (i_wait _ _ I (S e) ltac:(lia) L) as W. unfold pc_at in W. rewrite W. reflexivity.
        - rewrite (proj2 (nth_error_None _ _)) by exact L. reflexivity. }
      rewrite W, set_wire_firstn. exact S1.
    + intros k x H. destruct (i_got _ _ I k x H) as [Hk Pk]. split; [lia|]. rewrite set_other by lia. exact Pk.
    + apply (i_once _ _ I).
Qed.

Definition queue_list (s : scpi) : list str := match sc_queue s with Some x => [x] | None => [] end.

Lemma seq_cons_inv e n k line : seq e n = k :: line -> k = e /\ line = seq (S e) (n - 1) /\ (0 < n)%nat.
Proof. destruct n; cbn [seq]; intros H; [discriminate|]. injection H as <- <-. split; [reflexivity|]. split; [f_equal; lia|lia]. Qed.

(** How far a step gets. *)
Inductive adv (s s' : scpi) (e : nat) (ev : sev) : nat -> Prop :=
| adv_none : sc_got s' = sc_got s -> adv s s' e ev e
| adv_empty : sc_got s' = sc_got s -> pc_at s' e = Some (CEnd []) ->
    (ev = STimeout e \/ exists c, nth_error (sc_calls s') e = Some c /\ cl_wants c = false) -> adv s s' e ev (S e)
| adv_item x : sc_queue s = Some x -> pc_at s e = Some CReply -> sc_got s' = sc_got s ++ [(e, x)] -> pc_at s' e = Some (CEnd x) -> adv s s' e ev (S e).
Definition pcs_kept (s s' : scpi) (e : nat) : Prop := forall k, (k < e)%nat -> pc_at s' k = pc_at s k.
Lemma start_adv s e : inv s e -> pc_at s e = Some CWait -> forall ev, exists e', inv (sc_start e s) e' /\ adv s (sc_start e s) e ev e' /\ pcs_kept s (sc_start e s) e.
Proof.
  intros I P ev. destruct (inv_start s e I P) as (e' & I' & H). exists e'. split; [exact I'|]. pose proof (pc_lt _ _ _ P) as Lt.
  assert (G : sc_got (sc_start e s) = sc_got s) by (unfold sc_start; destruct (nth_error _ e) as [c|]; [destruct (cl_wants c)|]; reflexivity).
  split.
  - destruct H as [[-> _]|(-> & Pe & c & N & W)]; [constructor; exact G|]. apply adv_empty; [exact G|exact Pe|]. right.
    exists (mkCall (cl_cmd c) false (CEnd [])). split; [|reflexivity]. unfold sc_start. rewrite N, W. cbn [sc_calls]. unfold set_call. rewrite N, W. apply upd_nth, Lt.
  - intros k Hk. unfold sc_start. destruct (nth_error (sc_calls s) e) as [c|]; [|reflexivity]. unfold pc_at. destruct (cl_wants c); cbn [sc_calls]; rewrite set_other by lia; reflexivity.
Qed.
Lemma step_inv s e ev : inv s e -> exists e', inv (sc_step s ev) e' /\ adv s (sc_step s ev) e ev e' /\ pcs_kept s (sc_step s ev) e.
Proof.
  intros I. assert (Id : exists e', inv s e' /\ adv s s e ev e' /\ pcs_kept s s e) by (exists e; split; [exact I|split; [constructor; reflexivity|intros k _; reflexivity]]). destruct ev as [cmd rs qu|k|k|data|]; cbn [sc_step].
  - set (s1 := mkScpi _ _ _ _ _ _).
    assert (I1 : inv s1 e).
    { assert (PA : forall k, (k < List.length (sc_calls s))%nat -> pc_at s1 k = pc_at s k) by (intros k H; unfold pc_at, s1; cbn [sc_calls]; rewrite nth_error_app1 by exact H; reflexivity).
      assert (PN : pc_at s1 (List.length (sc_calls s)) = Some CWait) by (unfold pc_at, s1; cbn [sc_calls]; rewrite nth_error_app2 by lia; rewrite Nat.sub_diag; reflexivity).
      assert (LN : List.length (sc_calls s1) = S (List.length (sc_calls s))) by (unfold s1; cbn [sc_calls]; rewrite app_length; cbn; lia).
      pose proof (i_le _ _ I) as Le. constructor.
      - lia.
      - intros k H. rewrite PA by lia. apply (i_done _ _ I), H.
      - intros r. destruct (Nat.eq_dec e (List.length (sc_calls s))) as [->|N]; [rewrite PN; discriminate|]. rewrite PA by lia. apply (i_cur _ _ I).
      - intros k H1 H2. destruct (Nat.eq_dec k (List.length (sc_calls s))) as [->|N]; [exact PN|]. rewrite PA by lia. apply (i_wait _ _ I); lia.
      - rewrite LN. unfold s1. cbn [sc_line]. rewrite (i_line _ _ I). replace (S (List.length (sc_calls s)) - e)%nat with (List.length (sc_calls s) - e + 1)%nat by lia.
        rewrite seq_app. cbn [seq]. do 3 f_equal. lia.
      - unfold started_count. change (sc_sent s1) with (sc_sent s). rewrite (i_sent _ _ I). unfold started_count. destruct (Nat.eq_dec e (List.length (sc_calls s))) as [E|N].
        + rewrite E, PN. rewrite (proj2 (nth_error_None (sc_calls s) (List.length (sc_calls s)))) || idtac.
          unfold pc_at. rewrite (proj2 (nth_error_None _ _)) by lia. cbn [option_map]. unfold s1. cbn [sc_calls]. rewrite firstn_app, Nat.sub_diag, firstn_O, app_nil_r. reflexivity.
        + rewrite PA by lia. f_equal. unfold s1. cbn [sc_calls]. rewrite firstn_app.
          destruct (pc_at s e) as [[| |]|]; match goal with |- context [(?a - List.length (sc_calls s))%nat] => replace (a - List.length (sc_calls s))%nat with 0%nat by lia end; rewrite firstn_O, app_nil_r; reflexivity.
      - intros k x H. destruct (i_got _ _ I k x H) as [Hk Pk]. split; [exact Hk|]. rewrite PA by lia. exact Pk.
      - apply (i_once _ _ I). }
    assert (K1 : pcs_kept s s1 e) by (intros k Hk; pose proof (i_le _ _ I); unfold pc_at, s1; cbn [sc_calls]; rewrite nth_error_app1 by lia; reflexivity).
    destruct (sc_line s) as [|j line] eqn:L; [|exists e; split; [exact I1|split; [constructor; reflexivity|exact K1]]].
    rewrite (i_line _ _ I) in L. pose proof (i_le _ _ I) as Le. assert (E : List.length (sc_calls s) = e) by (destruct (List.length (sc_calls s) - e)%nat eqn:X; [lia|discriminate]).
    destruct (start_adv s1 e I1) with (ev := SCall cmd rs qu) as (e' & I' & A & K).
    { unfold pc_at, s1. cbn [sc_calls]. rewrite nth_error_app2 by lia. rewrite E, Nat.sub_diag. reflexivity. }
    exists e'. rewrite E. split; [exact I'|]. split; [|intros k Hk; rewrite K by exact Hk; apply K1, Hk].
    destruct A as [G|G Pe O|x Hq Hp G Pe]; [constructor; assumption|apply adv_empty; assumption|]. exfalso. unfold pc_at, s1 in Hp; cbn [sc_calls] in Hp; rewrite nth_error_app2 in Hp by lia; rewrite E, Nat.sub_diag in Hp; discriminate.
  - destruct (sc_line s) as [|j line] eqn:L; [exact Id|]. destruct (Nat.eqb_spec j k) as [->|]; [|exact Id].
    rewrite (i_line _ _ I) in L. destruct (seq_cons_inv _ _ _ _ L) as (-> & Ln & Pos).
    destruct (nth_error (sc_calls s) e) as [c|] eqn:N; [|exact Id]. destruct (cl_pc c) eqn:P.
    + apply start_adv; [exact I|]. unfold pc_at; rewrite N; cbn; rewrite P; reflexivity.
    + destruct (sc_queue s) as [x|] eqn:Q; [|exact Id]. exists (S e).
      assert (PE : pc_at s e = Some CReply) by (unfold pc_at; rewrite N; cbn; rewrite P; reflexivity).
      pose proof (inv_end s e x None (sc_pending s) (sc_got s ++ [(e, x)]) I PE (or_intror eq_refl)) as X. rewrite (i_line _ _ I), L in X. split; [exact X|]. split.
      * apply (adv_item _ _ _ _ x); [exact Q|exact PE|reflexivity|]. unfold pc_at. cbn [sc_calls]. apply set_same. apply (pc_lt _ _ _ PE).
      * intros k Hk. unfold pc_at. cbn [sc_calls]. rewrite set_other by lia. reflexivity.
    + exact Id.
  - destruct (sc_line s) as [|j line] eqn:L; [exact Id|]. destruct (Nat.eqb_spec j k) as [->|]; [|exact Id].
    rewrite (i_line _ _ I) in L. destruct (seq_cons_inv _ _ _ _ L) as (-> & Ln & Pos).
    destruct (nth_error (sc_calls s) e) as [c|] eqn:N; [|exact Id]. destruct (cl_pc c) eqn:P; [exact Id| |exact Id].
    exists (S e). assert (PE : pc_at s e = Some CReply) by (unfold pc_at; rewrite N; cbn; rewrite P; reflexivity).
    pose proof (inv_end s e [] (sc_queue s) (sc_pending s) (sc_got s) I PE (or_introl eq_refl)) as X. rewrite (i_line _ _ I), L in X. split; [exact X|]. split.
    + apply adv_empty; [reflexivity| |left; reflexivity]. unfold pc_at. cbn [sc_calls]. apply set_same. apply (pc_lt _ _ _ PE).
    + intros k Hk. unfold pc_at. cbn [sc_calls]. rewrite set_other by lia. reflexivity.
  - exists e. split; [|split; [constructor; reflexivity|intros k _; reflexivity]]. destruct I. constructor; assumption.
  - destruct (sc_queue s); [exact Id|]. destruct (sc_pending s); [exact Id|]. exists e. split; [|split; [constructor; reflexivity|intros k _; reflexivity]]. destruct I. constructor; assumption.
Qed.
Lemma run_inv h : forall s e, inv s e -> exists e', inv (sc_run s h) e'.
Proof. induction h as [|ev h IH]; intros s e I; [exists e; exact I|]. cbn [sc_run fold_left]. destruct (step_inv s e ev I) as (e' & I' & _). apply (IH _ e' I'). Qed.

(** ** Items pass through in order *)
Lemma start_items k s : sc_got (sc_start k s) = sc_got s /\ queue_list (sc_start k s) = queue_list s /\ sc_pending (sc_start k s) = sc_pending s.
Proof. unfold sc_start. destruct (nth_error _ k) as [c|]; [destruct (cl_wants c)|]; auto. Qed.
Definition flow (s : scpi) : list str := map snd (sc_got s) ++ queue_list s ++ sc_pending s.
Lemma step_flow s ev : flow (sc_step s ev) = flow s ++ match ev with SChunk d => items d | _ => [] end.
Proof.
  assert (St : forall k s, flow (sc_start k s) = flow s ++ []) by (intros k s0; destruct (start_items k s0) as (A & B & C); unfold flow; rewrite A, B, C, app_nil_r; reflexivity).
  destruct ev as [cmd rs qu|k|k|data|]; cbn [sc_step].
  - destruct (sc_line s); [rewrite St|]; rewrite !app_nil_r; reflexivity.
  - destruct (sc_line s) as [|j line]; [rewrite app_nil_r; reflexivity|]. destruct (Nat.eqb j k); [|rewrite app_nil_r; reflexivity].
    destruct (nth_error _ k) as [c|]; [|rewrite app_nil_r; reflexivity]. destruct (cl_pc c); [apply St| |rewrite app_nil_r; reflexivity].
    destruct (sc_queue s) as [x|] eqn:Q; [|rewrite app_nil_r; reflexivity]. unfold flow, queue_list. cbn [sc_got sc_queue sc_pending]. rewrite Q, map_app, app_nil_r, <- app_assoc. reflexivity.
  - rewrite app_nil_r. destruct (sc_line s) as [|j line]; [reflexivity|]. destruct (Nat.eqb j k); [|reflexivity].
    destruct (nth_error _ k) as [c|]; [|reflexivity]. destruct (cl_pc c); reflexivity.
  - unfold flow. cbn [sc_got sc_pending]. change (queue_list _) with (queue_list s) at 1. rewrite <- !app_assoc. reflexivity.
  - rewrite app_nil_r. unfold flow, queue_list. destruct (sc_queue s) eqn:Q; [rewrite Q; reflexivity|]. destruct (sc_pending s) eqn:P; [rewrite Q, P; reflexivity|]. reflexivity.
Qed.
Lemma run_flow h : forall s, flow (sc_run s h) = flow s ++ flat_map items (arrived h).
Proof.
  induction h as [|ev h IH]; intros s; [cbn; rewrite app_nil_r; reflexivity|]. cbn [sc_run fold_left]. change (fold_left sc_step h (sc_step s ev)) with (sc_run (sc_step s ev) h).
  rewrite IH, step_flow. unfold arrived. cbn [flat_map]. rewrite flat_map_app, <- app_assoc. destruct ev; cbn [flat_map]; rewrite ?app_nil_r; reflexivity.
Qed.

(** ** The calls of a history *)
Definition wants_of (c : call) : str * bool := (wire c, cl_wants c).
Lemma set_wants k pc l : map wants_of (set_call k pc l) = map wants_of l.
Proof. unfold set_call. destruct (nth_error l k) as [c|] eqn:N; [|reflexivity]. rewrite upd_map. apply upd_id. rewrite nth_error_map, N. reflexivity. Qed.
Lemma start_wants k s : map wants_of (sc_calls (sc_start k s)) = map wants_of (sc_calls s).
Proof. unfold sc_start. destruct (nth_error _ k) as [c|]; [destruct (cl_wants c); cbn [sc_calls]; apply set_wants|reflexivity]. Qed.
Definition asked (e : sev) : list (str * bool) := match e with SCall c r q => [((if q then c ++ lit "?" else c) ++ [10], r || q)] | _ => [] end.
Lemma step_wants s ev : map wants_of (sc_calls (sc_step s ev)) = map wants_of (sc_calls s) ++ asked ev.
Proof.
  destruct ev as [cmd rs qu|k|k|data|]; cbn [sc_step asked].
  - destruct (sc_line s); [rewrite start_wants|]; cbn [sc_calls]; rewrite map_app; reflexivity.
  - rewrite app_nil_r. destruct (sc_line s) as [|j line]; [reflexivity|]. destruct (Nat.eqb j k); [|reflexivity].
    destruct (nth_error _ k) as [c|]; [|reflexivity]. destruct (cl_pc c); [apply start_wants| |reflexivity]. destruct (sc_queue s); [apply set_wants|reflexivity].
  - rewrite app_nil_r. destruct (sc_line s) as [|j line]; [reflexivity|]. destruct (Nat.eqb j k); [|reflexivity].
    destruct (nth_error _ k) as [c|]; [|reflexivity]. destruct (cl_pc c); [reflexivity|apply set_wants|reflexivity].
  - rewrite app_nil_r. reflexivity.
  - rewrite app_nil_r. destruct (sc_queue s); [reflexivity|]. destruct (sc_pending s); reflexivity.
Qed.
Lemma run_wants h : forall s, map wants_of (sc_calls (sc_run s h)) = map wants_of (sc_calls s) ++ flat_map asked h.
Proof.
  induction h as [|ev h IH]; intros s; [cbn; rewrite app_nil_r; reflexivity|]. cbn [sc_run fold_left flat_map]. change (fold_left sc_step h (sc_step s ev)) with (sc_run (sc_step s ev) h).
  rewrite IH, step_wants, <- app_assoc. reflexivity.
Qed.
Lemma asked_commands h : map fst (flat_map asked h) = commands h.
Proof. induction h as [|[c r q| | | |] h IH]; cbn [flat_map asked map app]; try exact IH; [reflexivity|]. cbn [fst]. rewrite IH. unfold commands. reflexivity. Qed.
Lemma asked_expects h : map snd (flat_map asked h) = expects_reply h.
Proof. induction h as [|[c r q| | | |] h IH]; cbn [flat_map asked map app]; try exact IH; [reflexivity|]. cbn [snd]. rewrite IH. unfold expects_reply. reflexivity. Qed.
Lemma asked_app h1 h2 : expects_reply (h1 ++ h2) = expects_reply h1 ++ expects_reply h2.
Proof. apply flat_map_app. Qed.

(** ** A whole line is one item *)
Lemma pieces_line x : forall cur, (forall c, In c x -> is_break c = false) -> pieces cur (x ++ [10]) = [cur ++ x; []].
Proof.
  induction x as [|c x IH]; intros cur H; cbn [pieces app].
  - change (is_break 10) with true. cbn iota. rewrite app_nil_r. reflexivity.
  - rewrite (H c (or_introl eq_refl)). rewrite IH by (intros d Hd; apply H; right; exact Hd). rewrite <- app_assoc. reflexivity.
Qed.
Lemma items_line x : is_line x -> items (x ++ [10]) = [x].
Proof. intros [N H]. unfold items. rewrite pieces_line by exact H. cbn [app filter]. destruct x; [congruence|reflexivity]. Qed.
Lemma items_lines l : Forall is_line l -> flat_map items (map (fun x => x ++ [10]) l) = l.
Proof. induction 1 as [|x l H _ IH]; [reflexivity|]. cbn [map flat_map]. rewrite items_line by exact H. cbn [app]. rewrite IH. reflexivity. Qed.

(** ** A regular instrument *)
Definition opt (o : option str) : list str := match o with Some x => [x] | None => [] end.
Lemma replies_S d n : replies d (S n) = replies d n ++ opt (d n).
Proof. unfold replies. rewrite seq_S, flat_map_app. cbn [flat_map Nat.add]. rewrite app_nil_r. reflexivity. Qed.
Lemma replies_lines d n : (forall k x, d k = Some x -> is_line x) -> Forall is_line (replies d n).
Proof.
  intros H. apply Forall_forall. intros x Hx. unfold replies in Hx. apply in_flat_map in Hx. destruct Hx as (k & _ & Hx). destruct (d k) as [y|] eqn:E; [|destruct Hx].
  destruct Hx as [<-|[]]. apply (H k y E).
Qed.
Definition expected (d : nat -> option str) (k : nat) : str := match d k with Some x => x | None => [] end.
Lemma map_app_inv {A B} (f : A -> B) l a b : map f l = a ++ b -> exists a' b', l = a' ++ b' /\ map f a' = a.
Proof.
  revert l. induction a as [|x a IH]; intros l H; [exists [], l; auto|]. destruct l as [|y l]; [discriminate|]. injection H as E H. destruct (IH l H) as (a' & b' & -> & <-).
  exists (y :: a'), b'. split; [reflexivity|]. cbn [map]. rewrite E. reflexivity.
Qed.
Lemma started_len s e : inv s e -> List.length (sc_sent s) = started_count s e.
Proof.
  intros I. rewrite (i_sent _ _ I), map_length, firstn_length. pose proof (i_le _ _ I). unfold started_count.
  destruct (pc_at s e) as [[| |r]|] eqn:P; try lia. pose proof (pc_lt _ _ _ P). lia.
Qed.
Lemma regular_run d h : regular d h -> (forall k, In (STimeout k) h -> d k = None) -> (forall k, nth_error (expects_reply h) k = Some false -> d k = None) ->
  forall h1 h2, h = h1 ++ h2 -> let s := sc_run sc_new h1 in
  exists e, inv s e /\ map snd (sc_got s) = replies d e /\ forall k, (k < e)%nat -> pc_at s k = Some (CEnd (expected d k)).
Proof.
  intros [Ln Rg] T W h1. induction h1 as [|ev h1 IH] using rev_ind; intros h2 E; cbv zeta.
  - exists 0%nat. split; [exact inv_new|]. split; [reflexivity|]. intros k Hk. lia.
  - rewrite <- app_assoc in E. destruct (IH _ E) as (e & I & G & R). clear IH. set (s := sc_run sc_new h1) in *.
    assert (Hs : sc_run sc_new (h1 ++ [ev]) = sc_step s ev) by (unfold s, sc_run; rewrite fold_left_app; reflexivity). rewrite Hs.
    destruct (step_inv s e ev I) as (e' & I' & A & K). exists e'. split; [exact I'|].
    (* what has arrived so far *)
    destruct (Rg h1 ([ev] ++ h2) E) as [later L]. fold s in L. rewrite (started_len s e I) in L.
    assert (F : exists more, replies d (started_count s e) = flow s ++ more).
    { destruct (map_app_inv _ _ _ _ L) as (a & b & EE & MA). exists b. rewrite EE. f_equal. unfold s. rewrite run_flow. cbn [flow sc_got sc_new map queue_list sc_queue sc_pending app]. rewrite <- MA.
      symmetry. apply items_lines. pose proof (replies_lines d (started_count s e) Ln) as FA. rewrite EE in FA. apply Forall_app in FA. apply FA. }
    destruct F as [more F]. unfold flow in F. rewrite G in F.
    assert (Dn : pc_at (sc_step s ev) e = Some (CEnd []) -> (ev = STimeout e \/ exists c, nth_error (sc_calls (sc_step s ev)) e = Some c /\ cl_wants c = false) -> d e = None).
    { intros _ [->|(c & N & Wc)].
      - apply T. rewrite E. apply in_app_iff. right. left. reflexivity.
      - apply W. rewrite E. replace (h1 ++ [ev] ++ h2) with ((h1 ++ [ev]) ++ h2) by (rewrite <- app_assoc; reflexivity). rewrite asked_app.
        assert (X : nth_error (expects_reply (h1 ++ [ev])) e = Some false).
        { rewrite <- asked_expects. pose proof (run_wants (h1 ++ [ev]) sc_new) as RW. cbn [sc_calls sc_new map app] in RW. rewrite <- RW, Hs, !nth_error_map, N. cbn. rewrite Wc. reflexivity. }
        rewrite nth_error_app1; [exact X|]. apply nth_error_Some. rewrite X. discriminate. }
    destruct A as [Ga|Ga Pe O|x Q P Ga Pe].
    + rewrite Ga, G. split; [reflexivity|]. intros k Hk. rewrite K by exact Hk. apply R, Hk.
    + specialize (Dn Pe O). rewrite Ga, G, replies_S, Dn. split; [cbn; rewrite app_nil_r; reflexivity|]. intros k Hk.
      destruct (Nat.eq_dec k e) as [->|Ne]; [rewrite Pe; unfold expected; rewrite Dn; reflexivity|]. rewrite K by lia. apply R. lia.
    + assert (De : d e = Some x).
      { unfold started_count in F. rewrite P in F. rewrite replies_S, <- app_assoc in F. apply app_inv_head in F. unfold queue_list in F. rewrite Q in F.
        destruct (d e) as [y|]; [|discriminate]. injection F as -> _. reflexivity. }
      rewrite Ga, map_app, G, replies_S, De. split; [reflexivity|]. intros k Hk.
      destruct (Nat.eq_dec k e) as [->|Ne]; [rewrite Pe; unfold expected; rewrite De; reflexivity|]. rewrite K by lia. apply R. lia.
Qed.

(** ** After a late reply *)
Lemma upd_last {A} (l : list A) x y : upd (List.length l) y (l ++ [x]) = l ++ [y].
Proof. induction l as [|a l IH]; cbn; [reflexivity|]. f_equal. exact IH. Qed.
Lemma nth_last {A} (l : list A) x : nth_error (l ++ [x]) (List.length l) = Some x.
Proof. rewrite nth_error_app2 by lia. rewrite Nat.sub_diag. reflexivity. Qed.
Lemma set_last l c pc : set_call (List.length l) pc (l ++ [c]) = l ++ [mkCall (cl_cmd c) (cl_wants c) pc].
Proof. unfold set_call. rewrite nth_last. apply upd_last. Qed.
Definition turn (i : nat) (c r : str) : list sev := [SCall c true false; SMove i; SChunk (r ++ [10]); SReader].
Fixpoint turns (i : nat) (l : list (str * str)) : list sev := match l with [] => [] | (c, r) :: l => turn i c r ++ turns (S i) l end.
Lemma turn_run calls sent got q c r : is_line r ->
  sc_run (mkScpi calls [] sent (Some q) [] got) (turn (List.length calls) c r) =
  mkScpi (calls ++ [mkCall c true (CEnd q)]) [] (sent ++ [c ++ [10]]) (Some r) [] (got ++ [(List.length calls, q)]).
Proof.
  intros L. unfold sc_run, turn. cbn [fold_left]. set (n := List.length calls).
  assert (E1 : sc_step (mkScpi calls [] sent (Some q) [] got) (SCall c true false) = mkScpi (calls ++ [mkCall c true CReply]) [n] (sent ++ [c ++ [10]]) (Some q) [] got).
  { cbn [sc_step sc_line sc_calls command_text orb app sc_queue sc_sent sc_pending sc_got]. fold n. unfold sc_start. cbn [sc_calls]. unfold n. rewrite nth_last. cbn [cl_wants cl_cmd sc_line sc_sent sc_queue sc_pending sc_got]. rewrite set_last. reflexivity. }
  rewrite E1.
  assert (E2 : sc_step (mkScpi (calls ++ [mkCall c true CReply]) [n] (sent ++ [c ++ [10]]) (Some q) [] got) (SMove n) = mkScpi (calls ++ [mkCall c true (CEnd q)]) [] (sent ++ [c ++ [10]]) None [] (got ++ [(n, q)])).
  { cbn [sc_step sc_line sc_calls sc_queue sc_sent sc_pending sc_got]. rewrite Nat.eqb_refl. unfold n. rewrite nth_last. cbn [cl_pc]. rewrite set_last. reflexivity. }
  rewrite E2. cbn [sc_step sc_line sc_calls sc_queue sc_sent sc_pending sc_got app]. rewrite items_line by exact L. reflexivity.
Qed.
Lemma turns_run l : Forall (fun x => is_line (snd x)) l -> forall calls sent got q,
  exists sent' got' q', sc_run (mkScpi calls [] sent (Some q) [] got) (turns (List.length calls) l) =
  mkScpi (calls ++ map (fun x => mkCall (fst x) true (CEnd (snd x))) (combine (map fst l) (q :: map snd l))) [] sent' (Some q') [] got'.
Proof.
  induction 1 as [|[c r] l H _ IH]; intros calls sent got q.
  - exists sent, got, q. cbn. rewrite app_nil_r. reflexivity.
  - cbn [turns]. unfold sc_run. rewrite fold_left_app. change (fold_left sc_step (turn (List.length calls) c r)) with (fun s => sc_run s (turn (List.length calls) c r)). cbn beta.
    rewrite turn_run by exact H. replace (S (List.length calls)) with (List.length (calls ++ [mkCall c true (CEnd q)])) by (rewrite app_length; cbn; lia).
    destruct (IH (calls ++ [mkCall c true (CEnd q)]) (sent ++ [c ++ [10]]) (got ++ [(List.length calls, q)]) r) as (s' & g' & q' & E).
    exists s', g', q'. unfold sc_run in E. rewrite E. cbn [map combine fst snd]. rewrite <- app_assoc. reflexivity.
Qed.
