(** Lemmas for message framing. *)
From Coq Require Import ZifyBool ZifyNat.
From Verif Require Import Base BaseLemmas PrimModel PrimSpec PrimProofs FifoModel
  MessageModel MessageSpec.

Lemma pop_some n buf a b : 0 <= n -> fifo_pop n buf = Some (a, b) ->
  buf = a ++ b /\ zlen a = n.
Proof.
  intros Hn. unfold fifo_pop. destruct (Z.leb_spec n (zlen buf)); [|discriminate].
  intros H0; injection H0 as <- <-. split; [symmetry; apply firstn_skipn|].
  unfold zlen in *. rewrite firstn_length. lia.
Qed.
Lemma pop_app n buf d a b : 0 <= n -> fifo_pop n buf = Some (a, b) ->
  fifo_pop n (buf ++ d) = Some (a, b ++ d).
Proof.
  intros Hn H. destruct (pop_some _ _ _ _ Hn H) as [-> L]. unfold fifo_pop.
  rewrite !zlen_app, L. pose proof (zlen_nonneg b). pose proof (zlen_nonneg d).
  destruct (Z.leb_spec n (n + zlen b + zlen d)); [|lia].
  assert (E : Z.to_nat n = List.length a) by (unfold zlen in L; lia).
  rewrite E, <- app_assoc. rewrite firstn_app, skipn_app, Nat.sub_diag, firstn_all, skipn_all.
  cbn. rewrite app_nil_r. reflexivity.
Qed.
Lemma pop_none n buf : fifo_pop n buf = None <-> zlen buf < n.
Proof. unfold fifo_pop. destruct (Z.leb_spec n (zlen buf)); split; try discriminate; auto; lia. Qed.
Lemma pop_exact n a b : zlen a = n -> fifo_pop n (a ++ b) = Some (a, b).
Proof.
  intros L. unfold fifo_pop. rewrite zlen_app. pose proof (zlen_nonneg b).
  destruct (Z.leb_spec n (zlen a + zlen b)); [|lia].
  assert (E : Z.to_nat n = List.length a) by (unfold zlen in L; lia).
  rewrite E, firstn_app, skipn_app, Nat.sub_diag, firstn_all, skipn_all.
  cbn. rewrite app_nil_r. reflexivity.
Qed.

Definition all (m : list Z) : bool := true.

Section Host.
  Context (native_le : bool) (lk : kind) (bo : byte_order) (bits : Z).
  Context (Hlk : int_kind lk bits false).
  Notation turn_ := (m_turn native_le lk bo).
  Notation loop := (m_loop native_le lk bo).
  Notation process := (m_process native_le lk bo).
  Notation feed := (m_feed native_le lk bo).

  (** The stored length is never negative. *)
  Definition MInv (p : mproc) : Prop := 0 <= m_len p.

  Lemma store_nonneg v : 0 <= k_store lk v.
  Proof.
    pose proof (store_value lk v) as H. apply (int_kind_value lk bits false) in H; [|exact Hlk].
    unfold representable in H. lia.
  Qed.
  Lemma size_pos : (0 < k_size lk)%nat.
  Proof. destruct lk; cbn; lia. Qed.

  Definition add (p : mproc) (d : list Z) := mkMproc (m_buf p ++ d) (m_header p) (m_len p).
  Definition meas (p : mproc) : nat :=
    2 * List.length (m_buf p) + (if m_header p then 0 else 1).

  Lemma turn_never_raises p p' : MInv p -> turn_ p <> TRaise p'.
  Proof.
    intros _. unfold m_turn. destruct (m_header p).
    - destruct (fifo_pop _ _) as [[a b]|] eqn:E; [|discriminate].
      destruct (k_decode native_le lk bo a) eqn:D; [discriminate|].
      apply pop_some in E as [_ L]; [|lia].
      assert (exists v, k_decode native_le lk bo a = Some v) as [v Hv].
      { apply decode_length_iff. unfold zlen in L. lia. }
      congruence.
    - destruct (fifo_pop _ _) as [[a b]|]; discriminate.
  Qed.
  Lemma turn_cont p p' : MInv p -> turn_ p = TCont p' ->
    MInv p' /\ (meas p' < meas p)%nat /\ forall d, turn_ (add p d) = TCont (add p' d).
  Proof.
    intros I. unfold m_turn, add, meas; cbn. destruct (m_header p).
    - destruct (fifo_pop _ _) as [[a b]|] eqn:E; [|discriminate].
      destruct (k_decode native_le lk bo a) eqn:D; [|discriminate].
      intros H; injection H as <-. cbn. split; [|split].
      + apply store_nonneg.
      + apply pop_some in E as [-> L]; [|lia]. rewrite app_length. pose proof size_pos.
        unfold zlen in L. lia.
      + intros d. rewrite (pop_app _ _ d _ _ (Nat2Z.is_nonneg _) E), D. reflexivity.
    - destruct (fifo_pop _ _) as [[a b]|]; discriminate.
  Qed.
  Lemma turn_yield p m p' : MInv p -> turn_ p = TYield m p' ->
    let q := mkMproc (m_buf p') true (m_len p') in
    MInv q /\ MInv p' /\ (meas q < meas p)%nat /\
    (forall d, turn_ (add p d) = TYield m (add p' d)) /\ m_header p = false /\
    m_buf p = m ++ m_buf p' /\ zlen m = m_len p /\ m_len p' = m_len p /\ m_header p' = false.
  Proof.
    intros I. unfold m_turn, add, meas; cbn. destruct (m_header p).
    - destruct (fifo_pop _ _) as [[a b]|]; [|discriminate].
      destruct (k_decode native_le lk bo a); discriminate.
    - destruct (fifo_pop _ _) as [[a b]|] eqn:E; [|discriminate].
      intros H; injection H as <- <-. cbn. split; [exact I|]. split; [exact I|].
      pose proof (pop_some _ _ _ _ I E) as [Eb L].
      split; [rewrite Eb, app_length; lia|].
      split; [|repeat split; auto].
      intros d. rewrite (pop_app _ _ d _ _ I E). reflexivity.
  Qed.

  (** Enough fuel: the loop stops by itself. *)
  Lemma loop_fuel acc fuel : forall p, MInv p -> (meas p < fuel)%nat ->
    exists ms q e, loop acc fuel p = (ms, q, e) /\ MInv q /\
      (e = EDone \/ e = ELeft) /\ (e = EDone -> turn_ q = TStop) /\
      (forall fuel', (meas p < fuel')%nat -> loop acc fuel' p = (ms, q, e)).
  Proof.
    induction fuel as [|fuel IH]; intros p I Hf; [lia|].
    cbn [m_loop]. destruct (turn_ p) as [|p'|m p'|p'] eqn:T.
    - do 3 eexists. split; [reflexivity|]. repeat split; auto.
      intros [|f] Hf'; [lia|]. cbn [m_loop]. rewrite T. reflexivity.
    - destruct (turn_cont _ _ I T) as (I' & M & _).
      destruct (IH p' I' ltac:(lia)) as (ms & q & e & E & Iq & He & Hs & Hx).
      exists ms, q, e. repeat split; auto.
      intros [|f] Hf'; [lia|]. cbn [m_loop]. rewrite T. apply Hx. lia.
    - destruct (turn_yield _ _ _ I T) as (I' & I'' & M & _).
      destruct (acc m) eqn:A.
      + destruct (IH _ I' ltac:(lia)) as (ms & q & e & E & Iq & He & Hs & Hx).
        exists (m :: ms), q, e. rewrite E. repeat split; auto.
        intros [|f] Hf'; [lia|]. cbn [m_loop]. rewrite T, A, Hx by lia. reflexivity.
      + do 3 eexists. split; [reflexivity|]. repeat split; auto; [discriminate|].
        intros [|f] Hf'; [lia|]. cbn [m_loop]. rewrite T, A. reflexivity.
    - destruct (turn_never_raises p p' I T).
  Qed.

  Lemma all_done fuel : forall p ms q e, loop all fuel p = (ms, q, e) -> e <> ELeft.
  Proof.
    induction fuel as [|fuel IH]; intros p ms q e; cbn [m_loop].
    - intros H; injection H as <- <- <-. discriminate.
    - destruct (turn_ p) as [|p'|m p'|p'].
      + intros H; injection H as <- <- <-. discriminate.
      + apply IH.
      + cbn [all]. destruct (loop all fuel _) as [[ms' q'] e'] eqn:E.
        intros H; injection H as <- <- <-. eapply IH; exact E.
      + intros H; injection H as <- <- <-. discriminate.
  Qed.

  (** Running on, then feeding more, is feeding everything at once. *)
  Lemma loop_add fuel : forall p d ms q,
    MInv p -> loop all fuel p = (ms, q, EDone) ->
    exists ms' q', loop all (fuel + (meas (add q d) + 1)) (add p d) = (ms ++ ms', q', EDone) /\
      loop all (meas (add q d) + 1) (add q d) = (ms', q', EDone).
  Proof.
    induction fuel as [|fuel IH]; intros p d ms q I; cbn [m_loop]; [discriminate|].
    destruct (turn_ p) as [|p'|m p'|p'] eqn:T.
    - intros H; injection H as <- <-.
      destruct (loop_fuel all (meas (add p d) + 1) (add p d) I ltac:(lia))
        as (ms & q & e & E & _ & He & _ & Hx).
      assert (e = EDone) as ->.
      { pose proof (all_done _ _ _ _ _ E). tauto. }
      exists ms, q. split; [|exact E]. cbn [app]. apply Hx. lia.
    - destruct (turn_cont _ _ I T) as (I' & _ & Ha). intros H.
      destruct (IH p' d ms q I' H) as (ms' & q' & E1 & E2).
      exists ms', q'. split; [|exact E2]. cbn [Nat.add m_loop]. rewrite Ha. exact E1.
    - destruct (turn_yield _ _ _ I T) as (I' & _ & _ & Ha & _). cbn [all].
      destruct (loop all fuel _) as [[ms0 q0] e0] eqn:E.
      intros H; injection H as <- -> ->.
      destruct (IH _ d ms0 q I' E) as (ms' & q' & E1 & E2).
      exists ms', q'. split; [|exact E2]. cbn [Nat.add m_loop]. rewrite Ha. cbn [all].
      unfold add in *. cbn in *. rewrite E1. reflexivity.
    - destruct (turn_never_raises p p' I T).
  Qed.

  Lemma process_done p d : MInv p ->
    exists ms q, process all p d = (ms, q, EDone) /\ MInv q /\ turn_ q = TStop.
  Proof.
    intros I. unfold m_process, m_fuel.
    destruct (loop_fuel all (2 * List.length (m_buf p ++ d) + 2) (add p d) I)
      as (ms & q & e & E & Iq & He & Hs & _).
    { unfold meas, add; cbn. destruct (m_header p); lia. }
    assert (e = EDone) as ->.
    { pose proof (all_done _ _ _ _ _ E). tauto. }
    exists ms, q. unfold add in E. cbn [m_buf] in *. auto.
  Qed.

  Lemma loop_mono acc fuel : forall p ms q e k,
    loop acc fuel p = (ms, q, e) -> e <> EFuel -> loop acc (fuel + k) p = (ms, q, e).
  Proof.
    induction fuel as [|fuel IH]; intros p ms q e k; cbn [Nat.add m_loop].
    - intros H; injection H as <- <- <-. congruence.
    - destruct (turn_ p) as [|p'|m p'|p']; auto.
      destruct (acc m); [|auto].
      destruct (loop acc fuel _) as [[ms' q'] e'] eqn:E.
      intros H N; injection H as <- <- <-. rewrite (IH _ _ _ _ k E N). reflexivity.
  Qed.
  Lemma loop_det acc f1 f2 p r1 r2 :
    loop acc f1 p = r1 -> loop acc f2 p = r2 -> snd r1 <> EFuel -> snd r2 <> EFuel -> r1 = r2.
  Proof.
    destruct r1 as [[m1 q1] e1], r2 as [[m2 q2] e2]; cbn [snd]. intros H1 H2 N1 N2.
    pose proof (loop_mono _ _ _ _ _ _ f2 H1 N1) as G1.
    pose proof (loop_mono _ _ _ _ _ _ f1 H2 N2) as G2.
    rewrite Nat.add_comm in G2. congruence.
  Qed.

  Lemma process_app p a b ms q ms' q' : MInv p ->
    process all p a = (ms, q, EDone) -> process all q b = (ms', q', EDone) ->
    process all p (a ++ b) = (ms ++ ms', q', EDone).
  Proof.
    intros I Ha Hb. destruct (process_done p (a ++ b) I) as (x & y & Ex & _).
    rewrite Ex. unfold m_process in *.
    fold (add p a) in Ha. fold (add q b) in Hb. fold (add p (a ++ b)) in Ex.
    destruct (loop_add _ (add p a) b ms q I Ha) as (ms0 & q0 & E1 & E2).
    pose proof (loop_det _ _ _ _ _ _ Hb E2 ltac:(discriminate) ltac:(discriminate)) as E.
    injection E as <- <-.
    assert (Eadd : add (add p a) b = add p (a ++ b)) by (unfold add; cbn; rewrite app_assoc; reflexivity).
    rewrite Eadd in E1.
    exact (loop_det _ _ _ _ _ _ Ex E1 ltac:(discriminate) ltac:(discriminate)).
  Qed.

  Lemma process_nil p : turn_ p = TStop -> process all p [] = ([], p, EDone).
  Proof.
    intros T. unfold m_process, m_fuel. rewrite app_nil_r.
    replace (mkMproc (m_buf p) (m_header p) (m_len p)) with p by (destruct p; reflexivity).
    rewrite Nat.add_comm. cbn [Nat.add m_loop]. rewrite T. reflexivity.
  Qed.

  (** Feeding chunks is processing their concatenation. *)
  Lemma feed_concat chunks : forall p, MInv p -> turn_ p = TStop ->
    exists ms q, feed all p chunks = (ms, q) /\
      process all p (List.concat chunks) = (ms, q, EDone) /\ turn_ q = TStop /\ MInv q.
  Proof.
    induction chunks as [|c cs IH]; intros p I T; cbn [m_feed List.concat].
    - exists [], p. split; [reflexivity|]. split; [apply process_nil; exact T|auto].
    - destruct (process_done p c I) as (ms & q & E & Iq & Tq). rewrite E.
      destruct (IH q Iq Tq) as (ms' & q' & Ef & Ep & T' & I'). rewrite Ef.
      do 2 eexists. split; [reflexivity|]. split; [|auto].
      eapply process_app; eauto.
  Qed.

  (** One whole frame at a message boundary. *)
  Lemma encode_ok m : zlen m < 2 ^ bits ->
    exists h, m_encode native_le lk bo m = Some (h ++ m) /\
      zlen h = Z.of_nat (k_size lk) /\ k_decode native_le lk bo h = Some (zlen m) /\
      k_store lk (zlen m) = zlen m.
  Proof.
    intros L. pose proof (zlen_nonneg m).
    assert (V : k_value lk (zlen m)).
    { apply (int_kind_value lk bits false); [exact Hlk|]. unfold representable. lia. }
    unfold m_encode. rewrite (store_id _ _ V), (encode_some native_le lk bo _ V).
    exists (order_bytes native_le bo (le_bytes (k_size lk) (zlen m))). split; [reflexivity|].
    pose proof (encode_some native_le lk bo _ V) as E.
    split; [|split; [|reflexivity]].
    - pose proof (encode_length _ _ _ _ _ E). unfold zlen at 1. lia.
    - eapply decode_encode; eauto.
  Qed.

  Lemma turn_header h n rest len : zlen h = Z.of_nat (k_size lk) ->
    k_decode native_le lk bo h = Some n ->
    turn_ (mkMproc (h ++ rest) true len) = TCont (mkMproc rest false (k_store lk n)).
  Proof.
    intros L D. unfold m_turn; cbn [m_header m_buf]. rewrite (pop_exact _ _ _ L), D. reflexivity.
  Qed.
  Lemma turn_payload m rest len : len = zlen m ->
    turn_ (mkMproc (m ++ rest) false len) = TYield m (mkMproc rest false len).
  Proof.
    intros ->. unfold m_turn; cbn [m_header m_buf m_len].
    rewrite (pop_exact (zlen m) m rest eq_refl). reflexivity.
  Qed.

  Lemma process_fuel acc p d : MInv p ->
    exists ms q e, process acc p d = (ms, q, e) /\ e <> EFuel /\ MInv q.
  Proof.
    intros I. unfold m_process. fold (add p d).
    destruct (loop_fuel acc (m_fuel (add p d)) (add p d) I) as (ms & q & e & E & Iq & He & _).
    { unfold meas, m_fuel. destruct (m_header _); lia. }
    exists ms, q, e. split; [exact E|]. split; [|exact Iq]. destruct He; subst; discriminate.
  Qed.

  (** Two turns of the loop for a complete frame. *)
  Lemma process_frame acc p m rest w : MInv p -> m_header p = true -> m_buf p = [] ->
    zlen m < 2 ^ bits -> m_encode native_le lk bo m = Some w ->
    process acc p (w ++ rest) =
      if acc m then
        let '(ms, q, e) := process acc (mkMproc [] true (zlen m)) rest in (m :: ms, q, e)
      else ([m], mkMproc rest false (zlen m), ELeft).
  Proof.
    intros I Hh Hb L Hw. destruct (encode_ok m L) as (h & E & Lh & D & St).
    rewrite E in Hw. injection Hw as <-.
    destruct (process_fuel acc p ((h ++ m) ++ rest) I) as (ms & q & e & Ep & N & _).
    rewrite Ep. destruct (process_fuel acc (mkMproc [] true (zlen m)) rest (zlen_nonneg m))
      as (ms' & q' & e' & Er & N' & _). rewrite Er.
    unfold m_process in *. rewrite Hh, Hb in Ep. cbn [app m_buf m_header m_len] in *.
    rewrite <- app_assoc in Ep.
    set (F := m_fuel _) in Ep. set (F' := m_fuel _) in Er.
    assert (G : loop acc (S (S F')) (mkMproc (h ++ m ++ rest) true (m_len p)) =
      if acc m then (m :: ms', q', e') else ([m], mkMproc rest false (zlen m), ELeft)).
    { remember F' as F0. cbn [m_loop]. rewrite (turn_header _ _ _ _ Lh D), St, turn_payload by reflexivity.
      cbn [m_buf m_len].
      destruct (acc m); [rewrite Er; reflexivity|reflexivity]. }
    destruct (acc m).
    - pose proof (loop_det _ _ _ _ _ _ Ep G N N') as X. exact X.
    - pose proof (loop_det _ _ _ _ _ _ Ep G N ltac:(discriminate)) as X. exact X.
  Qed.
End Host.
