From Coq Require Import ZifyBool ZifyNat Lia.
From Verif Require Import Base BaseLemmas PrimModel PrimSpec PrimProofs PrimProps FifoModel
  MessageModel MessageSpec MessageProofs MessageProps MsgConnModel MsgConnSpec.
Open Scope list_scope.
Open Scope Z_scope.

Lemma header_frame (nl : bool) (a : list Z) : is_bytes a -> List.length a = 4%nat ->
  exists n, 0 <= n < 2 ^ 32 /\ forall m, zlen m = n -> frame m = a ++ m.
Proof.
  intros Hb Hl. assert (D : exists n, k_decode nl U32 Network a = Some n).
  { unfold k_decode. cbn [k_size]. rewrite Hl. cbn. eauto. }
  destruct D as (n & D). destruct (C08_encode_decode nl U32 Network a n Hb D) as (V & E). specialize (E ltac:(discriminate)).
  cbn [k_value] in V. unfold representable in V. exists n. split; [lia|]. intros m Hm.
  pose proof (C22_encode_is_frame nl m ltac:(lia)) as F. unfold m_encode in F.
  rewrite store_id in F by (cbn [k_value]; unfold representable; lia). rewrite Hm, E in F. injection F as <-. reflexivity.
Qed.
Lemma frame_length (m : list Z) : zlen (frame m) = 4 + zlen m.
Proof. unfold frame. rewrite zlen_app. reflexivity. Qed.
Lemma bytes_app (a b : list Z) : is_bytes (a ++ b) <-> is_bytes a /\ is_bytes b.
Proof. unfold is_bytes. apply Forall_app. Qed.
Lemma zlen_repeat (x : Z) (n : nat) : zlen (repeat x n) = Z.of_nat n.
Proof. unfold zlen. rewrite repeat_length. reflexivity. Qed.

Lemma firstn_pre {X} (n : nat) (a b : list X) : List.length a = n -> firstn n (a ++ b) = a.
Proof. intros <-. rewrite firstn_app, Nat.sub_diag, firstn_all. cbn [firstn]. apply app_nil_r. Qed.


Definition hdr (n : Z) : list Z := [n / 16777216 mod 256; n / 65536 mod 256; n / 256 mod 256; n mod 256].
Lemma frame_hdr m : frame m = hdr (zlen m) ++ m.
Proof. reflexivity. Qed.
Lemma prefix_hdr m : prefix_of m = hdr (zlen m).
Proof. reflexivity. Qed.
Lemma hdr_length n : List.length (hdr n) = 4%nat.
Proof. reflexivity. Qed.
Lemma hdr_decode nl n : 0 <= n < 2 ^ 32 -> k_decode nl U32 Network (hdr n) = Some n.
Proof.
  intros Hn. destruct (C08_decode_encode nl U32 Network n) as (b & B & _ & _ & D); [cbn [k_value]; unfold representable; lia|].
  pose proof (C22_encode_is_frame nl (repeat 0 (Z.to_nat n)) ltac:(rewrite zlen_repeat; lia)) as F. unfold m_encode in F.
  rewrite zlen_repeat, Z2Nat.id, store_id, B in F by (try (cbn [k_value]; unfold representable); lia).
  injection F as F. rewrite frame_hdr, zlen_repeat, Z2Nat.id in F by lia. apply (f_equal (firstn 4)) in F.
  rewrite firstn_pre in F by (apply (encode_length nl U32 Network _ _ B)). rewrite firstn_pre in F by reflexivity. congruence.
Qed.
Lemma hdr_inj n n' : 0 <= n < 2 ^ 32 -> 0 <= n' < 2 ^ 32 -> hdr n = hdr n' -> n = n'.
Proof. intros H H' E. pose proof (hdr_decode true n H) as A. rewrite E, (hdr_decode true n' H') in A. congruence. Qed.
Lemma four_hdr a : is_bytes a -> List.length a = 4%nat -> exists n, 0 <= n < 2 ^ 32 /\ a = hdr n.
Proof.
  intros Hb Hl. destruct (header_frame true a Hb Hl) as (n & Hn & F). exists n. split; [exact Hn|].
  pose proof (F (repeat 0 (Z.to_nat n)) ltac:(rewrite zlen_repeat; lia)) as E. rewrite frame_hdr, zlen_repeat, Z2Nat.id in E by lia.
  apply app_inv_tail in E. auto.
Qed.

(** The bytes a processor holds back. *)
Definition held_of (p : mproc) : list Z := if m_header p then m_buf p else hdr (m_len p) ++ m_buf p.
Definition wf (p : mproc) : Prop := m_header p = true \/ 0 <= m_len p < 2 ^ 32.

Lemma incomplete_short d : (List.length d < 4)%nat -> incomplete d.
Proof. intros L m r _ Q. apply (f_equal (@List.length Z)) in Q. rewrite frame_hdr, !app_length, hdr_length in Q. lia. Qed.
Lemma incomplete_body n d : 0 <= n < 2 ^ 32 -> zlen d < n -> incomplete (hdr n ++ d).
Proof.
  intros Hn L m r Hm Q. rewrite frame_hdr, <- app_assoc in Q. pose proof (zlen_nonneg m). pose proof (f_equal (firstn 4) Q) as Q1.
  rewrite !firstn_pre in Q1 by reflexivity. apply hdr_inj in Q1; [|lia|lia]. subst n. apply app_inv_head in Q. subst d.
  rewrite zlen_app in L. pose proof (zlen_nonneg r). lia.
Qed.
Lemma wire_app a b : wire (a ++ b) = wire a ++ wire b.
Proof. unfold wire. rewrite map_app, concat_app. reflexivity. Qed.
Lemma wire_cons m ms : wire (m :: ms) = frame m ++ wire ms.
Proof. reflexivity. Qed.

(** What a pass over the generator makes of the bytes it has. *)
Definition passed (acc : list Z -> bool) (held : list Z) (ms : list (list Z)) (q : mproc) (e : ending) : Prop :=
  (e = EDone /\ held = wire ms ++ held_of q /\ incomplete (held_of q) /\
   Forall (fun m => zlen m < 2 ^ 32) ms /\ Forall (fun m => acc m = true) ms) \/
  (exists ms0 m rest, ms = ms0 ++ [m] /\ e = ELeft /\ held = wire ms ++ rest /\ held_of q = prefix_of m ++ rest /\
   Forall (fun m => zlen m < 2 ^ 32) ms /\ Forall (fun m => acc m = true) ms0 /\ acc m = false).

Lemma loop_spec (nl : bool) (acc : list Z -> bool) : forall fuel p,
  (2 * List.length (m_buf p) + (if m_header p then 1 else 2) <= fuel)%nat -> is_bytes (m_buf p) -> wf p ->
  exists ms q e, m_loop nl U32 Network acc fuel p = (ms, q, e) /\ is_bytes (m_buf q) /\ wf q /\ passed acc (held_of p) ms q e.
Proof.
  induction fuel as [|fuel IH]; intros p Hf Hb W; [destruct (m_header p); lia|].
  destruct p as [buf h l]. cbn [m_buf m_header m_len] in *. destruct h.
  - cbn [m_loop]. unfold m_turn at 1. cbn [m_header m_buf k_size]. unfold fifo_pop. change (Z.of_nat 4) with 4.
    destruct (Z.leb_spec 4 (zlen buf)) as [L|L].
    + change (Z.to_nat 4) with 4%nat. pose proof (firstn_skipn 4 buf) as Eb. set (a := firstn 4 buf) in *. set (r := skipn 4 buf) in *.
      assert (La : List.length a = 4%nat) by (unfold a; rewrite firstn_length; unfold zlen in L; lia).
      rewrite <- Eb in Hb. apply bytes_app in Hb as [Ba Br]. destruct (four_hdr a Ba La) as (n & Hn & Ea).
      rewrite Ea, hdr_decode, store_id by (try (cbn [k_value]; unfold representable); lia).
      assert (Lb : List.length buf = (4 + List.length r)%nat) by (rewrite <- Eb, app_length; lia).
      destruct (IH (mkMproc r false n)) as (ms & q & e & E & Bq & Wq & O); [cbn [m_buf m_header]; lia|exact Br|right; exact Hn|].
      exists ms, q, e. split; [exact E|]. split; [exact Bq|]. split; [exact Wq|].
      replace (held_of (mkMproc buf true l)) with (held_of (mkMproc r false n)); [exact O|].
      unfold held_of. cbn [m_header m_buf m_len]. rewrite <- Ea. exact Eb.
    + exists [], (mkMproc buf true l), EDone. split; [reflexivity|]. split; [exact Hb|]. split; [exact W|]. left.
      repeat split; [|constructor|constructor].
      apply incomplete_short. cbn [held_of m_header m_buf]. unfold zlen in L. lia.
  - destruct W as [W|W]; [discriminate|]. cbn [m_len] in W. cbn [m_loop]. unfold m_turn at 1. cbn [m_header m_buf m_len]. unfold fifo_pop.
    destruct (Z.leb_spec l (zlen buf)) as [L|L].
    + pose proof (firstn_skipn (Z.to_nat l) buf) as Eb. set (m := firstn (Z.to_nat l) buf) in *. set (r := skipn (Z.to_nat l) buf) in *.
      assert (Lm : zlen m = l) by (unfold m, zlen in *; rewrite firstn_length; lia).
      rewrite <- Eb in Hb. apply bytes_app in Hb as [Bm Br].
      assert (Lb : List.length buf = (List.length m + List.length r)%nat) by (rewrite <- Eb, app_length; lia).
      assert (Ew : held_of (mkMproc buf false l) = frame m ++ r)
        by (unfold held_of; cbn [m_header m_buf m_len]; rewrite frame_hdr, Lm, <- app_assoc, Eb; reflexivity).
      rewrite Ew. destruct (acc m) eqn:Am.
      * cbn [m_buf m_len]. destruct (IH (mkMproc r true l)) as (ms & q & e & E & Bq & Wq & O); [cbn [m_buf m_header]; lia|exact Br|left; reflexivity|].
        exists (m :: ms), q, e. rewrite E. split; [reflexivity|]. split; [exact Bq|]. split; [exact Wq|].
        unfold held_of at 1 in O. cbn [m_header m_buf m_len] in O.
        destruct O as [(-> & H1 & H2 & H3 & H4)|(ms0 & m' & rest & -> & -> & H1 & H2 & H3 & H4 & H5)];
          cbn [held_of m_header m_buf m_len] in H1.
        -- left. split; [reflexivity|]. split; [rewrite wire_cons, <- app_assoc; f_equal; exact H1|]. split; [exact H2|].
           split; constructor; try assumption; lia.
        -- right. exists (m :: ms0), m', rest. split; [reflexivity|]. split; [reflexivity|].
           split; [rewrite wire_cons, <- app_assoc; f_equal; exact H1|]. split; [exact H2|].
           split; [constructor; [lia|exact H3]|]. split; [constructor; assumption|exact H5].
      * exists [m], (mkMproc r false l), ELeft. split; [reflexivity|]. split; [exact Br|]. split; [right; exact W|]. right. exists [], m, r.
        split; [reflexivity|]. split; [reflexivity|]. unfold held_of. cbn [m_header m_buf m_len]. rewrite wire_cons, prefix_hdr, Lm.
        change (wire []) with (@nil Z). rewrite app_nil_r. split; [reflexivity|]. split; [reflexivity|].
        split; [constructor; [lia|constructor]|]. split; [constructor|exact Am].
    + exists [], (mkMproc buf false l), EDone. split; [reflexivity|]. split; [exact Hb|]. split; [right; exact W|]. left.
      repeat split; [|constructor|constructor].
      apply incomplete_body; [exact W|exact L].
Qed.

Lemma held_bytes p : is_bytes (held_of p) -> is_bytes (m_buf p).
Proof. unfold held_of. destruct (m_header p); [auto|]. intros H. apply bytes_app in H. tauto. Qed.
Lemma held_add p d : held_of (mkMproc (m_buf p ++ d) (m_header p) (m_len p)) = held_of p ++ d.
Proof. unfold held_of. cbn [m_header m_buf m_len]. destruct (m_header p); [reflexivity|]. apply app_assoc. Qed.

Lemma process_spec (nl : bool) (acc : list Z -> bool) p d : is_bytes (m_buf p) -> wf p -> is_bytes d ->
  exists ms q e, m_process nl U32 Network acc p d = (ms, q, e) /\ is_bytes (m_buf q) /\ wf q /\ passed acc (held_of p ++ d) ms q e.
Proof.
  intros Hb W Hd. unfold m_process. rewrite <- held_add. apply loop_spec.
  - unfold m_fuel. cbn [m_buf m_header]. destruct (m_header p); lia.
  - cbn [m_buf]. apply bytes_app. auto.
  - exact W.
Qed.

(** A byte string splits in one way only. *)
Lemma split_unique ms : forall ms' t t', Forall (fun m => zlen m < 2 ^ 32) ms -> Forall (fun m => zlen m < 2 ^ 32) ms' ->
  incomplete t -> incomplete t' -> wire ms ++ t = wire ms' ++ t' -> ms = ms' /\ t = t'.
Proof.
  induction ms as [|m ms IH]; intros [|m' ms'] t t' F F' I I' E.
  - auto.
  - exfalso. change (wire []) with (@nil Z) in E. cbn [app] in E. rewrite wire_cons, <- app_assoc in E. apply (I m' (wire ms' ++ t')); [exact (Forall_inv F')|exact E].
  - exfalso. change (wire []) with (@nil Z) in E. cbn [app] in E. rewrite wire_cons, <- app_assoc in E. apply (I' m (wire ms ++ t)); [exact (Forall_inv F)|symmetry; exact E].
  - inversion F; inversion F'; subst. rewrite !wire_cons, !frame_hdr, <- !app_assoc in E.
    pose proof (f_equal (firstn 4) E) as Q. rewrite !firstn_pre in Q by reflexivity.
    pose proof (zlen_nonneg m). pose proof (zlen_nonneg m'). apply hdr_inj in Q; [|lia|lia]. rewrite Q in E. apply app_inv_head in E.
    assert (m = m').
    { pose proof (f_equal (firstn (List.length m)) E) as Q'. rewrite !firstn_pre in Q' by (unfold zlen in Q; lia). exact Q'. }
    subst m'. apply app_inv_head in E. destruct (IH ms' t t') as [-> ->]; auto.
Qed.
