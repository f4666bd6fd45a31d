(** Lemmas for TftpProps.v. *)
From Verif Require Import Base BaseLemmas PyStrModel PyStrProofs Utf8Model Utf8Proofs TftpModel TftpSpec.
From Coq Require Import ZifyBool ZifyNat.

(** * Blocks *)

Lemma blocks_spec size : (1 <= size)%nat -> forall fuel data,
  (List.length data < fuel)%nat ->
  exists init tail,
    blocks fuel size data = init ++ tail /\
    List.concat (init ++ tail) = data /\
    Forall (fun b => List.length b = size) init /\
    (tail = [] \/ exists f, tail = [f] /\ (0 < List.length f < size)%nat).
Proof.
  intros Hs. induction fuel as [|fuel IH]; intros data H; [lia|].
  destruct data as [|x data'] eqn:E.
  { exists [], []. cbn [blocks]. rewrite firstn_nil. cbn. auto. }
  rewrite <- E in *. clear E. cbn [blocks].
  destruct (firstn size data) as [|y f] eqn:F.
  { apply (f_equal (@List.length Z)) in F. rewrite firstn_length in F.
    cbn in F. assert (List.length data = 0%nat) by lia.
    destruct data; [|discriminate]. exists [], []. cbn. auto. }
  rewrite <- F.
  destruct (Nat.lt_ge_cases (List.length data) size) as [L|L].
  - exists [], [data]. rewrite (firstn_all2 data) by lia.
    rewrite (skipn_all2 data) by lia.
    split.
    { cbn [app]. f_equal. destruct fuel; cbn [blocks]; [reflexivity|].
      rewrite firstn_nil. reflexivity. }
    split; [cbn; apply app_nil_r|]. split; [constructor|]. right.
    exists data. split; [reflexivity|]. split; [|exact L].
    apply (f_equal (@List.length Z)) in F. rewrite firstn_length in F. cbn in F. lia.
  - destruct (IH (skipn size data)) as [init [tail [Eb [Ec [Hi Ht]]]]].
    { rewrite skipn_length. lia. }
    exists (firstn size data :: init), tail. rewrite Eb. split; [reflexivity|].
    split; [cbn [app List.concat]; rewrite Ec; apply firstn_skipn|].
    split; [|exact Ht]. constructor; [|exact Hi]. rewrite firstn_length. lia.
Qed.

Lemma chunks_spec size data : (1 <= size)%nat ->
  block_sequence size data (tftp_chunks size data).
Proof.
  intros Hs. unfold tftp_chunks.
  destruct (blocks_spec size Hs (S (List.length data)) data ltac:(lia))
    as [init [tail [Eb [Ec [Hi Ht]]]]].
  cbv zeta. rewrite Eb. destruct Ht as [->|[f [-> Hf]]].
  - rewrite app_nil_r in *.
    assert (A : ((List.length (last init []) =? 0) || (size <=? List.length (last init [])))%nat = true).
    { destruct init as [|b init']; [reflexivity|].
      assert (L : List.length (last (b :: init') []) = size).
      { rewrite Forall_forall in Hi. apply Hi.
        pose proof (app_removelast_last (l := b :: init') [] ltac:(discriminate)) as E.
        rewrite E at 2. apply in_or_app. right. left. reflexivity. }
      lia. }
    rewrite A. split.
    + rewrite concat_app. cbn. rewrite app_nil_r. exact Ec.
    + exists init, []. cbn. auto with arith.
  - rewrite last_last.
    assert (A : ((List.length f =? 0) || (size <=? List.length f))%nat = false) by lia.
    rewrite A. split; [exact Ec|]. exists init, f. split; [reflexivity|]. split; [exact Hi|lia].
Qed.

Lemma app_inj_len {A} (a : list A) : forall b c d,
  List.length a = List.length b -> a ++ c = b ++ d -> a = b /\ c = d.
Proof.
  induction a as [|x a IH]; intros [|y b] c d L E; try discriminate; cbn in *; [auto|].
  injection L as L. injection E as -> E. destruct (IH b c d L E) as [-> ->]. auto.
Qed.

(** The block sequence of a file is unique. *)
Lemma block_sequence_unique size a : forall file b,
  block_sequence size file a -> block_sequence size file b -> a = b.
Proof.
  induction a as [|x a IH]; intros file b [Ca [ia [fa [Ea [Fa La]]]]] [Cb [ib [fb [Eb [Fb Lb]]]]].
  - destruct ia; discriminate.
  - assert (Len : forall i f (file : list Z), Forall (fun b => List.length b = size) i ->
       List.concat (i ++ [f]) = file -> (i = [] -> List.length file = List.length f) /\
       (i <> [] -> (size <= List.length file)%nat)).
    { intros i f fl Hi Hc. rewrite <- Hc. rewrite concat_app, app_length. cbn.
      rewrite app_nil_r. split; [intros ->; reflexivity|].
      destruct i as [|y i]; [contradiction|]. intros _. inversion Hi; subst. cbn.
      rewrite app_length. lia. }
    destruct (Len ia fa file Fa ltac:(rewrite <- Ea; exact Ca)) as [A1 A2].
    destruct (Len ib fb file Fb ltac:(rewrite <- Eb; exact Cb)) as [B1 B2].
    destruct ia as [|y ia], ib as [|z ib].
    + cbn in Ea, Eb. injection Ea as -> ->. subst b. cbn in Ca, Cb.
      rewrite app_nil_r in *. congruence.
    + specialize (A1 eq_refl). specialize (B2 ltac:(discriminate)). lia.
    + specialize (B1 eq_refl). specialize (A2 ltac:(discriminate)). lia.
    + cbn in Ea, Eb. injection Ea as -> ->. subst b. cbn in Ca, Cb.
      inversion Fa as [|? ? Ly Fa' Eq0]; subst. inversion Fb as [|? ? Lz Fb' Eq1]; subst.
      assert (y = z /\ List.concat (ia ++ [fa]) = List.concat (ib ++ [fb])) as [-> E].
      { apply app_inj_len; [congruence|symmetry; assumption]. }
      f_equal. apply (IH (List.concat (ib ++ [fb]))).
      * split; [exact E|]. exists ia, fa. auto.
      * split; [reflexivity|]. exists ib, fb. auto.
Qed.

(** * Transfers *)

Lemma u16_small v : 0 <= v < 65536 -> u16 v = v.
Proof. intros H. unfold u16. apply Z.mod_small. lia. Qed.

Lemma write_at_end file d : write_at file (List.length file) d = file ++ d.
Proof.
  unfold write_at. rewrite firstn_all, Nat.sub_diag. cbn [repeat app].
  rewrite skipn_all2 by lia. rewrite app_nil_r. reflexivity.
Qed.

Section Transfer.
  Context (k : transfer_kind) (B : nat) (file : list Z) (HB : (1 <= B)%nat).
  Notation chunks := (tftp_chunks B file).
  Notation n := (zlen chunks).
  Notation chunk := (chunk B file).
  Notation stepk := (step k B file).

  Lemma chunks_pos : 1 <= n.
  Proof.
    destruct (chunks_spec B file HB) as [_ [i [f [E _]]]]. rewrite E. unfold zlen.
    rewrite app_length. cbn. lia.
  Qed.

  Lemma chunk_some i : 1 <= i -> (chunk i <> None <-> i <= n).
  Proof.
    intros H. unfold TftpModel.chunk. rewrite nth_error_Some. unfold zlen. lia.
  Qed.

  Lemma chunk_len i d : 1 <= i -> chunk i = Some d ->
    if i <? n then List.length d = B else (List.length d < B)%nat.
  Proof.
    intros Hi E. destruct (chunks_spec B file HB) as [_ [ini [f [Ec [Hf Lf]]]]].
    unfold TftpModel.chunk in E. rewrite Ec in *.
    unfold zlen. rewrite app_length. cbn [List.length].
    destruct (Nat.lt_ge_cases (Z.to_nat (i - 1)) (List.length ini)) as [L|L].
    - rewrite nth_error_app1 in E by lia. replace (i <? _) with true by lia.
      rewrite Forall_forall in Hf. apply Hf. apply nth_error_In in E. exact E.
    - rewrite nth_error_app2 in E by lia. replace (i <? _) with false by lia.
      destruct (Z.to_nat (i - 1) - List.length ini)%nat as [|m]; cbn in E; [congruence|].
      destruct m; discriminate.
  Qed.

  Lemma chunk_firstn i d : 1 <= i -> chunk i = Some d ->
    firstn (Z.to_nat i) chunks = firstn (Z.to_nat (i - 1)) chunks ++ [d].
  Proof.
    intros Hi E. unfold TftpModel.chunk in E.
    replace (Z.to_nat i) with (S (Z.to_nat (i - 1))) by lia.
    remember (Z.to_nat (i - 1)) as m eqn:Em. clear Em Hi. revert m E.
    generalize chunks. intros l. induction l as [|c l IH]; intros [|m] E; try discriminate.
    - cbn in E. injection E as ->. reflexivity.
    - cbn [firstn app]. f_equal. apply IH. exact E.
  Qed.

  Lemma all_chunks : List.concat (firstn (Z.to_nat n) chunks) = file.
  Proof.
    unfold zlen. rewrite Nat2Z.id, firstn_all.
    destruct (chunks_spec B file HB) as [E _]. exact E.
  Qed.

  Lemma some_chunks_prefix m : is_prefix (List.concat (firstn m chunks)) file.
  Proof.
    exists (List.concat (skipn m chunks)). rewrite <- concat_app, firstn_skipn.
    destruct (chunks_spec B file HB) as [E _]. symmetry. exact E.
  Qed.

  (** ** Data on the network is always the right block *)
  Definition data_ok (t : transfer) : Prop :=
    (forall i d, In (MData i d) (net t) -> 1 <= i < 65536 /\ chunk i = Some d) /\
    match snd_ t with
    | SServe idx _ => 1 <= idx < 65536 /\ idx <= n
    | _ => True
    end.

  Lemma serve_ok i : 1 <= i ->
    match serve B file i with SServe idx a => idx = i /\ a = false /\ i < 65536 /\ i <= n
    | SDone b => b = true /\ n < i | SRaised => 65536 <= i /\ i <= n | _ => False end.
  Proof.
    intros Hi. unfold serve. pose proof (chunk_some i Hi) as C.
    destruct (chunk i) as [d|].
    - assert (i <= n) by (apply C; discriminate).
      destruct (Z.ltb_spec i 65536); lia.
    - split; [reflexivity|]. destruct (Z_le_gt_dec i n); [|lia].
      exfalso. apply C in l. congruence.
  Qed.

  Lemma data_ok_step t o : data_ok t -> data_ok (stepk t o).
  Proof.
    intros [H1 H2]. destruct o; cbn [step].
    - destruct (in_dec _ m (net t)); [|split; auto].
      unfold deliver. destruct m.
      + destruct k; split; auto.
      + destruct (rcv t) as [|[?|]| |]; try (split; auto; fail).
        destruct (block =? rcv_idx t); split; auto.
      + destruct (snd_ t) as [|[|]|idx [|]| |] eqn:E; try (split; auto; rewrite ?E; auto; fail).
        * destruct (block =? 0); split; auto; cbn; rewrite ?E; auto.
        * destruct (block =? idx); split; auto; cbn; rewrite ?E; auto.
    - unfold sent, sender_msg. destruct (snd_ t) as [|a|idx a|b|] eqn:E;
        try (split; [exact H1|rewrite E; exact H2]).
      + split; cbn; [|rewrite E; auto]. intros i d Hin. apply in_app_or in Hin.
        destruct Hin as [Hin|[Hin|[]]]; [auto|discriminate].
      + destruct (chunk idx) as [d0|] eqn:Ec; cbn [option_map];
          [|split; [exact H1|rewrite E; exact H2]].
        split; cbn; [|rewrite E; auto]. intros i d Hin. apply in_app_or in Hin.
        destruct Hin as [Hin|[Hin|[]]]; [auto|]. injection Hin as <- <-.
        rewrite u16_small by lia. split; [lia|exact Ec].
    - destruct (snd_ t) as [|[|]|idx [|]| |] eqn:E; try (split; [exact H1|rewrite E; exact H2]).
      + split; [exact H1|]. cbn. pose proof (serve_ok 1 ltac:(lia)) as S.
        destruct (serve B file 1); auto. lia.
      + split; [exact H1|]. cbn. pose proof (serve_ok (idx + 1) ltac:(lia)) as S.
        destruct (serve B file (idx + 1)); auto. lia.
    - destruct (snd_ t) as [|[|]|idx [|]| |] eqn:E; try (split; [exact H1|rewrite E; exact H2]);
        (split; [exact H1|exact I]).
    - pose proof (serve_ok 1 ltac:(lia)) as S.
      destruct k; [split; auto|].
      destruct (snd_ t) as [| | | |] eqn:E; destruct (snd_pending t);
        try (split; [exact H1|rewrite E; exact H2]);
        (split; [exact H1|]; cbn; destruct (serve B file 1); auto; lia).
    - unfold sent. destruct (receiver_msg k t) as [m|] eqn:E; [|split; auto].
      split; [|exact H2]. cbn. intros i d Hin. apply in_app_or in Hin.
      destruct Hin as [Hin|[Hin|[]]]; [auto|]. subst m. unfold receiver_msg in E.
      destruct k, (rcv t) as [| |[|]|]; try discriminate.
      destruct (rcv_idx t =? 1); discriminate.
    - destruct (rcv t) as [|[d|]| |]; try (split; auto; fail).
      unfold receive_block. destruct k; repeat (destruct (Nat.ltb _ _) || destruct (Nat.leb _ _));
        split; auto.
    - destruct (rcv t) as [|[d|]| |]; split; auto.
    - destruct k, (rcv t) as [|[d|]| |], (rcv_pending t); split; auto.
  Qed.

  (** ** What the receiver has *)
  Definition rcv_ok (t : transfer) : Prop :=
    match rcv t with
    | RIdle => k = KWrite /\ rcv_file t = [] /\ rcv_idx t = 1
    | RWait got =>
        1 <= rcv_idx t <= 65536 /\ rcv_idx t <= n /\
        rcv_file t = List.concat (firstn (Z.to_nat (rcv_idx t - 1)) chunks) /\
        rcv_pos t = List.length (rcv_file t) /\
        match got with
        | Some d => chunk (rcv_idx t) = Some d /\ rcv_idx t < 65536
        | None => True
        end
    | RDone b =>
        1 <= rcv_idx t <= n /\ rcv_idx t <= 65536 /\
        is_prefix (rcv_file t) file /\
        (b = true -> rcv_idx t = n /\ n < 65536 /\ rcv_file t = file /\
                     (k = KWrite -> file <> []))
    | RRaised => False
    end.

  (** Requests delivered so far and tasks started. *)
  Definition started_ok (r : nat) (t : transfer) : Prop :=
    match k with
    | KRead => rcv t <> RIdle /\ rcv_pending t = 0%nat
    | KWrite => match rcv t with RIdle => (rcv_pending t <= r)%nat | _ => (S (rcv_pending t) <= r)%nat end
    end.

  (** Acknowledgements on the network, and what the sender concluded. *)
  Definition acks_ok (t : transfer) : Prop :=
    (forall i, In (MAck i) (net t) ->
       0 <= i < 65536 /\
       (i < rcv_idx t \/ k = KWrite /\ i = rcv_idx t /\ rcv t = RDone true)) /\
    match snd_ t with
    | SServe idx true => In (MAck idx) (net t)
    | SDone true => In (MAck n) (net t) /\ n < 65536
    | _ => True
    end.

  Lemma receive_ok t d : rcv t = RWait (Some d) -> rcv_ok t ->
    (rcv_idx t < n /\
     receive_block k B t d = set_rcv t (RWait None) (rcv_idx t + 1) (rcv_file t ++ d)
       (rcv_pos t + List.length d) (rcv_pending t) /\
     rcv_ok (receive_block k B t d)) \/
    (rcv_idx t = n /\ n < 65536 /\ rcv_file t ++ d = file /\
     receive_block k B t d
     = set_rcv t (RDone (match k with KWrite => negb (Nat.eqb (List.length file) 0) | KRead => true end))
         (rcv_idx t) file (List.length file) (rcv_pending t) /\
     rcv_ok (receive_block k B t d)).
  Proof.
    intros Er H. unfold rcv_ok in H. rewrite Er in H.
    destruct H as [Hi [Hn [Hf [Hp [Hc Hl]]]]].
    pose proof (chunk_len _ _ (proj1 Hi) Hc) as L.
    pose proof (chunk_firstn _ _ (proj1 Hi) Hc) as F.
    assert (C : List.concat (firstn (Z.to_nat (rcv_idx t)) chunks) = rcv_file t ++ d).
    { rewrite F, concat_app, <- Hf. cbn. rewrite app_nil_r. reflexivity. }
    destruct (Z.ltb_spec (rcv_idx t) n) as [A|A].
    - left. split; [exact A|].
      assert (E : receive_block k B t d = set_rcv t (RWait None) (rcv_idx t + 1) (rcv_file t ++ d)
       (rcv_pos t + List.length d) (rcv_pending t)).
      { unfold receive_block. rewrite L, Nat.leb_refl, Nat.ltb_irrefl.
        rewrite Hp, write_at_end. destruct k; rewrite ?L; reflexivity. }
      split; [exact E|]. rewrite E. unfold rcv_ok. cbn.
      replace (rcv_idx t + 1 - 1) with (rcv_idx t) by lia.
      split; [lia|]. split; [lia|]. split; [symmetry; exact C|].
      split; [rewrite app_length; lia|exact I].
    - right. assert (En : rcv_idx t = n) by lia. split; [exact En|].
      split; [lia|].
      rewrite En, all_chunks in C. split; [symmetry; exact C|].
      assert (Lf : (rcv_pos t + List.length d = List.length file)%nat).
      { rewrite C, app_length. lia. }
      assert (E : receive_block k B t d
         = set_rcv t (RDone (match k with KWrite => negb (Nat.eqb (List.length file) 0) | KRead => true end))
         (rcv_idx t) file (List.length file) (rcv_pending t)).
      { unfold receive_block. cbv zeta. rewrite Lf.
        replace (B <=? List.length d)%nat with false by lia.
        replace (B <? List.length d)%nat with false by lia.
        rewrite Hp, write_at_end, <- C.
        destruct k; [|reflexivity].
        replace (0 <? List.length file)%nat with (negb (List.length file =? 0)%nat); [reflexivity|].
        destruct (List.length file); reflexivity. }
      split; [exact E|]. rewrite E. unfold rcv_ok. cbn.
      split; [lia|]. split; [lia|]. split; [exists []; rewrite app_nil_r; reflexivity|].
      intros Hb. split; [exact En|]. split; [lia|]. split; [reflexivity|].
      intros -> E0. rewrite E0 in Hb. discriminate.
  Qed.

  Definition inv (r : nat) (t : transfer) : Prop :=
    data_ok t /\ rcv_ok t /\ started_ok r t /\ acks_ok t.

  Definition is_request (o : op) : nat :=
    match o with Deliver MRequest => 1 | _ => 0 end.

  Ltac same H := split; [|split; [|split]]; try exact (proj1 H); try exact (proj1 (proj2 H));
    try exact (proj1 (proj2 (proj2 H))); try exact (proj2 (proj2 (proj2 H))).

  Lemma net_app_acks t m :
    (forall i, m <> MAck i) -> acks_ok t -> acks_ok (set_net t (net t ++ [m])).
  Proof.
    intros Hm [A1 A2]. split.
    - cbn. intros i Hin. apply in_app_or in Hin. destruct Hin as [Hin|[Hin|[]]]; [auto|].
      exfalso. exact (Hm i Hin).
    - cbn. destruct (snd_ t) as [|[|]|idx [|]|[|]|]; auto.
      + apply in_or_app. auto.
      + destruct A2. split; [apply in_or_app; auto|auto].
  Qed.

  Lemma inv_step r t o :
    (k = KWrite -> (r + is_request o <= 1)%nat) ->
    inv r t -> inv (r + is_request o) (stepk t o).
  Proof.
    intros Hr [HD [HR [HS HA]]].
    pose proof (data_ok_step t o HD) as HD'.
    split; [exact HD'|]. clear HD'.
    destruct o as [m| | | | | | | |]; cbn [step is_request]; rewrite ?Nat.add_0_r.
    - destruct (in_dec _ m (net t)) as [Hin|];
        [|split; [exact HR|split; [|exact HA]]; unfold started_ok in *; destruct k; [|exact HS];
          destruct m; cbn in *; rewrite ?Nat.add_0_r; try exact HS; destruct (rcv t); lia].
      destruct m as [|block d|block]; cbn [deliver]; rewrite ?Nat.add_0_r.
      + specialize (fun e => Hr e). cbn in Hr.
        destruct k eqn:Ek.
        * assert (r = 0%nat) by (specialize (Hr eq_refl); lia). subst r.
          unfold started_ok in HS. rewrite Ek in HS.
          destruct (rcv t) eqn:Er; try lia.
          split; [|split].
          -- unfold rcv_ok in *. rewrite Er in HR. cbn. destruct HR as [A [_ C]]. auto.
          -- unfold started_ok. rewrite Ek. cbn. lia.
          -- destruct HA as [A1 A2]. split; [|exact A2]. cbn. rewrite Er in A1. exact A1.
        * split; [exact HR|]. split; [unfold started_ok in *; rewrite Ek in *; exact HS|].
          destruct HA as [A1 A2]. split; [exact A1|exact A2].
      + destruct (rcv t) as [|[g|]|b|] eqn:Er; try (split; [exact HR|split; [exact HS|exact HA]]).
        destruct (Z.eqb_spec block (rcv_idx t)) as [->|_];
          [|split; [exact HR|split; [exact HS|exact HA]]].
        destruct HD as [HD1 _]. destruct (HD1 _ _ Hin) as [Hb Hc].
        split; [|split].
        * unfold rcv_ok in *. rewrite Er in HR. cbn. destruct HR as [A [A' [A2 [A3 _]]]].
          split; [lia|]. split; [lia|]. split; [exact A2|]. split; [exact A3|]. split; [exact Hc|lia].
        * unfold started_ok in *. rewrite Er in HS. cbn. destruct k; [exact HS|].
          destruct HS; split; [discriminate|auto].
        * destruct HA as [A1 A2]. split; [|exact A2]. cbn. intros i Hi.
          destruct (A1 i Hi) as [B1 [B2|[_ [_ B2]]]]; [auto|]. congruence.
      + destruct (snd_ t) as [|[|]|idx [|]|b|] eqn:Es;
          try (split; [exact HR|split; [exact HS|exact HA]]).
        * destruct (Z.eqb_spec block 0); [|split; [exact HR|split; [exact HS|exact HA]]].
          split; [exact HR|split; [exact HS|]]. destruct HA as [A1 _]. split; [exact A1|exact I].
        * destruct (Z.eqb_spec block idx); [|split; [exact HR|split; [exact HS|exact HA]]].
          subst block.
          split; [exact HR|split; [exact HS|]]. destruct HA as [A1 _]. split; [exact A1|exact Hin].
    - unfold sent, sender_msg. destruct (snd_ t) as [|a|idx a|b|] eqn:Es;
        try (split; [exact HR|split; [exact HS|exact HA]]).
      + split; [exact HR|split; [exact HS|]]. apply net_app_acks; [discriminate|exact HA].
      + destruct (chunk idx); [|split; [exact HR|split; [exact HS|exact HA]]].
        split; [exact HR|split; [exact HS|]]. apply net_app_acks; [discriminate|exact HA].
    - destruct (snd_ t) as [|[|]|idx [|]|b|] eqn:Es;
        try (split; [exact HR|split; [exact HS|exact HA]]).
      + split; [exact HR|split; [exact HS|]]. destruct HA as [A1 _]. split; [exact A1|].
        cbn. pose proof (serve_ok 1 ltac:(lia)) as S. pose proof chunks_pos.
        destruct (serve B file 1) as [| |? ?|[|]|]; auto.
        * destruct S as [_ [-> _]]. exact I.
        * lia.
      + split; [exact HR|split; [exact HS|]]. destruct HA as [A1 A2]. split; [exact A1|].
        cbn. destruct HD as [_ HD]. rewrite Es in HD, A2.
        pose proof (serve_ok (idx + 1) ltac:(lia)) as S.
        destruct (serve B file (idx + 1)) as [| |? ?|[|]|]; auto.
        * destruct S as [_ [-> _]]. exact I.
        * assert (idx = n) as -> by lia. split; [exact A2|lia].
    - destruct (snd_ t) as [|[|]|idx [|]|b|] eqn:Es;
        try (split; [exact HR|split; [exact HS|exact HA]]);
        (split; [exact HR|split; [exact HS|]]; destruct HA as [A1 _]; split; [exact A1|exact I]).
    - assert (G : forall p, rcv_ok (set_snd t (serve B file 1) p) /\
                 started_ok r (set_snd t (serve B file 1) p) /\
                 acks_ok (set_snd t (serve B file 1) p)).
      { intros p. split; [exact HR|split; [exact HS|]]. destruct HA as [A1 _]. split; [exact A1|].
        cbn. pose proof (serve_ok 1 ltac:(lia)) as S. pose proof chunks_pos.
        destruct (serve B file 1) as [| |? ?|[|]|]; auto.
        * destruct S as [_ [-> _]]. exact I.
        * lia. }
      assert (G0 : rcv_ok t /\ started_ok r t /\ acks_ok t) by auto.
      destruct k; [exact G0|]. destruct (snd_ t); destruct (snd_pending t);
        first [exact G0 | apply G].
    - unfold sent. destruct (receiver_msg k t) as [m|] eqn:Em; [|auto].
      split; [exact HR|split; [exact HS|]].
      unfold receiver_msg in Em.
      assert (G : forall i, m = MAck i -> 0 <= i < 65536 /\
        (i < rcv_idx t \/ k = KWrite /\ i = rcv_idx t /\ rcv t = RDone true)).
      { intros i ->. unfold rcv_ok in HR.
        destruct k, (rcv t) as [|got|[|]|] eqn:Er; try discriminate.
        - injection Em as <-. rewrite u16_small by lia. lia.
        - injection Em as <-. destruct HR as [H1 [H2 [_ H3]]]. specialize (H3 eq_refl).
          rewrite u16_small by lia. split; [lia|]. right. auto.
        - destruct (rcv_idx t =? 1); [discriminate|]. injection Em as <-.
          rewrite u16_small by lia. lia.
        - injection Em as <-. rewrite u16_small by lia. lia. }
      destruct HA as [A1 A2]. split; cbn.
      + intros i Hin. apply in_app_or in Hin. destruct Hin as [Hin|[Hin|[]]]; [exact (A1 i Hin)|].
        apply G. exact Hin.
      + destruct (snd_ t) as [|[|]|idx [|]|[|]|]; auto.
        * apply in_or_app. auto.
        * destruct A2. split; [apply in_or_app; auto|auto].
    - destruct (rcv t) as [|[d|]|b|] eqn:Er; try (split; [exact HR|split; [exact HS|exact HA]]).
      destruct (receive_ok t d Er HR) as [[L [E H]]|[L [Ln [Lf [E H]]]]].
      + split; [exact H|]. rewrite E. split.
        * unfold started_ok in *. rewrite Er in HS. cbn. destruct k; [exact HS|].
          destruct HS; split; [discriminate|auto].
        * destruct HA as [A1 A2]. split; [|exact A2]. cbn. intros i Hi.
          destruct (A1 i Hi) as [B1 [B2|[_ [_ B2]]]]; [|congruence]. split; [exact B1|]. left. lia.
      + split; [exact H|]. rewrite E. split.
        * unfold started_ok in *. rewrite Er in HS. cbn. destruct k; [exact HS|].
          destruct HS; split; [discriminate|auto].
        * destruct HA as [A1 A2]. split; [|exact A2]. cbn. intros i Hi.
          destruct (A1 i Hi) as [B1 [B2|[_ [_ B2]]]]; [|congruence]. split; [exact B1|]. left. lia.
    - destruct (rcv t) as [|[d|]|b|] eqn:Er; try (split; [exact HR|split; [exact HS|exact HA]]).
      unfold rcv_ok in HR. rewrite Er in HR. destruct HR as [H1 [H2 [H3 [H4 _]]]].
      split; [|split].
      + unfold rcv_ok. cbn. split; [lia|]. split; [lia|]. rewrite H3.
        split; [apply some_chunks_prefix|discriminate].
      + unfold started_ok in *. rewrite Er in HS. cbn. destruct k; [exact HS|].
        destruct HS; split; [discriminate|auto].
      + destruct HA as [A1 A2]. split; [|exact A2]. cbn. intros i Hi.
        destruct (A1 i Hi) as [B1 [B2|[_ [_ B2]]]]; [auto|congruence].
    - assert (G0 : rcv_ok t /\ started_ok r t /\ acks_ok t) by auto.
      destruct k eqn:Ek; [|exact G0].
      specialize (Hr eq_refl). cbn in Hr.
      assert (G : forall p, rcv_pending t = S p -> 
        rcv_ok (set_rcv t (RWait None) 1 [] 0 p) /\
        started_ok r (set_rcv t (RWait None) 1 [] 0 p) /\
        acks_ok (set_rcv t (RWait None) 1 [] 0 p)).
      { intros p Ep. unfold started_ok in HS. rewrite Ek in HS.
        destruct (rcv t) eqn:Er; try lia.
        unfold rcv_ok in HR. rewrite Er in HR. destruct HR as [_ [H2 H3]].
        pose proof chunks_pos.
        split; [|split].
        - unfold rcv_ok. cbn. split; [lia|]. split; [lia|]. auto.
        - unfold started_ok. rewrite Ek. cbn. lia.
        - destruct HA as [A1 A2]. split; [|exact A2]. cbn. intros i Hi.
          destruct (A1 i Hi) as [B1 [B2|[_ [_ B2]]]]; [rewrite H3 in B2; auto|congruence]. }
      destruct (rcv t) eqn:Er; destruct (rcv_pending t) eqn:Ep;
        first [exact G0 | apply (G _ eq_refl)].
  Qed.

  Lemma inv_initial : inv 0 (initial k).
  Proof.
    pose proof chunks_pos. unfold initial, initial_with. destruct k eqn:Ek.
    - split; [split; [intros i d []|exact I]|]. split; [|split; [|split; [intros i []|exact I]]].
      + unfold rcv_ok. cbn. auto.
      + unfold started_ok. rewrite Ek. cbn. reflexivity.
    - split; [split; [intros i d []|exact I]|]. split; [|split; [|split; [intros i []|exact I]]].
      + unfold rcv_ok. cbn. split; [lia|]. split; [lia|]. auto.
      + unfold started_ok. rewrite Ek. cbn. split; [discriminate|reflexivity].
  Qed.

  Lemma inv_run ops : forall r t,
    (k = KWrite -> (r + requests ops <= 1)%nat) ->
    inv r t -> inv (r + requests ops) (run k B file t ops).
  Proof.
    induction ops as [|o ops IH]; intros r t Hr H; cbn [run fold_left requests].
    { rewrite Nat.add_0_r. exact H. }
    assert (E : requests (o :: ops) = (is_request o + requests ops)%nat).
    { destruct o as [[| |]| | | | | | | |]; reflexivity. }
    replace (match o with Deliver MRequest => S (requests ops) | _ => requests ops end)
      with (requests (o :: ops)) by reflexivity.
    rewrite E in *. rewrite Nat.add_assoc in *. apply IH; [exact Hr|].
    apply inv_step; [|exact H]. intros Hk. specialize (Hr Hk). lia.
  Qed.
End Transfer.

(** * The undisturbed schedules *)
Lemma skipn_nth {A} (l : list A) : forall q d, nth_error l q = Some d -> skipn q l = d :: skipn (S q) l.
Proof.
  induction l as [|c l IH]; intros [|q] d E; try discriminate.
  - cbn in E. injection E as ->. reflexivity.
  - change (skipn q l = d :: skipn (S q) l). apply IH. exact E.
Qed.

Section Live.
  Context (k : transfer_kind) (B : nat) (file : list Z).
  Notation chunks := (tftp_chunks B file).
  Notation n := (zlen chunks).
  Notation chunk := (chunk B file).
  Notation stepk := (step k B file).
  Notation runk := (run k B file).

  Lemma step_deliver t m : In m (net t) -> stepk t (Deliver m) = deliver k t m.
  Proof. intros H. cbn [step]. destruct (in_dec _ m (net t)); [reflexivity|contradiction]. Qed.

  Lemma step_rresume t : stepk t RResume
    = match rcv t with RWait (Some d) => receive_block k B t d | _ => t end.
  Proof. reflexivity. Qed.
  Lemma step_rsend t : stepk t RSend = sent t (receiver_msg k t).
  Proof. reflexivity. Qed.
  Lemma step_sresume t : stepk t SResume
    = match snd_ t with
      | SAwaitFirst true => set_snd t (serve B file 1) (snd_pending t)
      | SServe idx true => set_snd t (serve B file (idx + 1)) (snd_pending t)
      | _ => t
      end.
  Proof. reflexivity. Qed.

End Live.
Section Live2.
  Context (k : transfer_kind) (B : nat) (file : list Z) (HB : (1 <= B)%nat).
  Notation chunks := (tftp_chunks B file).
  Notation n := (zlen chunks).
  Notation chunk := (chunk B file).
  Notation stepk := (step k B file).
  Notation runk := (run k B file).

  (** Both sides are at block [i], with blocks before it written. *)
  Definition at_block (i : Z) (t : transfer) : Prop :=
    snd_ t = SServe i false /\ rcv t = RWait None /\ rcv_idx t = i /\
    rcv_file t = List.concat (firstn (Z.to_nat (i - 1)) chunks) /\
    rcv_pos t = List.length (rcv_file t).

  Lemma in_snoc {A} (l : list A) x : In x (l ++ [x]).
  Proof. apply in_or_app. right. left. reflexivity. Qed.

  Lemma at_block_data i d t : 1 <= i < 65536 -> i <= n -> chunk i = Some d ->
    at_block i t -> exists t',
      runk t [SSend; Deliver (MData i d)] = t' /\
      snd_ t' = SServe i false /\ rcv t' = RWait (Some d) /\ rcv_idx t' = i /\ rcv_ok k B file t'.
  Proof.
    intros Hi Hn Hc [Hs [Hr [Hx [Hf Hp]]]]. eexists. split; [reflexivity|].
    cbn [run fold_left].
    assert (E1 : stepk t SSend = set_net t (net t ++ [MData i d])).
    { cbn [step]. unfold sent, sender_msg. rewrite Hs, Hc. cbn [option_map].
      rewrite u16_small by lia. reflexivity. }
    rewrite E1, step_deliver by apply in_snoc. cbn [deliver]. cbn [rcv set_net]. rewrite Hr.
    cbn [rcv_idx set_net]. rewrite Hx, Z.eqb_refl. cbn.
    split; [exact Hs|]. split; [reflexivity|]. split; [reflexivity|].
    unfold rcv_ok. cbn. split; [lia|]. split; [lia|]. split; [exact Hf|]. split; [exact Hp|].
    split; [exact Hc|lia].
  Qed.

  Lemma exchange_mid i d t : 1 <= i < 65536 -> i < n -> chunk i = Some d ->
    at_block i t -> i + 1 < 65536 ->
    at_block (i + 1) (runk t (exchange i d)).
  Proof.
    intros Hi Hn Hc Hat H1.
    destruct (at_block_data i d t Hi ltac:(lia) Hc Hat) as [t1 [E1 [Hs [Hr [Hx Hok]]]]].
    unfold exchange.
    change [SSend; Deliver (MData i d); RResume; RSend; Deliver (MAck i); SResume]
      with ([SSend; Deliver (MData i d)] ++ [RResume; RSend; Deliver (MAck i); SResume]).
    unfold run in *. rewrite fold_left_app, E1. cbn [fold_left]. rewrite step_rresume, Hr.
    destruct (receive_ok k B file HB t1 d Hr Hok) as [[L [E H]]|[L _]]; [|lia].
    rewrite E, step_rsend, step_sresume. unfold sent, receiver_msg. cbn [rcv set_rcv rcv_idx].
    replace (match k with KWrite => Some (MAck (u16 (rcv_idx t1 + 1 - 1)))
             | KRead => Some (if rcv_idx t1 + 1 =? 1 then MRequest else MAck (u16 (rcv_idx t1 + 1 - 1))) end)
      with (Some (MAck i)).
    2:{ replace (rcv_idx t1 + 1 - 1) with i by lia. rewrite u16_small by lia.
        replace (rcv_idx t1 + 1 =? 1) with false by lia. destruct k; reflexivity. }
    rewrite step_deliver by apply in_snoc. cbn [deliver].
    cbn [snd_ set_net set_rcv]. rewrite Hs, Z.eqb_refl.
    cbn [snd_ set_snd]. unfold serve.
    assert (C : chunk (i + 1) <> None) by (apply chunk_some; lia).
    destruct (TftpModel.chunk B file (i + 1)) as [d'|] eqn:E'; [|congruence].
    replace (i + 1 <? 65536) with true by lia.
    rewrite E in H. unfold rcv_ok in H. cbn in H.
    unfold at_block. cbn. rewrite Hx in *. split; [reflexivity|]. split; [reflexivity|].
    split; [reflexivity|]. destruct H as [_ [_ [H2 [H3 _]]]]. auto.
  Qed.

  Lemma exchange_last d t : n < 65536 -> chunk n = Some d ->
    at_block n t ->
    (k = KWrite -> file <> []) ->
    let t' := runk t (exchange n d) in
    rcv t' = RDone true /\ rcv_file t' = file /\ (k = KWrite -> snd_ t' = SDone true).
  Proof.
    intros Hn Hc Hat Hne. pose proof (chunks_pos B file HB) as Hp.
    destruct (at_block_data n d t ltac:(lia) ltac:(lia) Hc Hat) as [t1 [E1 [Hs [Hr [Hx Hok]]]]].
    unfold exchange. cbv zeta.
    change [SSend; Deliver (MData n d); RResume; RSend; Deliver (MAck n); SResume]
      with ([SSend; Deliver (MData n d)] ++ [RResume; RSend; Deliver (MAck n); SResume]).
    unfold run in *. rewrite fold_left_app, E1. cbn [fold_left]. rewrite step_rresume, Hr.
    destruct (receive_ok k B file HB t1 d Hr Hok) as [[L _]|[L [_ [Lf [E H]]]]]; [lia|].
    rewrite E, step_rsend, step_sresume. unfold sent, receiver_msg. cbn [rcv set_rcv rcv_idx].
    destruct k eqn:Ek.
    - assert (Ef : negb (Nat.eqb (List.length file) 0) = true).
      { specialize (Hne eq_refl). destruct file; [congruence|reflexivity]. }
      rewrite Ef. rewrite Hx, u16_small by lia.
      rewrite step_deliver by apply in_snoc. cbn [deliver].
      cbn [snd_ set_net set_rcv]. rewrite Hs, Z.eqb_refl. cbn [snd_ set_snd].
      pose proof (serve_ok B file HB (n + 1) ltac:(lia)) as S.
      cbn. split; [reflexivity|]. split; [reflexivity|]. intros _.
      destruct (serve B file (n + 1)); try lia; try contradiction. destruct S as [-> _]. reflexivity.
    - cbn [step]. destruct (in_dec _ (MAck n) _) as [Hin|]; cbn [set_rcv set_net snd_ deliver];
        cbn [snd_ set_net set_rcv set_snd]; rewrite ?Hs.
      + rewrite Z.eqb_refl. cbn. split; [reflexivity|]. split; [reflexivity|discriminate].
      + cbn. split; [reflexivity|]. split; [reflexivity|discriminate].
  Qed.

  Lemma exchanges_run : n < 65536 -> (k = KWrite -> file <> []) ->
    forall m i t, Z.of_nat m = n - i -> 1 <= i -> at_block i t ->
    let t' := runk t (exchanges i (skipn (Z.to_nat (i - 1)) chunks)) in
    rcv t' = RDone true /\ rcv_file t' = file /\ (k = KWrite -> snd_ t' = SDone true).
  Proof.
    intros Hn Hne. induction m as [|m IH]; intros i t Hm Hi Hat.
    - assert (i = n) by lia. subst i.
      assert (C : chunk n <> None) by (apply chunk_some; lia).
      destruct (TftpModel.chunk B file n) as [d|] eqn:E; [|congruence].
      assert (S : skipn (Z.to_nat (n - 1)) chunks = [d]).
      { unfold TftpModel.chunk in E. rewrite (skipn_nth _ _ _ E), skipn_all2; [reflexivity|].
        unfold zlen. lia. }
      rewrite S. cbn [exchanges]. rewrite app_nil_r. apply exchange_last; auto.
    - assert (C : chunk i <> None) by (apply chunk_some; lia).
      destruct (TftpModel.chunk B file i) as [d|] eqn:E; [|congruence].
      assert (S : skipn (Z.to_nat (i - 1)) chunks = d :: skipn (Z.to_nat (i + 1 - 1)) chunks).
      { unfold TftpModel.chunk in E. replace (Z.to_nat (i + 1 - 1)) with (S (Z.to_nat (i - 1))) by lia.
        apply skipn_nth. exact E. }
      rewrite S. cbn [exchanges].
      unfold run. rewrite fold_left_app. fold (runk t (exchange i d)).
      assert (At : at_block (i + 1) (runk t (exchange i d))).
      { apply exchange_mid; auto; lia. }
      apply (IH (i + 1)); [lia|lia|exact At].
  Qed.
End Live2.
