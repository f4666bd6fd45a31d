(** C28-C30: TFTP. *)
From Verif Require Import Base BaseLemmas PyStrModel PyStrProofs Utf8Model Utf8Proofs
  TftpModel TftpSpec TftpProofs.
From Coq Require Import ZifyBool ZifyNat.
Ltac Zify.zify_post_hook ::= Z.div_mod_to_equations.

(** * C28 *)

(** The blocks are the file's block sequence, which is unique. *)
Theorem C28_blocks size file : (1 <= size)%nat ->
  block_sequence size file (tftp_chunks size file) /\
  (forall bs, block_sequence size file bs -> bs = tftp_chunks size file).
Proof.
  intros H. split; [apply chunks_spec; exact H|]. intros bs Hb.
  apply (block_sequence_unique size _ file); [exact Hb|apply chunks_spec; exact H].
Qed.
Example C28_example :
  tftp_chunks 3 [1;2;3;4;5;6] = [[1;2;3];[4;5;6];[]] /\
  tftp_chunks 3 [1;2;3;4] = [[1;2;3];[4]] /\ tftp_chunks 3 [] = [[]].
Proof. vm_compute. auto. Qed.

(** Their number. *)
Theorem C28_block_count size file : (1 <= size)%nat ->
  zlen (tftp_chunks size file) = zlen file / Z.of_nat size + 1.
Proof.
  intros H. destruct (chunks_spec size file H) as [E [i [f [Ec [Hi Lf]]]]].
  rewrite Ec in E |- *. unfold zlen. rewrite <- E, concat_app, !app_length. cbn.
  rewrite app_nil_r.
  assert (L : List.length (List.concat i) = (List.length i * size)%nat).
  { clear - Hi. induction Hi as [|b i Hb Hi IH]; [reflexivity|]. cbn.
    rewrite app_length, IH, Hb. lia. }
  rewrite L. rewrite !Nat2Z.inj_add, Nat2Z.inj_mul.
  rewrite (Z.add_comm (_ * _)), Z.div_add by lia. rewrite (Z.div_small (Z.of_nat (List.length f))) by lia. lia.
Qed.

(** * C29 *)

(** Requests survive the wire. *)
Theorem C29_requests_roundtrip f m :
  Forall is_scalar f -> Forall is_scalar m -> ~ In 0 f -> ~ In 0 m ->
  (exists w, send_datagram (DRrq f m) = Some ([0; 1] ++ w) /\
     receive_datagram ([0; 1] ++ w) = Some (Some (DRrq f m))) /\
  (exists w, send_datagram (DWrq f m) = Some ([0; 2] ++ w) /\
     receive_datagram ([0; 2] ++ w) = Some (Some (DWrq f m))).
Proof.
  intros Hf Hm Nf Nm.
  destruct (utf8_encode_some f Hf) as [ef Ef]. destruct (utf8_encode_some m Hm) as [em Em].
  assert (Z0 : forall s e, Forall is_scalar s -> ~ In 0 s -> utf8_encode s = Some e -> ~ In 0 e).
  { induction s as [|c s IH]; cbn; intros e Hs Ns E.
    - injection E as <-. intros [].
    - inversion Hs as [|? ? [[C1 C2] C3] Hs']; subst. rewrite C3 in E.
      destruct (utf8_encode s) as [r|]; [|discriminate]. injection E as <-.
      intros Hin. apply in_app_or in Hin. destruct Hin as [Hin|Hin].
      + revert Hin. assert (c <> 0) by tauto. unfold utf8_enc1.
        destruct (Z.ltb_spec c 128); [cbn; intros [|[]]; lia|].
        destruct (Z.ltb_spec c 2048); [cbn [In]; intros [|[|[]]]; lia|].
        destruct (Z.ltb_spec c 65536); cbn [In]; [intros [|[|[|[]]]]|intros [|[|[|[|[]]]]]]; lia.
      + apply (IH r); auto. }
  assert (P : parse_filename_mode (ef ++ [0] ++ em ++ [0]) = Some (f, m)).
  { unfold parse_filename_mode. cbn [app]. rewrite split_on_app by eauto.
    rewrite split_on_app by eauto.
    rewrite (utf8_roundtrip f ef Hf Ef), (utf8_roundtrip m em Hm Em). reflexivity. }
  split; exists (ef ++ [0] ++ em ++ [0]);
    (split; [cbn [send_datagram]; unfold encode_filename_mode; rewrite Ef, Em; reflexivity|]);
    unfold receive_datagram, from_be16; cbn [app]; cbn [Z.mul Z.add Pos.mul Z.eqb Pos.eqb];
    change (ef ++ 0 :: em ++ [0]) with (ef ++ [0] ++ em ++ [0]); rewrite P; reflexivity.
Qed.
Example C29_example :
  send_datagram (DRrq (lit "a.bin") (lit "octet"))
  = Some ([0; 1] ++ lit "a.bin" ++ [0] ++ lit "octet" ++ [0]) /\
  Forall is_scalar (lit "a.bin") /\ ~ In 0 (lit "a.bin").
Proof.
  split; [reflexivity|]. split; [|vm_compute; intuition discriminate].
  repeat constructor; vm_compute; congruence.
Qed.

(** A NUL in the name silently changes both name and mode. *)
Theorem C29_nul_refuted :
  exists f m w, Forall is_scalar f /\ send_datagram (DRrq f m) = Some w /\
    exists f' m', receive_datagram w = Some (Some (DRrq f' m')) /\ f' <> f /\ m' <> m.
Proof.
  exists [97; 0; 98], (lit "octet"). eexists. split; [repeat constructor; vm_compute; congruence|].
  split; [reflexivity|]. exists [97], [98]. split; [reflexivity|]. split; discriminate.
Qed.

(** Data and acknowledgements: the wire format, and what arrives: the block
    number modulo 2^16. *)
Theorem C29_blocks_roundtrip b data : 0 <= b ->
  send_datagram (DData b data) = Some ([0; 3; b / 256 mod 256; b mod 256] ++ data) /\
  send_datagram (DAck b) = Some [0; 4; b / 256 mod 256; b mod 256] /\
  (forall w, send_datagram (DData b data) = Some w ->
     receive_datagram w = Some (Some (DData (b mod 65536) data))) /\
  (forall w, send_datagram (DAck b) = Some w ->
     receive_datagram w = Some (Some (DAck (b mod 65536)))).
Proof.
  intros H.
  assert (A : be16 (u16 b) = [b / 256 mod 256; b mod 256]).
  { unfold be16, u16. f_equal; [|f_equal]; lia. }
  assert (R : b / 256 mod 256 * 256 + b mod 256 = b mod 65536) by lia.
  cbn [send_datagram]. rewrite A. split; [reflexivity|]. split; [reflexivity|].
  split; intros w E; injection E as <-; unfold receive_datagram, from_be16;
    cbn [app be16]; cbn -[Z.mul Z.add Z.div Z.modulo]; change (0 / 256 mod 256) with 0;
    rewrite R; reflexivity.
Qed.

(** The message of an error arrives with a NUL appended. *)
Theorem C29_error_message c s : 0 <= c <= 8 -> Forall is_scalar s ->
  exists w, send_datagram (DError c s) = Some w /\
    receive_datagram w = Some (Some (DError c (s ++ [0]))).
Proof.
  intros Hc Hs. destruct (utf8_encode_some s Hs) as [e E]. cbn [send_datagram]. rewrite E.
  eexists. split; [reflexivity|].
  assert (A : be16 (u16 c) = [0; c]).
  { unfold be16, u16. f_equal; [|f_equal]; lia. }
  rewrite A. unfold receive_datagram, from_be16. cbn [app be16].
  cbn -[Z.mul Z.add Z.div Z.modulo]. replace (0 * 256 + c) with c by lia.
  replace ((0 <=? c) && (c <=? 8)) with true by lia.
  rewrite (utf8_roundtrip_app s e [0] Hs E). reflexivity.
Qed.

(** * C30 *)

(** Reading: whatever the network does (loss, duplication, reordering, also of
    requests), the receiver's file is at every moment a prefix of the file
    served, and on success it is that file. *)
Theorem C30_read_safe size file ops : (1 <= size)%nat ->
  let t := run KRead size file (initial KRead) ops in
  is_prefix (rcv_file t) file /\
  (rcv t = RDone true -> rcv_file t = file) /\ rcv t <> RRaised.
Proof.
  intros HB. cbv zeta.
  destruct (inv_run KRead size file HB ops 0 _ ltac:(discriminate) (inv_initial KRead size file HB))
    as [_ [R _]].
  unfold rcv_ok in R. destruct (rcv _) as [|got|b|] eqn:E.
  - destruct R; discriminate.
  - destruct R as [_ [_ [-> _]]]. split; [apply some_chunks_prefix; exact HB|].
    split; [discriminate|discriminate].
  - destruct R as [_ [_ [R1 R2]]]. split; [exact R1|]. split; [|discriminate].
    intros [= ->]. apply R2. reflexivity.
  - contradiction.
Qed.

(** Writing, when the write request is delivered at most once (missing from the
    full property: duplicated requests, refuted below): the same, and when the
    client reports success the server's file is the whole file. *)
Theorem C30_write_safe_partial size file ops : (1 <= size)%nat ->
  (requests ops <= 1)%nat ->
  let t := run KWrite size file (initial KWrite) ops in
  is_prefix (rcv_file t) file /\
  (rcv t = RDone true -> rcv_file t = file) /\ rcv t <> RRaised /\
  (snd_ t = SDone true -> rcv t = RDone true /\ rcv_file t = file).
Proof.
  intros HB Hr. cbv zeta.
  destruct (inv_run KWrite size file HB ops 0 _ ltac:(intros; lia) (inv_initial KWrite size file HB))
    as [_ [R [S [A1 A2]]]].
  assert (G : snd_ (run KWrite size file (initial KWrite) ops) = SDone true ->
     rcv (run KWrite size file (initial KWrite) ops) = RDone true).
  { intros E. rewrite E in A2. destruct A2 as [A2 A3].
    destruct (A1 _ A2) as [_ [C|[_ [_ C]]]]; [|exact C].
    unfold rcv_ok in R.
    destruct (rcv _) as [| | |]; [destruct R as [_ [_ R]]| | |contradiction];
      pose proof (chunks_pos size file HB); lia. }
  unfold rcv_ok in R. destruct (rcv _) as [|got|b|] eqn:E.
  - destruct R as [_ [-> _]]. split; [exists file; reflexivity|].
    split; [discriminate|]. split; [discriminate|]. intros F. specialize (G F). discriminate.
  - destruct R as [_ [_ [-> _]]]. split; [apply some_chunks_prefix; exact HB|].
    split; [discriminate|]. split; [discriminate|]. intros F. specialize (G F). discriminate.
  - destruct R as [_ [_ [R1 R2]]]. split; [exact R1|].
    assert (T : RDone b = RDone true -> rcv_file (run KWrite size file (initial KWrite) ops) = file).
    { intros [= ->]. apply R2. reflexivity. }
    split; [exact T|]. split; [discriminate|].
    intros F. specialize (G F). split; [exact G|apply T; exact G].
  - contradiction.
Qed.

(** Undisturbed transfers succeed: every non-empty file of fewer than 65535
    full blocks can be written, and every such file (also an empty one) read. *)
Theorem C30_write_undisturbed size file : (1 <= size)%nat ->
  file <> [] -> zlen file / Z.of_nat size + 1 < 65536 ->
  let t := run KWrite size file (initial KWrite) (write_schedule (tftp_chunks size file)) in
  snd_ t = SDone true /\ rcv t = RDone true /\ rcv_file t = file.
Proof.
  intros HB Hne Hn. rewrite <- (C28_block_count size file HB) in Hn. cbv zeta.
  pose proof (chunks_pos size file HB) as Hp.
  unfold write_schedule, run. rewrite fold_left_app.
  set (t1 := fold_left (step KWrite size file)
    [SSend; Deliver MRequest; RStart; RSend; Deliver (MAck 0); SResume] (initial KWrite)).
  assert (At : at_block size file 1 t1).
  { subst t1. cbn [fold_left]. unfold initial, initial_with.
    cbn [step sent sender_msg snd_ set_net net app].
    destruct (in_dec msg_eq_dec MRequest [MRequest]) as [|N]; [|exfalso; apply N; left; reflexivity].
    cbn [deliver set_rcv rcv rcv_idx rcv_pos rcv_pending net snd_ snd_pending step sent receiver_msg set_net app].
    change (u16 (1 - 1)) with 0.
    destruct (in_dec msg_eq_dec (MAck 0) [MRequest; MAck 0]) as [|N];
      [|exfalso; apply N; right; left; reflexivity].
    cbn [deliver set_snd set_rcv snd_ Z.eqb net snd_pending rcv rcv_idx rcv_file rcv_pos rcv_pending].
    unfold serve, set_snd. assert (C : chunk size file 1 <> None) by (apply chunk_some; lia).
    destruct (chunk size file 1); [|congruence]. cbn. repeat split. }
  destruct (exchanges_run KWrite size file HB Hn ltac:(auto)
    (Z.to_nat (zlen (tftp_chunks size file) - 1)) 1 t1 ltac:(lia) ltac:(lia) At) as [A [B C]].
  cbn [Z.to_nat Z.sub Z.add Z.opp Z.pos_sub skipn] in A, B, C. unfold run in A, B, C.
  change (skipn (Z.to_nat (1 - 1)) (tftp_chunks size file)) with (tftp_chunks size file) in *.
  split; [exact (C eq_refl)|]. split; [exact A|exact B].
Qed.

Theorem C30_read_undisturbed size file : (1 <= size)%nat ->
  zlen file / Z.of_nat size + 1 < 65536 ->
  let t := run KRead size file (initial KRead) (read_schedule (tftp_chunks size file)) in
  rcv t = RDone true /\ rcv_file t = file.
Proof.
  intros HB Hn. rewrite <- (C28_block_count size file HB) in Hn. cbv zeta.
  pose proof (chunks_pos size file HB) as Hp.
  unfold read_schedule, run. rewrite fold_left_app.
  set (t1 := fold_left (step KRead size file) [RSend; Deliver MRequest; SStart] (initial KRead)).
  assert (At : at_block size file 1 t1).
  { subst t1. cbn [fold_left]. unfold initial, initial_with.
    cbn [step sent receiver_msg rcv rcv_idx Z.eqb Pos.eqb set_net net app snd_ snd_pending rcv_file rcv_pos rcv_pending].
    destruct (in_dec msg_eq_dec MRequest [MRequest]) as [|N]; [|exfalso; apply N; left; reflexivity].
    cbn [deliver set_snd rcv rcv_idx rcv_pos rcv_pending net snd_ snd_pending].
    unfold serve, set_snd. assert (C : chunk size file 1 <> None) by (apply chunk_some; lia).
    destruct (chunk size file 1); [|congruence]. cbn. repeat split. }
  destruct (exchanges_run KRead size file HB Hn ltac:(discriminate)
    (Z.to_nat (zlen (tftp_chunks size file) - 1)) 1 t1 ltac:(lia) ltac:(lia) At) as [A [B C]].
  split; [exact A|exact B].
Qed.
Example C30_undisturbed_example :
  let file := repeat 7 600 in
  [7] <> [] /\ zlen file / 512 + 1 < 65536 /\
  snd_ (run KWrite 512 file (initial KWrite) (write_schedule (tftp_chunks 512 file))) = SDone true.
Proof. split; [discriminate|]. vm_compute. auto. Qed.

(** ** What fails *)

(** A duplicated write request that arrives in the middle of the transfer
    truncates the file under the writer: both sides report success and the file
    is corrupt (a hole of zeros).  A duplicate queued behind the transfer
    empties the file after both sides reported success. *)
Theorem C30_duplicate_request_refuted :
  let file := repeat 1 513 in
  (exists ops, requests ops = 2%nat /\
     let t := run KWrite 512 file (initial KWrite) ops in
     snd_ t = SDone true /\ rcv t = RDone true /\
     rcv_file t = repeat 0 512 ++ [1] /\ ~ is_prefix (rcv_file t) file) /\
  (exists ops, requests ops = 2%nat /\
     let t := run KWrite 512 file (initial KWrite) ops in
     snd_ t = SDone true /\ rcv_file t = []).
Proof.
  cbv zeta. split.
  - exists ([SSend; SSend; Deliver MRequest; RStart; RSend; Deliver (MAck 0); SResume]
      ++ exchange 1 (repeat 1 512) ++ [Deliver MRequest] ++ exchange 2 [1]).
    split; [vm_compute; reflexivity|]. split; [vm_compute; reflexivity|].
    split; [vm_compute; reflexivity|]. split; [vm_compute; reflexivity|].
    intros [c E]. vm_compute in E. discriminate.
  - exists ([SSend; SSend; Deliver MRequest; Deliver MRequest; RStart; RSend; Deliver (MAck 0); SResume]
      ++ exchange 1 (repeat 1 512) ++ exchange 2 [1] ++ [RStart]).
    vm_compute. auto.
Qed.

(** An empty file can never be written: whatever happens, the client never
    reports success. *)
Theorem C30_empty_write_fails size ops : (1 <= size)%nat -> (requests ops <= 1)%nat ->
  snd_ (run KWrite size [] (initial KWrite) ops) <> SDone true.
Proof.
  intros HB Hr E.
  destruct (inv_run KWrite size [] HB ops 0 _ ltac:(intros; lia) (inv_initial KWrite size [] HB))
    as [_ [R _]].
  destruct (C30_write_safe_partial size [] ops HB Hr) as [_ [_ [_ G]]].
  destruct (G E) as [G1 _]. unfold rcv_ok in R. rewrite G1 in R.
  destruct R as [_ [_ [_ R]]]. destruct (R eq_refl) as [_ [_ [_ R']]]. apply R'; reflexivity.
Qed.

(** Reading: the last block is never acknowledged, so the serving side never
    succeeds, whatever the network does. *)
Theorem C30_read_server_never_succeeds size file ops : (1 <= size)%nat ->
  snd_ (run KRead size file (initial KRead) ops) <> SDone true.
Proof.
  intros HB E.
  destruct (inv_run KRead size file HB ops 0 _ ltac:(discriminate) (inv_initial KRead size file HB))
    as [_ [R [_ [A1 A2]]]].
  rewrite E in A2. destruct A2 as [A2 A3]. destruct (A1 _ A2) as [_ [C|[C _]]]; [|discriminate].
  unfold rcv_ok in R. destruct (rcv _); [destruct R; discriminate| | |contradiction]; lia.
Qed.

(** Files of 65535 or more full blocks cannot be transferred: the sending side
    never succeeds (it raises when it gets to block 65536). *)
Theorem C30_large_file_fails k size file ops : (1 <= size)%nat ->
  (k = KWrite -> (requests ops <= 1)%nat) ->
  65536 <= zlen file / Z.of_nat size + 1 ->
  snd_ (run k size file (initial k) ops) <> SDone true /\
  rcv (run k size file (initial k) ops) <> RDone true.
Proof.
  intros HB Hr Hn. rewrite <- (C28_block_count size file HB) in Hn.
  destruct (inv_run k size file HB ops 0 _ ltac:(intros; apply Hr; auto) (inv_initial k size file HB))
    as [_ [R [_ [_ A2]]]].
  split; intros E.
  - rewrite E in A2. lia.
  - unfold rcv_ok in R. rewrite E in R. destruct R as [_ [_ [_ R]]]. destruct (R eq_refl). lia.
Qed.
Example C30_large_example : 65536 <= (65535 * 512) / Z.of_nat 512 + 1.
Proof. vm_compute. discriminate. Qed.

(** Two transfers between the same endpoints: a datagram left over from reading
    one file is accepted while reading the next, which then succeeds with the
    wrong contents. *)
Theorem C30_stale_datagram_refuted :
  exists file1 file2 ops1 ops2,
    let t1 := run KRead 512 file1 (initial KRead) ops1 in
    let t2 := run KRead 512 file2 (initial_with KRead (net t1)) ops2 in
    rcv t1 = RDone true /\ rcv t2 = RDone true /\ rcv_file t2 <> file2.
Proof.
  exists [1], [2], (read_schedule [[1]]), [Deliver (MData 1 [1]); RResume].
  vm_compute. split; [reflexivity|]. split; [reflexivity|]. discriminate.
Qed.

Print Assumptions C28_blocks.
Print Assumptions C28_block_count.
Print Assumptions C29_requests_roundtrip.
Print Assumptions C29_nul_refuted.
Print Assumptions C29_blocks_roundtrip.
Print Assumptions C29_error_message.
Print Assumptions C30_read_safe.
Print Assumptions C30_write_safe_partial.
Print Assumptions C30_write_undisturbed.
Print Assumptions C30_read_undisturbed.
Print Assumptions C30_duplicate_request_refuted.
Print Assumptions C30_empty_write_fails.
Print Assumptions C30_read_server_never_succeeds.
Print Assumptions C30_large_file_fails.
Print Assumptions C30_stale_datagram_refuted.
