(** Properties C20 (framer) and C21 (chains of serializables). *)
From Coq Require Import ZifyBool ZifyNat.
From Verif Require Import Base BaseLemmas PrimModel PrimSpec PrimProofs StringModel StringProofs
  ArrayModel ArraySpec ArrayProofs ChainModel ChainSpec ChainProofs.

(** C20.  A framer exists exactly when one element fits; then, whatever is
    captured, every frame holds a positive whole number of elements and fits
    [mtu - overhead]; the frames followed by what is still buffered are all
    samples in order; less than one full frame is buffered. *)
Theorem C20_frames_fit_and_lose_nothing :
  forall size mtu overhead,
    (size > 0 /\ size <= mtu - overhead <-> exists f, f_set_mtu size mtu overhead = Some f) /\
    forall f cs f' out,
      f_set_mtu size mtu overhead = Some f ->
      Forall (fun c => cp_sample c = true -> zlen (cp_bytes c) = size) cs ->
      f_run f cs = (f', out) ->
      List.concat (samples cs) = List.concat out ++ f_raw f' /\
      Forall (fun x => zlen x <= mtu - overhead /\ exists n, 0 < n /\ zlen x = n * size) out /\
      zlen (f_raw f') + size <= mtu - overhead.
Proof.
  intros size mtu ov. unfold f_set_mtu. split.
  - split.
    + intros [H1 H2]. rewrite (proj2 (Z.gtb_lt size 0)) by lia.
      assert (0 < (mtu - ov) / size) by (apply Z.div_str_pos; lia).
      rewrite (proj2 (Z.gtb_lt _ 0)) by lia. eauto.
    + intros [f H]. destruct (Z.gtb_spec size 0); [|discriminate].
      destruct (Z.gtb_spec ((mtu - ov) / size) 0); [|discriminate].
      pose proof (Z.mul_div_le (mtu - ov) size). split; [lia|]. nia.
  - intros f cs f' out H Hc E. destruct (Z.gtb_spec size 0) as [Hs|]; [|discriminate].
    destruct (Z.gtb_spec ((mtu - ov) / size) 0) as [Hn|]; [|discriminate]. injection H as <-.
    assert (Hok : f_ok size (mkFr ((mtu - ov) / size) 0 [])) by (unfold f_ok; cbn; lia).
    destruct (f_run_spec size cs _ _ _ Hs Hok Hc E) as ((A1 & A2 & A3) & B & C & D).
    cbn in B, C. split; [exact C|].
    pose proof (Z.mul_div_le (mtu - ov) size Hs) as Hm. split.
    + eapply Forall_impl; [|exact D]. cbn. intros x (n & Hn2 & Hx).
      split; [nia|]. exists n. lia.
    + rewrite A3. nia.
Qed.
Print Assumptions C20_frames_fit_and_lose_nothing.

(** C20.  After a final flush nothing is left: the frames are the samples. *)
Theorem C20_flush_completes :
  forall size mtu overhead f cs last f' out,
    f_set_mtu size mtu overhead = Some f ->
    Forall (fun c => cp_sample c = true -> zlen (cp_bytes c) = size) (cs ++ [last]) ->
    cp_flush last = true ->
    f_run f (cs ++ [last]) = (f', out) ->
    List.concat out = List.concat (samples (cs ++ [last])) /\ f_raw f' = [].
Proof.
  intros size mtu ov f cs last f' out H Hc Hl E.
  pose proof (proj2 (C20_frames_fit_and_lose_nothing size mtu ov) f _ f' out H Hc E) as (A & _ & _).
  assert (R : f_raw f' = []).
  { clear A. assert (Hs : 0 < size).
    { unfold f_set_mtu in H. destruct (Z.gtb_spec size 0); [lia|discriminate]. }
    assert (Hf : f_ok size f).
    { unfold f_set_mtu in H. destruct (size >? 0); [|discriminate].
      destruct (Z.gtb_spec ((mtu - ov) / size) 0); [|discriminate]. injection H as <-.
      unfold f_ok; cbn; lia. }
    clear H. revert f Hf out E. induction cs as [|c cs IH]; intros f Hf out E; cbn [app f_run] in E.
    - inversion Hc as [|? ? Hc1 _]; subst.
      pose proof (f_capture_spec size f last Hs Hf Hc1) as G.
      destruct (f_capture _ _ _ _) as [f1 o]. injection E as <- _. apply G. exact Hl.
    - inversion Hc as [|? ? Hc1 Hc2]; subst.
      pose proof (f_capture_spec size f c Hs Hf Hc1) as G.
      destruct (f_capture _ _ _ _) as [f1 o].
      destruct (f_run f1 (cs ++ [last])) as [f2 out2] eqn:E2. injection E as <- _.
      eapply IH; [exact Hc2| |exact E2]. apply G. }
  split; [|exact R]. rewrite A, R, app_nil_r. reflexivity.
Qed.
Print Assumptions C20_flush_completes.

Example ex_framer :
  exists f, f_set_mtu 3 10 1 = Some f /\
    snd (f_run f [mkCap [1;2;3] true false; mkCap [4;5;6] true false; mkCap [] false false;
                  mkCap [7;8;9] true false; mkCap [1;1;1] true false; mkCap [] false true])
    = [[1;2;3;4;5;6;7;8;9]; [1;1;1]].
Proof. eexists. split; reflexivity. Qed.

(** C21.  A chain is written as its members' bytes in order; the returned count
    and the reported length are the number of bytes written. *)
Theorem C21_written_in_order :
  forall native_le c,
    reach native_le c -> c_standard c ->
    exists ds w n,
      Forall2 (fun m d => n_bytes native_le m = Some d) c ds /\
      c_to_stream native_le c = Some (w, n) /\
      w = List.concat ds /\ n = zlen w /\ c_length c = zlen w.
Proof.
  intros nl c H Hs. apply reach_inv in H.
  destruct (c_written nl c H Hs) as (ds & F & _ & E & L).
  exists ds, (List.concat ds), (c_length c). repeat split; auto.
Qed.
Print Assumptions C21_written_in_order.

(** C21.  Reading that into any chain of the same shape succeeds, consumes
    exactly those bytes, and transfers every member's content. *)
Theorem C21_read_back :
  forall native_le c e w n rest,
    reach native_le c -> reach native_le e -> c_standard c -> c_shape e c ->
    c_to_stream native_le c = Some (w, n) ->
    exists e', c_from_stream native_le e (w ++ rest) = (e', ROk rest n) /\
      n = zlen w /\ map n_content e' = map n_content c /\ c_length e' = c_length c.
Proof.
  intros nl c e w n rest Hc He Hs Hsh Hw. apply reach_inv in Hc, He.
  destruct (c_read_back nl c e w n rest Hc He Hs Hsh Hw) as (e' & A & B & C).
  exists e'. split; [exact A|]. split; [|auto].
  destruct (c_written nl c Hc Hs) as (ds & _ & _ & E & L). rewrite Hw in E.
  injection E as -> ->. symmetry. exact L.
Qed.
Print Assumptions C21_read_back.

(** C21.  A copy is written identically, member by member. *)
Theorem C21_copy_same :
  forall native_le c,
    reach native_le c ->
    c_to_stream native_le (c_copy c) = c_to_stream native_le c /\
    c_length (c_copy c) = c_length c /\ List.length (c_copy c) = List.length c.
Proof.
  intros nl c H. apply reach_inv in H. destruct (c_copy_stream nl c H) as (A & B & _).
  split; [exact A|]. split; [exact B|]. apply map_length.
Qed.
Print Assumptions C21_copy_same.

(** C21.  Chaining [o] [array_length] times appends its bytes that many times
    (once when [array_length] is absent or at most 1). *)
Theorem C21_add_to_end :
  forall native_le c o array_length w k v l,
    reach native_le c -> reach native_le o ->
    c_to_stream native_le c = Some (w, k) -> c_to_stream native_le o = Some (v, l) ->
    let extra := match array_length with Some n => Z.to_nat (n - 1) | None => O end in
    c_to_stream native_le (fst (c_add_to_end c o array_length)) =
      Some (w ++ List.concat (repeat v (S extra)), k + Z.of_nat (S extra) * l) /\
    snd (c_add_to_end c o array_length) = Z.of_nat (S extra) * head_size o.
Proof.
  intros nl c o al w k v l Hc Ho Hw Hv extra. apply reach_inv in Hc, Ho.
  destruct (c_copy_stream nl o Ho) as (A & B & C).
  destruct (c_copy_stream nl (c_copy o) (c_copy_inv _ Ho)) as (A2 & B2 & C2).
  unfold c_add_to_end. fold extra. cbn [fst snd]. split.
  - assert (H2 : c_to_stream nl (c_copy (c_copy o)) = Some (v, l)) by congruence.
    pose proof (to_stream_times nl _ v l extra H2) as T.
    pose proof (to_stream_app nl _ _ _ _ _ _ Hv T) as T2.
    pose proof (to_stream_app nl _ _ _ _ _ _ Hw T2) as T3. rewrite T3.
    f_equal. f_equal; [|lia]. f_equal. cbn [repeat List.concat]. f_equal.
    clear. induction extra as [|e IH]; [reflexivity|]. cbn. rewrite IH. reflexivity.
  - rewrite C2, C. lia.
Qed.
Print Assumptions C21_add_to_end.

(** The value [add_to_end] returns counts only the first member of each added
    chain, so it is not the number of bytes added when a whole chain is added. *)
Theorem C21_add_to_end_return_refuted :
  exists c o, reach true c /\ reach true o /\
    snd (c_add_to_end c o None) <>
    c_length (fst (c_add_to_end c o None)) - c_length c.
Proof.
  exists [NFix [1]], [NFix [2]; NFix [3]]. repeat split.
  - apply R_fix. repeat constructor; unfold is_byte; lia.
  - apply (R_add_to_end true [NFix [2]] [NFix [3]] None); apply R_fix;
      repeat constructor; unfold is_byte; lia.
  - vm_compute. discriminate.
Qed.
Print Assumptions C21_add_to_end_return_refuted.

(** With the padded native layout the claim is false: the reported length is
    not the number of bytes written, and the chain cannot be read back. *)
Theorem C21_native_refuted :
  exists c w n, reach true c /\ c_to_stream true c = Some (w, n) /\ n <> zlen w /\
    snd (c_from_stream true c w) = RStruct.
Proof.
  exists [NArr (a_run true (a_empty Native) [AAdd (p_new U8 1) None; AAdd (p_new U32 2) None])].
  eexists. eexists. repeat split.
  - apply R_arr. exists Native, [AAdd (p_new U8 1) None; AAdd (p_new U32 2) None].
    split; [|reflexivity]. repeat constructor; cbn; unfold p_ok; cbn; lia.
  - vm_compute. discriminate.
Qed.
Print Assumptions C21_native_refuted.

(** Reading a truncated stream shrinks a fixed chunk instead of raising. *)
Theorem C21_truncated_fixed_shrinks :
  forall native_le d l, zlen l < zlen d ->
    n_from_stream native_le (NFix d) l = (NFix l, ROk [] (zlen l)).
Proof.
  intros nl d l H. cbn. unfold stream_read. pose proof (zlen_nonneg d).
  destruct (Z.ltb_spec (zlen d) 0); [lia|]. unfold zlen in *.
  rewrite firstn_all2, skipn_all2 by lia. reflexivity.
Qed.
Print Assumptions C21_truncated_fixed_shrinks.

(** A concrete chain: array, fixed chunk, then an element added through the
    head (a new array), then a prefixed chunk twice. *)
Definition ex_arr := a_run true (a_empty BigEndian) [AAdd (p_new U16 258) None].
Definition ex_pc := fst (pc_update (mkPc U8 0 [] BigEndian 1) [9; 8]).
Definition ex_c1 := fst (c_add_to_end [NArr ex_arr] [NFix [7]] None).
Definition ex_c2 := c_add BigEndian ex_c1 (p_new U8 5) None.
Definition ex_chain := fst (c_add_to_end ex_c2 [NPre ex_pc] (Some 2)).
Example ex_chain_reach : reach true ex_chain.
Proof.
  apply R_add_to_end.
  - change (reach true (c_add (a_order ex_arr) (NArr ex_arr :: [NFix [7]]) (p_new U8 5) None)).
    apply R_add; [|unfold p_ok; cbn; lia].
    change (reach true (fst (c_add_to_end [NArr ex_arr] [NFix [7]] None))).
    apply R_add_to_end.
    + apply R_arr. exists BigEndian, [AAdd (p_new U16 258) None]. split; [|reflexivity].
      repeat constructor; cbn; unfold p_ok; cbn; lia.
    + apply R_fix. repeat constructor; unfold is_byte; lia.
  - eapply (R_pre true U8 8 BigEndian 0 [9; 8]).
    + constructor.
    + reflexivity.
    + repeat constructor; unfold is_byte; lia.
    + reflexivity.
Qed.
Example ex_chain_bytes :
  c_standard ex_chain /\
  c_to_stream true ex_chain = Some ([1; 2; 7; 5; 2; 9; 8; 2; 9; 8], 10).
Proof. split; [repeat constructor; discriminate|reflexivity]. Qed.
