(** Lemmas for C20 and C21. *)
From Coq Require Import ZifyBool ZifyNat.
From Verif Require Import Base BaseLemmas PrimModel PrimSpec PrimProofs StringModel StringProofs
  ArrayModel ArraySpec ArrayProofs ChainModel ChainSpec.

(** Invariant of a prefixed member. *)
Definition pc_inv (c : pchunk) : Prop :=
  (exists bits, int_kind (pc_kind c) bits false) /\ is_bytes (pc_data c) /\
  pc_prefix c = zlen (pc_data c) /\ k_value (pc_kind c) (pc_prefix c) /\
  pc_size c = Z.of_nat (k_size (pc_kind c)) + zlen (pc_data c).

Definition n_inv (n : node) : Prop :=
  match n with NArr a => AInv a | NFix d => is_bytes d | NPre c => pc_inv c end.

Lemma pc_update_size_inv c bits c' :
  int_kind (pc_kind c) bits false -> is_bytes (pc_data c) ->
  k_value (pc_kind c) (pc_prefix c) ->
  pc_update_size c = (c', true) -> pc_inv c'.
Proof.
  intros Hk Hb Hv. unfold pc_update_size.
  destruct (Z.eqb_spec (pc_prefix c) (zlen (pc_data c))) as [E|E]; [|discriminate].
  intros H. injection H as <-. cbn. unfold pc_inv; cbn. rewrite E in *. split; [eauto|]. auto.
Qed.

Lemma n_copy_inv n : n_inv n -> n_inv (n_copy n).
Proof.
  destruct n as [a|d|c]; cbn; [apply copy_inv|auto|].
  intros (Hk & Hb & Hp & Hv & Hs). unfold pc_inv; cbn. rewrite (store_id _ _ Hv).
  rewrite Hp in *. auto.
Qed.

Lemma n_times_forall {A} (P : A -> Prop) n l : Forall P l -> Forall P (n_times n l).
Proof. intros H. induction n; cbn; [constructor|apply Forall_app; auto]. Qed.

Lemma c_copy_inv c : Forall n_inv c -> Forall n_inv (c_copy c).
Proof.
  intros H. apply Forall_map. eapply Forall_impl; [|exact H]. apply n_copy_inv.
Qed.

Lemma c_add_inv bo c p n : p_ok p -> Forall n_inv c -> Forall n_inv (c_add bo c p n).
Proof.
  intros Hp. induction c as [|m r IH]; intros H; cbn [c_add]; [constructor|].
  inversion H as [|? ? Hm Hr]; subst. destruct r as [|m2 r].
  - destruct m as [a|d|c].
    + constructor; [|constructor]. apply add_inv; assumption.
    + constructor; [exact Hm|]. constructor; [|constructor].
      apply add_inv; [apply empty_inv|exact Hp].
    + constructor; [exact Hm|]. constructor; [|constructor].
      apply add_inv; [apply empty_inv|exact Hp].
  - constructor; [exact Hm|]. apply IH. exact Hr.
Qed.

Lemma stream_read_bytes n l : is_bytes l ->
  is_bytes (fst (stream_read n l)) /\ is_bytes (snd (stream_read n l)).
Proof.
  intros H. unfold stream_read. destruct (n <? 0); cbn; [split; [exact H|constructor]|].
  split; [apply is_bytes_firstn|apply is_bytes_skipn]; exact H.
Qed.

Section Host.
  Context (native_le : bool).

  Lemma n_from_stream_inv n l : n_inv n -> is_bytes l ->
    let '(n', r) := n_from_stream native_le n l in
    match r with ROk rest _ => n_inv n' /\ is_bytes rest | RStruct => n_inv n' | RAssert => True end.
  Proof.
    intros H Hl. destruct n as [a|d|c]; cbn [n_from_stream n_inv] in *.
    - pose proof (stream_read_bytes (a_size a) l Hl) as [B1 B2].
      destruct (stream_read (a_size a) l) as [data rest]. cbn in B1, B2.
      pose proof (step_inv native_le a (AUpdate data) H B1) as HS. cbn [a_step] in HS.
      destruct (a_update native_le a data) as [a'|]; cbn in HS |- *; auto.
    - pose proof (stream_read_bytes (zlen d) l Hl) as [B1 B2].
      destruct (stream_read (zlen d) l) as [data rest]. cbn in B1, B2 |- *. auto.
    - destruct H as ((bits & Hk) & Hb & Hp & Hv & Hs). unfold pc_from_stream, prim_from_stream.
      pose proof (stream_read_bytes (Z.of_nat (k_size (pc_kind c))) l Hl) as [B1 B2].
      destruct (stream_read (Z.of_nat (k_size (pc_kind c))) l) as [data rest]. cbn in B1, B2.
      destruct (k_decode native_le (pc_kind c) (pc_order c) data) as [v|].
      2:{ cbn. unfold pc_inv. eauto 8. }
      pose proof (stream_read_bytes (k_store (pc_kind c) v) rest B2) as [B3 B4].
      destruct (stream_read (k_store (pc_kind c) v) rest) as [d2 rest2]. cbn in B3, B4.
      destruct (pc_update_size _) as [c' ok] eqn:U. destruct ok; cbn; [|exact I].
      split; [|exact B4]. eapply pc_update_size_inv; [| | |exact U]; cbn; eauto.
      apply store_value.
  Qed.

  Lemma c_from_stream_inv c : forall l, Forall n_inv c -> is_bytes l ->
    snd (c_from_stream native_le c l) <> RAssert ->
    Forall n_inv (fst (c_from_stream native_le c l)).
  Proof.
    induction c as [|n r IH]; intros l H Hl; cbn [c_from_stream]; [intros _; constructor|].
    inversion H as [|? ? Hn Hr]; subst.
    pose proof (n_from_stream_inv n l Hn Hl) as G.
    destruct (n_from_stream native_le n l) as [n' [rest k| |]].
    - destruct G as [G1 G2]. specialize (IH rest Hr G2).
      destruct (c_from_stream native_le r rest) as [r' [rest' k'| |]]; cbn in *; intros Hx;
        try (constructor; [exact G1|apply IH; discriminate]). congruence.
    - cbn. intros _. constructor; assumption.
    - cbn. congruence.
  Qed.

  Lemma reach_inv c : reach native_le c -> Forall n_inv c.
  Proof.
    induction 1 as [a Ha|d Hd|k bits bo v data c c' Hk Hn Hd Hu|c o n _ IHc _ IHo
                    |a r p n _ IH Hp|c _ IH|c l _ IH Hl Hx].
    - constructor; [|constructor]. cbn. eapply reachable_inv; eauto.
    - constructor; [|constructor]. exact Hd.
    - constructor; [|constructor]. cbn.
      assert (Hc : pc_kind c = k).
      { unfold pc_new in Hn. destruct (_ && _); [|discriminate]. injection Hn as <-.
        unfold pc_update_size; cbn. destruct (_ =? _); reflexivity. }
      unfold pc_update in Hu. eapply pc_update_size_inv; [| | |exact Hu]; cbn.
      + rewrite Hc; exact Hk.
      + exact Hd.
      + apply store_value.
    - cbn. apply Forall_app. split; [exact IHc|]. apply Forall_app. split; [exact IHo|].
      apply n_times_forall, c_copy_inv, c_copy_inv, IHo.
    - apply c_add_inv; assumption.
    - apply c_copy_inv; assumption.
    - apply c_from_stream_inv; assumption.
  Qed.

  (** One member. *)
  Lemma n_bytes_some n : n_inv n -> n_standard n ->
    exists d, n_bytes native_le n = Some d /\ is_bytes d /\ zlen d = n_size n.
  Proof.
    destruct n as [a|d|c]; cbn; intros H Hs.
    - destruct (pack_some native_le (a_order a) (a_elems a) 0 (ai_ok _ H)) as [d Hd].
      exists d. split; [exact Hd|]. split; [eapply pack_bytes; exact Hd|].
      rewrite (ai_size _ H). eapply pack_std_length; eauto.
    - eauto.
    - destruct H as ((bits & Hk) & Hb & Hp & Hv & Hz). unfold pc_bytes.
      rewrite (encode_some native_le _ (pc_order c) _ Hv).
      eexists. split; [reflexivity|]. split.
      + apply Forall_app. split; [|exact Hb]. eapply encode_is_bytes, encode_some. exact Hv.
      + rewrite zlen_app, Hz. f_equal. unfold zlen.
        rewrite (encode_length native_le (pc_kind c) (pc_order c) (pc_prefix c)); [reflexivity|].
        apply encode_some; exact Hv.
  Qed.

  Lemma n_read_back m n d rest : n_inv m -> n_inv n -> n_standard n -> n_shape m n ->
    n_bytes native_le n = Some d ->
    exists m', n_from_stream native_le m (d ++ rest) = (m', ROk rest (n_size n)) /\
      n_content m' = n_content n /\ n_size m' = n_size n.
  Proof.
    intros Hm Hn Hs Hsh Hd.
    destruct (n_bytes_some n Hn Hs) as (d' & Hd' & _ & Hl). rewrite Hd in Hd'. injection Hd' as <-.
    destruct m as [a|e|c]; destruct n as [b|g|c2]; cbn in Hsh; try contradiction;
      cbn [n_from_stream n_bytes n_size n_content] in *.
    - destruct Hsh as [Hk Ho].
      assert (Hz : a_size a = a_size b).
      { cbn in Hm, Hn. rewrite (ai_size _ Hm), (ai_size _ Hn). apply total_kinds. exact Hk. }
      rewrite (stream_read_app _ d rest) by lia.
      unfold a_update. rewrite Ho.
      rewrite (unpack_pack native_le (a_order b) (a_elems b) (a_elems a) 0 d (ai_ok _ Hn) Hk Hd).
      eexists. split; [rewrite Hz; reflexivity|]. cbn.
      rewrite assign_vals by (try apply Hn; exact Hk). auto.
    - injection Hd as <-. rewrite (stream_read_app _ g rest) by lia.
      eexists. split; [reflexivity|]. cbn. auto.
    - destruct Hsh as [Hk Ho]. destruct Hn as (_ & Hb & Hp & Hv & Hz).
      unfold pc_bytes in Hd.
      destruct (k_encode native_le (pc_kind c2) (pc_order c2) (pc_prefix c2)) as [x|] eqn:E; [|discriminate].
      injection Hd as <-. unfold pc_from_stream. rewrite Hk, Ho, <- app_assoc.
      rewrite (from_stream_encode native_le _ _ _ _ _ Hv E).
      rewrite (stream_read_app _ (pc_data c2) rest Hp). unfold pc_update_size. cbn [pc_prefix pc_data].
      rewrite Hp, Z.eqb_refl. eexists. split; [cbn; rewrite Hz; reflexivity|].
      cbn. auto.
  Qed.

  Lemma c_written c : Forall n_inv c -> c_standard c ->
    exists ds, Forall2 (fun n d => n_bytes native_le n = Some d) c ds /\
      is_bytes (List.concat ds) /\
      c_to_stream native_le c = Some (List.concat ds, c_length c) /\
      zlen (List.concat ds) = c_length c.
  Proof.
    induction c as [|n r IH]; intros H Hs.
    - exists []. repeat split; constructor.
    - inversion H as [|? ? Hn Hr]; inversion Hs as [|? ? Hsn Hsr]; subst.
      destruct (IH Hr Hsr) as (ds & F & B & E & L).
      destruct (n_bytes_some n Hn Hsn) as (d & Ed & Bd & Ld).
      exists (d :: ds). cbn [List.concat c_to_stream c_length]. rewrite Ed, E.
      split; [constructor; assumption|]. split; [apply Forall_app; split; assumption|].
      split; [reflexivity|]. rewrite zlen_app. lia.
  Qed.

  Lemma c_read_back c : forall e w k rest,
    Forall n_inv c -> Forall n_inv e -> c_standard c -> c_shape e c ->
    c_to_stream native_le c = Some (w, k) ->
    exists e', c_from_stream native_le e (w ++ rest) = (e', ROk rest k) /\
      map n_content e' = map n_content c /\ c_length e' = c_length c.
  Proof.
    induction c as [|n r IH]; intros e w k rest Hc He Hs Hsh Hw; inversion Hsh as [|m ? e2 ? Hm Hr']; subst.
    - cbn in Hw. injection Hw as <- <-. exists []. auto.
    - inversion Hc as [|? ? Hn Hr]; inversion Hs as [|? ? Hsn Hsr]; inversion He as [|? ? Hm1 Hr1]; subst.
      cbn [c_to_stream] in Hw. destruct (n_bytes native_le n) as [a|] eqn:Ea; [|discriminate].
      destruct (c_to_stream native_le r) as [[b kk]|] eqn:Eb; [|discriminate]. injection Hw as <- <-.
      destruct (n_read_back m n a (b ++ rest) Hm1 Hn Hsn Hm Ea) as (m' & Em & Cm & Sm).
      destruct (IH e2 b kk rest Hr Hr1 Hsr Hr' eq_refl) as (e' & Ee & Ce & Se).
      exists (m' :: e'). cbn [c_from_stream]. rewrite <- app_assoc, Em, Ee.
      split; [reflexivity|]. cbn [map c_length]. rewrite Cm, Ce, Sm, Se. auto.
  Qed.

  Lemma n_copy_bytes n : n_inv n ->
    n_bytes native_le (n_copy n) = n_bytes native_le n /\ n_size (n_copy n) = n_size n.
  Proof.
    destruct n as [a|d|c]; cbn [n_inv n_copy n_bytes n_size]; intros H; [|auto|].
    - destruct (copy_elems a H) as [He Ho]. pose proof (copy_inv a H) as Hc.
      split; [unfold a_bytes; rewrite He, Ho; reflexivity|].
      rewrite (ai_size _ Hc), (ai_size _ H), He. reflexivity.
    - destruct H as (_ & _ & Hp & Hv & Hz). unfold pc_bytes; cbn [pc_kind pc_prefix pc_order pc_data pc_size]. rewrite (store_id _ _ Hv).
      split; [reflexivity|]. rewrite Hz, Hp. reflexivity.
  Qed.

  Lemma c_copy_stream c : Forall n_inv c ->
    c_to_stream native_le (c_copy c) = c_to_stream native_le c /\
    c_length (c_copy c) = c_length c /\ head_size (c_copy c) = head_size c.
  Proof.
    induction c as [|n r IH]; intros H; [auto|].
    inversion H as [|? ? Hn Hr]; subst. destruct (IH Hr) as (A & B & _).
    destruct (n_copy_bytes n Hn) as [C D].
    unfold c_copy in *. cbn [map c_to_stream c_length head_size]. rewrite A, B, C, D. auto.
  Qed.

  Lemma to_stream_app c1 c2 w1 k1 w2 k2 :
    c_to_stream native_le c1 = Some (w1, k1) -> c_to_stream native_le c2 = Some (w2, k2) ->
    c_to_stream native_le (c1 ++ c2) = Some (w1 ++ w2, k1 + k2).
  Proof.
    revert w1 k1. induction c1 as [|n r IH]; intros w1 k1 H1 H2.
    - cbn in H1. injection H1 as <- <-. exact H2.
    - cbn [app c_to_stream] in *. destruct (n_bytes native_le n) as [a|]; [|discriminate].
      destruct (c_to_stream native_le r) as [[b kk]|]; [|discriminate]. injection H1 as <- <-.
      rewrite (IH b kk eq_refl H2). rewrite app_assoc, Z.add_assoc. reflexivity.
  Qed.
  Lemma to_stream_times c w k n :
    c_to_stream native_le c = Some (w, k) ->
    c_to_stream native_le (n_times n c) = Some (n_times n w, Z.of_nat n * k).
  Proof.
    intros H. induction n as [|n IH]; [reflexivity|]. cbn [n_times].
    rewrite (to_stream_app _ _ _ _ _ _ H IH). f_equal. f_equal. lia.
  Qed.
End Host.

(** Framer. *)
Definition f_ok (size : Z) (f : framer) : Prop :=
  0 < f_length f /\ 0 <= f_elements f < f_length f /\ zlen (f_raw f) = f_elements f * size.

Lemma f_capture_spec size f c :
  0 < size -> f_ok size f -> (cp_sample c = true -> zlen (cp_bytes c) = size) ->
  let '(f', o) := f_capture f (cp_bytes c) (cp_sample c) (cp_flush c) in
  f_ok size f' /\ f_length f' = f_length f /\
  f_raw f ++ (if cp_sample c then cp_bytes c else []) =
    (match o with Some x => x | None => [] end) ++ f_raw f' /\
  (forall x, o = Some x ->
     exists n, 0 < n <= f_length f /\ zlen x = n * size) /\
  (cp_flush c = true -> f_raw f' = []).
Proof.
  intros Hs (Hl & He & Hr) Hb. unfold f_capture.
  set (g := if cp_sample c then _ else _).
  assert (Hg : f_length g = f_length f /\
               f_raw g = f_raw f ++ (if cp_sample c then cp_bytes c else []) /\
               0 <= f_elements g <= f_length f /\ zlen (f_raw g) = f_elements g * size /\
               (cp_sample c = false -> f_elements g < f_length f)).
  { unfold g. destruct (cp_sample c); cbn.
    - repeat split; try lia. rewrite zlen_app, Hr, Hb by reflexivity. lia.
    - rewrite app_nil_r. repeat split; lia. }
  destruct Hg as (G1 & G2 & G3 & G4 & G5).
  destruct (f_raw g) as [|z zs] eqn:Eg.
  - assert (f_elements g = 0) by (unfold zlen in G4; cbn in G4; nia).
    repeat split; rewrite ?G1; try lia.
    + rewrite Eg. cbn. lia.
    + rewrite Eg, <- G2. reflexivity.
    + discriminate.
    + auto.
  - destruct (cp_flush c || (f_elements g =? f_length g)) eqn:Ef.
    + repeat split; cbn; rewrite ?G1; try lia.
      * rewrite app_nil_r. symmetry. exact G2.
      * intros x Hx. injection Hx as <-. exists (f_elements g). split; [|exact G4].
        rewrite zlen_cons in G4. pose proof (zlen_nonneg zs). nia.
    + apply Bool.orb_false_iff in Ef as [Ef1 Ef2].
      repeat split; rewrite ?G1; try lia.
      * rewrite Eg. exact G4.
      * rewrite Eg. symmetry. exact G2.
      * discriminate.
      * congruence.
Qed.

Lemma f_run_spec size cs : forall f f' out,
  0 < size -> f_ok size f ->
  Forall (fun c => cp_sample c = true -> zlen (cp_bytes c) = size) cs ->
  f_run f cs = (f', out) ->
  f_ok size f' /\ f_length f' = f_length f /\
  f_raw f ++ List.concat (samples cs) = List.concat out ++ f_raw f' /\
  Forall (fun x => exists n, 0 < n <= f_length f /\ zlen x = n * size) out.
Proof.
  induction cs as [|c cs IH]; intros f f' out Hs Hf Hc E; cbn [f_run] in E.
  - injection E as <- <-. cbn. rewrite app_nil_r. repeat split; auto; apply Hf.
  - inversion Hc as [|? ? Hc1 Hc2]; subst.
    pose proof (f_capture_spec size f c Hs Hf Hc1) as G.
    destruct (f_capture f (cp_bytes c) (cp_sample c) (cp_flush c)) as [f1 o].
    destruct G as (G1 & G2 & G3 & G4 & _).
    destruct (f_run f1 cs) as [f2 out2] eqn:E2.
    destruct (IH f1 f2 out2 Hs G1 Hc2 E2) as (A & B & C & D). injection E as <- <-.
    assert (S : List.concat (samples (c :: cs)) =
                (if cp_sample c then cp_bytes c else []) ++ List.concat (samples cs)).
    { unfold samples. cbn [filter]. destruct (cp_sample c); reflexivity. }
    split; [exact A|]. split; [congruence|]. split.
    + rewrite S, app_assoc, G3, <- app_assoc, C.
      destruct o; cbn [List.concat app]; rewrite <- ?app_assoc; reflexivity.
    + rewrite G2 in D. destruct o as [x|]; [constructor; auto|exact D].
Qed.
