(** Properties C23 and C24: channel events. *)
From Coq Require Import ZifyBool ZifyNat.
From Verif Require Import Base BaseLemmas PrimModel PrimSpec PrimProofs FifoModel
  EventModel EventSpec EventProofs.

(** Names are never empty (registry/name.py's pattern); what the receiver's
    environment must satisfy. *)
Definition no_empty_name (fields chans : string -> option kind) : Prop :=
  fields "" = None /\ chans "" = None.

(** C23, the writer's side: a poll that emits writes the bytes of the
    specification. *)
Theorem C23_poll_writes_event :
  forall nl e w,
    0 <= ev_id e < 2 ^ 16 -> 0 <= w_ts w < 2 ^ 64 -> k_value (w_kind w) (w_val w) ->
    exists e', ev_poll nl e w true =
      Some (e', event_bytes (mkSent (ev_id e) "" (w_kind w) (w_ts w) (w_val w))).
Proof. intros nl e w Hi Ht Hv. eexists. rewrite poll_emits by assumption. reflexivity. Qed.
Print Assumptions C23_poll_writes_event.

Lemma inside_shift done : forall es n, 0 <= n ->
  inside_value (zlen (event_stream done) + n) (done ++ es) = inside_value n es.
Proof.
  induction done as [|e done IH]; intros es n Hn; [reflexivity|].
  cbn [app inside_value]. unfold event_stream; cbn [map List.concat]; fold (event_stream done).
  rewrite zlen_app, zlen_event. fold (elen e). pose proof (zlen_nonneg (event_stream done)).
  destruct (Z.leb_spec (elen e) (elen e + zlen (event_stream done) + n)); [|lia].
  rewrite <- (IH es n Hn). f_equal. lia.
Qed.

Lemma feed_exact nl names fields chans :
  no_empty_name fields chans ->
  forall chunks es t i0 ts0,
    Forall (agreed names fields chans) es ->
    t ++ List.concat chunks = event_stream es ->
    inside_value (zlen t) es = false ->
    events_in (zlen t) es = [] ->
    (fst (x_feed nl names fields chans (mkParser t false i0 ts0) chunks) = map seen es <->
     forall k, inside_value (zlen t + received k chunks) es = false).
Proof.
  intros [Hf Hc]. induction chunks as [|c cs IH]; intros es t i0 ts0 Ho E Hi He.
  - cbn [List.concat] in E. rewrite app_nil_r in E. cbn [x_feed fst].
    assert (es = []) as ->.
    { destruct es as [|e es]; [reflexivity|]. exfalso. cbn [events_in] in He.
      fold (elen e) in He. subst t. unfold event_stream in He. cbn [map List.concat] in He.
      rewrite zlen_app, zlen_event in He.
      pose proof (zlen_nonneg (List.concat (map event_bytes es))).
      destruct (Z.leb_spec (elen e) (elen e + zlen (List.concat (map event_bytes es)))); [discriminate|lia]. }
    cbn. split; auto.
  - cbn [List.concat] in E. rewrite app_assoc in E. symmetry in E.
    destruct (parse_step nl names fields chans es t i0 ts0 c _ Ho E)
      as (es2 & t' & q & E1 & E2 & E3 & E5 & Ep & Er & Eq & En).
    cbn [x_feed]. rewrite Ep.
    assert (R0 : forall k, received (S k) (c :: cs) = zlen c + received k cs).
    { intros k. unfold received. cbn [firstn List.concat]. apply zlen_app. }
    destruct (x_ready q) eqn:Rq.
    + pose proof (feed_stuck nl names fields chans Hf Hc cs q Rq) as S.
      destruct (x_feed nl names fields chans q cs) as [r s]. cbn [fst] in *. subst r. rewrite app_nil_r.
      split.
      * intros Hm. exfalso. apply (En eq_refl).
        apply (f_equal (@List.length parsed)) in Hm. rewrite !map_length in Hm.
        rewrite E1 in Hm at 2. rewrite app_length in Hm. destruct es2; [reflexivity|cbn in Hm; lia].
      * intros Hk. specialize (Hk 1%nat). rewrite R0 in Hk. unfold received in Hk.
        cbn [firstn List.concat] in Hk. rewrite zlen_app in Er.
        replace (zlen t + (zlen c + zlen (@nil Z))) with (zlen t + zlen c) in Hk by (cbn; lia).
        congruence.
    + specialize (Eq eq_refl).
      assert (Ho2 : Forall (agreed names fields chans) es2).
      { rewrite E1 in Ho. apply Forall_app in Ho. tauto. }
      set (es1 := events_in (zlen (t ++ c)) es) in *. clearbody es1.
      assert (Hn : events_in (zlen t') es2 = []).
      { destruct es2 as [|e es2']; [reflexivity|]. cbn [events_in]. fold (elen e).
        destruct (Z.leb_spec (elen e) (zlen t')); [lia|reflexivity]. }
      assert (Hsh : forall n, 0 <= n -> inside_value (zlen (t ++ c) + n) es =
                                        inside_value (zlen t' + n) es2).
      { intros n Hn0. rewrite E2 at 1. rewrite zlen_app, <- Z.add_assoc. rewrite E1 at 1.
        apply inside_shift. pose proof (zlen_nonneg t'). lia. }
      assert (Hi' : inside_value (zlen t') es2 = false).
      { rewrite <- (Z.add_0_r (zlen t')), <- Hsh, Z.add_0_r by lia. exact Er. }
      assert (Eqs : q = mkParser t' false (x_id q) (x_ts q)).
      { destruct q; cbn in *. subst. reflexivity. }
      specialize (IH es2 t' (x_id q) (x_ts q) Ho2 (eq_sym E3) Hi' Hn). rewrite <- Eqs in IH.
      destruct (x_feed nl names fields chans q cs) as [r s]. cbn [fst] in *.
      assert (Em : map seen es1 ++ r = map seen es <-> r = map seen es2).
      { rewrite E1. rewrite map_app. split; [apply app_inv_head|intros ->; reflexivity]. }
      rewrite Em, IH. split.
      * intros H [|k].
        -- unfold received. cbn [firstn List.concat]. change (zlen (@nil Z)) with 0.
           rewrite Z.add_0_r. exact Hi.
        -- rewrite R0, Z.add_assoc, <- zlen_app. rewrite Hsh by apply zlen_nonneg. apply H.
      * intros H k. specialize (H (S k)). rewrite R0, Z.add_assoc, <- zlen_app in H.
        rewrite Hsh in H by apply zlen_nonneg. exact H.
Qed.

(** C23.  A chunked event stream is decoded to exactly the events sent if, and
    only if, no chunk ends between an event's header and the end of its
    value. *)
Theorem C23_chunked_stream_iff :
  forall nl names fields chans es chunks,
    no_empty_name fields chans ->
    Forall (agreed names fields chans) es ->
    List.concat chunks = event_stream es ->
    (fst (x_feed nl names fields chans x_init chunks) = map seen es <->
     forall k, inside_value (received k chunks) es = false).
Proof.
  intros nl names fields chans es chunks Hn Ho E.
  assert (A : inside_value 0 es = false).
  { destruct es as [|e es]; [reflexivity|]. cbn [inside_value]. fold (elen e).
    pose proof (elen_pos e). destruct (Z.leb_spec (elen e) 0); [lia|reflexivity]. }
  assert (B : events_in 0 es = []).
  { destruct es as [|e es]; [reflexivity|]. cbn [events_in]. fold (elen e).
    pose proof (elen_pos e). destruct (Z.leb_spec (elen e) 0); [lia|reflexivity]. }
  exact (feed_exact nl names fields chans Hn chunks es [] 0 0 Ho E A B).
Qed.
Print Assumptions C23_chunked_stream_iff.

(** C23, whole streams and streams cut at event boundaries or inside headers:
    the part of the property that holds. *)
Theorem C23_whole_stream_partial :
  forall nl names fields chans es,
    no_empty_name fields chans ->
    Forall (agreed names fields chans) es ->
    fst (x_feed nl names fields chans x_init [event_stream es]) = map seen es.
Proof.
  intros nl names fields chans es Hn Ho.
  apply C23_chunked_stream_iff; auto.
  - cbn. apply app_nil_r.
  - intros k. unfold received.
    assert (E : List.concat (firstn k [event_stream es]) = [] \/
                List.concat (firstn k [event_stream es]) = event_stream es).
    { destruct k; [left; reflexivity|right]. cbn [firstn]. rewrite firstn_nil. cbn. apply app_nil_r. }
    destruct E as [->| ->].
    + destruct es as [|e es']; [reflexivity|]. cbn [inside_value]. fold (elen e).
      pose proof (elen_pos e). change (zlen (@nil Z)) with 0.
      destruct (Z.leb_spec (elen e) 0); [lia|reflexivity].
    + pose proof (inside_shift es [] 0 ltac:(lia)) as H. rewrite app_nil_r, Z.add_0_r in H. exact H.
Qed.
Print Assumptions C23_whole_stream_partial.

Definition ex_names (i : Z) : option string :=
  if i =? 1 then Some "a" else if i =? 2 then Some "b" else None.
Definition ex_fields (n : string) : option kind := if eqb n "b" then Some U8 else None.
Definition ex_chans (n : string) : option kind := if eqb n "a" then Some I16 else None.
Definition ex_events : list sent :=
  [mkSent 1 "a" I16 1000 (-2); mkSent 2 "b" U8 1001 7; mkSent 1 "a" I16 1002 5].
Example C23_case : no_empty_name ex_fields ex_chans /\
  Forall (agreed ex_names ex_fields ex_chans) ex_events /\
  (exists c, List.concat c = event_stream ex_events /\ List.length c = 4%nat /\
     forall k, inside_value (received k c) ex_events = false).
Proof.
  split; [split; reflexivity|]. split.
  - repeat constructor; try (left; reflexivity); try (right; split; reflexivity);
      cbn; unfold representable; lia.
  - exists [firstn 5 (event_stream ex_events); firstn 7 (skipn 5 (event_stream ex_events));
            firstn 3 (skipn 12 (event_stream ex_events)); skipn 15 (event_stream ex_events)].
    split; [reflexivity|]. split; [reflexivity|].
    intros k. do 5 (destruct k as [|k]; [reflexivity|]). reflexivity.
Qed.

(** C23 as stated is false: a chunk ending right after a header loses that
    event and every later one. *)
Theorem C23_every_chunking_refuted :
  exists names fields chans es chunks,
    no_empty_name fields chans /\ Forall (agreed names fields chans) es /\
    List.concat chunks = event_stream es /\ es <> [] /\
    fst (x_feed true names fields chans x_init chunks) = [].
Proof.
  exists ex_names, ex_fields, ex_chans, ex_events,
    [firstn 10 (event_stream ex_events); skipn 10 (event_stream ex_events)].
  destruct C23_case as (A & B & _). split; [exact A|]. split; [exact B|].
  split; [reflexivity|]. split; [discriminate|]. reflexivity.
Qed.
Print Assumptions C23_every_chunking_refuted.

(** Once that happened nothing is ever decoded again, whatever arrives. *)
Theorem C23_stuck_forever :
  forall nl names fields chans es c rest more,
    no_empty_name fields chans -> Forall (agreed names fields chans) es ->
    c ++ rest = event_stream es -> inside_value (zlen c) es = true ->
    fst (x_feed nl names fields chans x_init (c :: more)) =
      map seen (events_in (zlen c) es).
Proof.
  intros nl names fields chans es c rest more [Hf Hc] Ho E Hi.
  destruct (parse_step nl names fields chans es [] 0 0 c rest Ho (eq_sym E))
    as (es2 & t' & q & _ & _ & _ & _ & Ep & Er & _). cbn [app] in *.
  cbn [x_feed]. unfold x_init. rewrite Ep. rewrite Er in Hi.
  pose proof (feed_stuck nl names fields chans Hf Hc more q Hi) as S.
  destruct (x_feed nl names fields chans q more) as [r s]. cbn [fst] in *. subst r. apply app_nil_r.
Qed.
Print Assumptions C23_stuck_forever.

(** ** C24 *)

(** The timestamp of the last assignment that wrote something; [t] if none
    did. *)
Fixpoint last_emitted (t : Z) (ops : list (Z * Z)) (written : list (list Z)) : Z :=
  match ops, written with
  | (_, ts) :: ops', bs :: written' =>
      last_emitted (match bs with [] => t | _ => ts end) ops' written'
  | _, _ => t
  end.

(** The value stored after the assignments. *)
Definition stored (k : kind) (v : Z) (ops : list (Z * Z)) : Z :=
  last (map (fun o => k_store k (fst o)) ops) v.

Lemma event_bytes_nonempty e : event_bytes e <> [].
Proof. unfold event_bytes. cbn. discriminate. Qed.

Lemma run_app nl force ops1 : forall e w o ops2 e' w' bss,
  ev_run nl e w force (ops1 ++ o :: ops2) = Some (e', w', bss) ->
  exists e1 w1 bss1 e2 w2 bs bss2,
    ev_run nl e w force ops1 = Some (e1, w1, bss1) /\
    ev_assign nl e1 w1 (fst o) (snd o) force = Some (e2, w2, bs) /\
    ev_run nl e2 w2 force ops2 = Some (e', w', bss2) /\
    bss = bss1 ++ bs :: bss2.
Proof.
  induction ops1 as [|[v ts] ops1 IH]; intros e w [v0 ts0] ops2 e' w' bss; cbn [app ev_run fst snd].
  - destruct (ev_assign nl e w v0 ts0 force) as [[[e2 w2] bs]|] eqn:A; [|discriminate].
    destruct (ev_run nl e2 w2 force ops2) as [[[e3 w3] bss3]|] eqn:R; [|discriminate].
    intros H; injection H as <- <- <-.
    exists e, w, [], e2, w2, bs, bss3. auto.
  - destruct (ev_assign nl e w v ts force) as [[[e2 w2] bs]|] eqn:A; [|discriminate].
    destruct (ev_run nl e2 w2 force (ops1 ++ (v0, ts0) :: ops2)) as [[[e3 w3] bss3]|] eqn:R; [|discriminate].
    intros H; injection H as <- <- <-.
    destruct (IH _ _ _ _ _ _ _ R) as (a & b & c & d & f & g & h & R1 & R2 & R3 & ->).
    cbn [fst snd] in R2. exists a, b, (bs :: c), d, f, g, h. rewrite R1. auto.
Qed.

Lemma assign_spec nl e w v ts force e' w' bs :
  ev_streaming e = true -> 0 <= ev_id e < 2 ^ 16 -> 0 <= ts < 2 ^ 64 ->
  ev_assign nl e w v ts force = Some (e', w', bs) ->
  w' = mkWatched (w_kind w) (k_store (w_kind w) v) ts /\
  ev_id e' = ev_id e /\ ev_min e' = ev_min e /\ ev_streaming e' = true /\
  ((w_val w <> v /\ (force = true \/ ev_min e <= ts - ev_prev e) /\
    bs = event_bytes (mkSent (ev_id e) "" (w_kind w) ts (k_store (w_kind w) v)) /\ ev_prev e' = ts) \/
   ((w_val w = v \/ force = false /\ ts - ev_prev e < ev_min e) /\ bs = [] /\ e' = e)).
Proof.
  intros Hs Hi Ht. unfold ev_assign. rewrite Hs; cbn [andb].
  destruct (Z.eqb_spec (w_val w) v) as [Ev|Ev]; cbn [negb].
  - intros H; injection H as <- <- <-. repeat split; auto. 
  - rewrite poll_emits by (cbn; auto using store_value). cbn [w_ts w_kind w_val].
    destruct force; cbn [orb].
    + intros H; injection H as <- <- <-. cbn. repeat split; auto.
    + destruct (Z.leb_spec (ev_min e) (ts - ev_prev e)) as [L|L];
        intros H; injection H as <- <- <-; cbn; repeat split; auto.
Qed.

Lemma run_inv nl force ops : forall e w e' w' bss,
  ev_streaming e = true -> 0 <= ev_id e < 2 ^ 16 ->
  Forall (fun o => 0 <= snd o < 2 ^ 64) ops ->
  ev_run nl e w force ops = Some (e', w', bss) ->
  ev_streaming e' = true /\ ev_id e' = ev_id e /\ ev_min e' = ev_min e /\
  w_kind w' = w_kind w /\ w_val w' = stored (w_kind w) (w_val w) ops /\
  ev_prev e' = last_emitted (ev_prev e) ops bss /\ List.length bss = List.length ops.
Proof.
  induction ops as [|[v ts] ops IH]; intros e w e' w' bss Hs Hi Hts; cbn [ev_run].
  - intros H; injection H as <- <- <-. auto 10.
  - inversion Hts as [|? ? Ht Hts']; subst. cbn [snd] in Ht.
    destruct (ev_assign nl e w v ts force) as [[[e2 w2] bs]|] eqn:A; [|discriminate].
    destruct (ev_run nl e2 w2 force ops) as [[[e3 w3] bss3]|] eqn:R; [|discriminate].
    intros H; injection H as <- <- <-.
    destruct (assign_spec _ _ _ _ _ _ _ _ _ Hs Hi Ht A) as (-> & I2 & M2 & S2 & Hc).
    rewrite <- I2 in Hi.
    destruct (IH _ _ _ _ _ S2 Hi Hts' R) as (S3 & I3 & M3 & K3 & V3 & P3 & L3).
    cbn [w_kind w_val] in *. repeat split; try congruence.
    + rewrite V3. unfold stored. cbn [map fst]. destruct (map _ ops) eqn:Em; [reflexivity|].
      destruct ops; [discriminate|]. cbn [last]. 
      clear. revert z. induction l as [|a l IH]; intros z; [reflexivity|]. cbn [last] in *. apply IH.
    + rewrite P3. cbn [last_emitted].
      destruct Hc as [(_ & _ & -> & ->)|(_ & -> & ->)]; [|reflexivity].
      destruct (event_bytes _) eqn:Eb; [destruct (event_bytes_nonempty _ Eb)|reflexivity].
    + cbn. f_equal. exact L3.
Qed.

(** C24.  At any point of any history of assignments to a streamed channel: an
    assignment of a different value emits an event exactly when at least
    [min_period] has passed since the last emitted one; the event carries the
    time of the assignment and the value stored by it. *)
Theorem C24_rate_limit :
  forall nl e w ops1 v ts ops2 e' w' written,
    ev_streaming e = true -> 0 <= ev_id e < 2 ^ 16 ->
    Forall (fun o => 0 <= snd o < 2 ^ 64) (ops1 ++ (v, ts) :: ops2) ->
    ev_run nl e w false (ops1 ++ (v, ts) :: ops2) = Some (e', w', written) ->
    let before := firstn (List.length ops1) written in
    let k := w_kind w in
    let changes := v <> stored k (w_val w) ops1 in
    let due := ev_min e <= ts - last_emitted (ev_prev e) ops1 before in
    (changes /\ due ->
       nth (List.length ops1) written [] = event_bytes (mkSent (ev_id e) "" k ts (k_store k v))) /\
    (~ (changes /\ due) -> nth (List.length ops1) written [] = []).
Proof.
  intros nl e w ops1 v ts ops2 e' w' written Hs Hi Hts R.
  destruct (run_app _ _ _ _ _ _ _ _ _ _ R) as (e1 & w1 & b1 & e2 & w2 & bs & b2 & R1 & A & R2 & ->).
  apply Forall_app in Hts as [Ht1 Ht2]. inversion Ht2 as [|? ? Ht _]; subst. cbn [fst snd] in *.
  destruct (run_inv _ _ _ _ _ _ _ _ Hs Hi Ht1 R1) as (S1 & I1 & M1 & K1 & V1 & P1 & L1).
  rewrite <- I1 in Hi.
  destruct (assign_spec _ _ _ _ _ _ _ _ _ S1 Hi Ht A) as (_ & _ & _ & _ & Hc).
  assert (Ef : firstn (List.length ops1) (b1 ++ bs :: b2) = b1).
  { rewrite <- L1, firstn_app, Nat.sub_diag, firstn_all. cbn. apply app_nil_r. }
  assert (En : nth (List.length ops1) (b1 ++ bs :: b2) [] = bs).
  { rewrite <- L1, app_nth2, Nat.sub_diag by lia. reflexivity. }
  rewrite Ef, En. rewrite V1, K1, M1, P1, I1 in Hc. cbn zeta.
  destruct Hc as [(C1 & [C2|C2] & -> & _)|(C & -> & _)]; try discriminate.
  - split; [reflexivity|]. intros N. destruct N. split; auto.
  - split; [|reflexivity]. intros [N1 N2]. destruct C as [C|[_ C]]; [congruence|lia].
Qed.
Print Assumptions C24_rate_limit.

(** In particular two emitted events are at least [min_period] apart. *)
Fixpoint emitted (ops : list (Z * Z)) (written : list (list Z)) : list Z :=
  match ops, written with
  | (_, ts) :: ops', bs :: written' =>
      match bs with [] => [] | _ => [ts] end ++ emitted ops' written'
  | _, _ => []
  end.
Fixpoint spaced (min prev : Z) (l : list Z) : Prop :=
  match l with [] => True | t :: l' => min <= t - prev /\ spaced min t l' end.
Theorem C24_events_spaced :
  forall nl e w ops e' w' written,
    ev_streaming e = true -> 0 <= ev_id e < 2 ^ 16 ->
    Forall (fun o => 0 <= snd o < 2 ^ 64) ops ->
    ev_run nl e w false ops = Some (e', w', written) ->
    spaced (ev_min e) (ev_prev e) (emitted ops written).
Proof.
  intros nl e w ops. revert e w.
  induction ops as [|[v ts] ops IH]; intros e w e' w' written Hs Hi Hts; cbn [ev_run].
  - intros H; injection H as <- <- <-. exact I.
  - inversion Hts as [|? ? Ht Hts']; subst. cbn [snd] in Ht.
    destruct (ev_assign nl e w v ts false) as [[[e2 w2] bs]|] eqn:A; [|discriminate].
    destruct (ev_run nl e2 w2 false ops) as [[[e3 w3] bss3]|] eqn:R; [|discriminate].
    intros H; injection H as <- <- <-.
    destruct (assign_spec _ _ _ _ _ _ _ _ _ Hs Hi Ht A) as (-> & I2 & M2 & S2 & Hc).
    rewrite <- I2 in Hi.
    specialize (IH _ _ _ _ _ S2 Hi Hts' R). rewrite M2 in IH. cbn [emitted].
    destruct Hc as [(_ & [C|C] & -> & P2)|(_ & -> & ->)]; [discriminate| |exact IH].
    rewrite P2 in IH.
    destruct (event_bytes _) eqn:Eb; [destruct (event_bytes_nonempty _ Eb)|].
    cbn [app spaced]. auto.
Qed.
Print Assumptions C24_events_spaced.

(** Nothing can raise on such a history (so the theorems above apply to all of
    them). *)
Theorem C24_run_total :
  forall nl e w force ops,
    ev_streaming e = true -> 0 <= ev_id e < 2 ^ 16 ->
    Forall (fun o => 0 <= snd o < 2 ^ 64) ops ->
    exists r, ev_run nl e w force ops = Some r.
Proof.
  intros nl e w force ops. revert e w.
  induction ops as [|[v ts] ops IH]; intros e w Hs Hi Hts; cbn [ev_run]; [eauto|].
  inversion Hts as [|? ? Ht Hts']; subst. cbn [snd] in Ht.
  assert (A : exists x, ev_assign nl e w v ts force = Some x).
  { unfold ev_assign. destruct (_ && _); [|eauto].
    rewrite poll_emits by (cbn; auto using store_value). destruct (_ || _); eauto. }
  destruct A as [[[e2 w2] bs] A]. rewrite A.
  destruct (assign_spec _ _ _ _ _ _ _ _ _ Hs Hi Ht A) as (_ & I2 & _ & S2 & _).
  rewrite <- I2 in Hi. destruct (IH e2 w2 S2 Hi Hts') as [[[e3 w3] b3] R]. rewrite R. eauto.
Qed.
Print Assumptions C24_run_total.

(** Entering the context emits the current value at once (when the timestamp is
    at least one period after the epoch) and starts the rate limit there. *)
Theorem C24_initial_event :
  forall nl e w,
    ev_streaming e = false -> 0 <= ev_id e < 2 ^ 16 ->
    0 <= w_ts w < 2 ^ 64 -> k_value (w_kind w) (w_val w) -> ev_min e <= w_ts w ->
    exists e', ev_enter nl e w =
        Some (e', event_bytes (mkSent (ev_id e) "" (w_kind w) (w_ts w) (w_val w))) /\
      ev_prev e' = w_ts w /\ ev_streaming e' = true /\ ev_min e' = ev_min e /\ ev_id e' = ev_id e.
Proof.
  intros nl e w Hs Hi Ht Hv Hm. unfold ev_enter. rewrite Hs.
  rewrite poll_emits by assumption. cbn [orb ev_min ev_prev ev_id].
  destruct (Z.leb_spec (ev_min e) (w_ts w - 0)); [|lia].
  eexists. split; [reflexivity|]. cbn. auto.
Qed.
Print Assumptions C24_initial_event.

Example C24_case :
  option_map snd (ev_run true (mkEvent 3 100 10 true) (mkWatched U8 5 100) false
    [(6, 105); (7, 110); (7, 200); (263, 201); (8, 208); (9, 215)]) =
  Some [[]; event_bytes (mkSent 3 "x" U8 110 7); []; event_bytes (mkSent 3 "x" U8 201 7);
        []; event_bytes (mkSent 3 "x" U8 215 9)].
Proof. reflexivity. Qed.

(** C24.  Entering while the event is already registered raises; entering
    before the minimum period registers without writing anything. *)
Theorem C24_enter :
  forall nl e w,
    (ev_streaming e = true -> ev_enter nl e w = None) /\
    (ev_streaming e = false -> w_ts w < ev_min e ->
     exists e', ev_enter nl e w = Some (e', []) /\ ev_streaming e' = true /\
       ev_id e' = ev_id e /\ ev_min e' = ev_min e).
Proof.
  intros nl e w. unfold ev_enter. split; intros H; rewrite H; [reflexivity|].
  intros L. unfold ev_poll. cbn [ev_min ev_prev orb].
  destruct (Z.leb_spec (ev_min e) (w_ts w - 0)); [lia|].
  eexists. split; [reflexivity|]. auto.
Qed.
Print Assumptions C24_enter.

(** C23.  An event can be made exactly for identifiers of sixteen bits; it is
    then not registered and not rate limited. *)
Theorem C23_new :
  forall i,
    (0 <= i < 65536 -> exists e, ev_new i = Some e /\ ev_id e = i /\
       ev_streaming e = false /\ ev_min e = 0) /\
    (~ 0 <= i < 65536 -> ev_new i = None).
Proof.
  intros i. unfold ev_new, b_validate, bounds_create. cbn [fst snd].
  change (2 ^ (8 * 2) - 1) with 65535. split; intros H.
  - destruct ((0 <=? i) && (i <=? 65535)) eqn:E; [|lia]. eexists. split; [reflexivity|]. auto.
  - destruct ((0 <=? i) && (i <=? 65535)) eqn:E; [lia|reflexivity].
Qed.
Print Assumptions C23_new.
Example new_demo : ev_new 65535 <> None /\ ev_new 65536 = None /\ ev_new (-1) = None.
Proof. repeat split. discriminate. Qed.

(** C23.  An event whose identifier the receiver does not know: the events
    before it are decoded, the call raises, and the bytes after the header -
    the unknown event's value first - stay buffered to be taken as the next
    header. *)
Theorem C23_unknown_identifier :
  forall nl names fields chans es i ts rest,
    Forall (agreed names fields chans) es ->
    0 <= i < 2 ^ 16 -> 0 <= ts < 2 ^ 64 -> names i = None ->
    exists q,
      x_parse nl names fields chans x_init
        (event_stream es ++ big_endian 2 i ++ big_endian 8 ts ++ rest) = (map seen es, q, true) /\
      x_fifo q = rest /\ x_ready q = false.
Proof.
  intros nl names fields chans es i ts rest Ho Hi Ht Hn.
  unfold x_parse, x_init. cbn [x_fifo x_ready x_id x_ts app].
  set (t := big_endian 2 i ++ big_endian 8 ts ++ rest).
  pose proof (stream_length names fields chans es Ho) as L.
  destruct (run_complete nl names fields chans es (List.length (event_stream es ++ t) + 2) 0 0 "" t Ho)
    as (i1 & t1 & nm & R); [rewrite app_length; lia|].
  rewrite R. set (fuel := (_ - _)%nat).
  assert (Hf : (1 <= fuel)%nat) by (unfold fuel; rewrite app_length; lia).
  destruct fuel as [|fuel]; [lia|]. cbn [x_loop x_ready negb x_fifo]. unfold t.
  rewrite (app_assoc (big_endian 2 i)).
  rewrite MessageProofs.pop_exact by (rewrite zlen_app, !zlen_big_endian; reflexivity).
  change (k_size U16) with 2%nat.
  change (firstn 2 (big_endian 2 i ++ big_endian 8 ts)) with (big_endian 2 i).
  change (skipn 2 (big_endian 2 i ++ big_endian 8 ts)) with (big_endian 8 ts).
  pose proof (decode_network nl U16 i Hi) as D1. pose proof (decode_network nl U64 ts Ht) as D2.
  cbn [wire_size] in D1, D2. rewrite D1, D2, Hn. rewrite app_nil_r.
  eexists. split; [reflexivity|]. auto.
Qed.
Print Assumptions C23_unknown_identifier.

(** C23.  So one unknown event can make later ones unreadable: here a known
    event follows an unknown one and is never decoded, although it arrives
    whole and in a call of its own. *)
Theorem C23_after_unknown_refuted :
  exists names fields chans u e,
    no_empty_name fields chans /\ agreed names fields chans e /\ names (s_id u) = None /\
    fst (x_feed true names fields chans x_init [event_bytes u; event_bytes e]) = [].
Proof.
  exists ex_names, ex_fields, ex_chans, (mkSent 9 "u" U8 1 0), (mkSent 1 "a" I16 1000 (-2)).
  split; [split; reflexivity|]. split.
  - repeat split; try (right; split; reflexivity); cbn; unfold representable; lia.
  - split; [reflexivity|]. vm_compute. reflexivity.
Qed.
Print Assumptions C23_after_unknown_refuted.
