(** C84: recordings of channel changes. *)
From Coq Require Import ZifyBool ZifyNat Lia.
From Verif Require Import Base BaseLemmas PrimModel PrimSpec PrimProofs FifoModel EventModel EventSpec EventProofs
  RecordModel RecordSpec RecordProofs.
Open Scope list_scope.
Open Scope Z_scope.

(** ** Starting succeeds exactly when every selected environment can be exported
    and no channel is selected twice (under two environment names). *)
Theorem C84_start_iff :
  forall nl export_ok st sele selc, idle st -> in_order st ->
    (snd (start nl export_ok st sele selc) <> None <->
     (forall name, In name (dkeys (g_envs st)) -> sele name = true -> export_ok name = true) /\
     NoDup (map snd (recorded sele selc (g_envs st)))).
Proof.
  intros nl ex st sele selc I F. destruct (start_rec nl st F ex sele selc I) as (st' & r & E & Rn & Rs).
  rewrite E. cbn [snd].
  assert (Q : map xc (xs_envs (g_next st) sele selc (g_envs st)) = map snd (recorded sele selc (g_envs st))).
  { rewrite <- (xs_recorded sele selc (g_envs st) (g_next st)), map_map. reflexivity. }
  cbn zeta in Rn, Rs. destruct r as [l|]; split; intros H.
  - destruct (Rs l eq_refl) as (_ & A & R & _). split; [exact A|]. rewrite <- Q. apply (r_nd _ _ _ _ _ _ R).
  - discriminate.
  - congruence.
  - intros _. destruct (Rn eq_refl) as [(n & N1 & N2 & N3)|N]; [|apply N; rewrite Q; apply H].
    rewrite (proj1 H n N1 N2) in N3. discriminate.
Qed.
Print Assumptions C84_start_iff.

(** ** A finished recording: no assignment raised, loading gives the selected
    environments, and reading each gives exactly what it should tell. *)
Theorem C84_recording :
  forall nl export_ok st sele selc st1 found ops st2 raised,
    idle st -> in_order st -> times_ok ops ->
    start nl export_ok st sele selc = (st1, Some found) ->
    assigns nl st1 ops = (st2, raised) ->
    let st3 := stop st2 (g_next st) found false in
    raised = map (fun _ => false) ops /\
    found = map (fun ne => (fst ne, map fst (filter (fun nc => selc (fst nc)) (re_chans (snd ne)))))
              (filter (fun ne => sele (fst ne)) (g_envs st)) /\
    from_root st3 = Some (filter (fun ne => sele (fst ne)) (g_envs st)) /\
    (forall name e, In (name, e) (g_envs st) -> sele name = true ->
       read_stream nl st3 name e = Some (of_env name (told_all st sele selc ops))) /\
    idle st3 /\ in_order st3.
Proof.
  intros nl ex st sele selc st1 found ops st2 raised I F Ht Es Ea st3.
  destruct (start_rec nl st F ex sele selc I) as (st1' & r & E & _ & Rs). rewrite Es in E. injection E as <- <-.
  destruct (Rs found eq_refl) as (Ef & _ & R1 & _ & _ & Se).
  destruct (assigns_rec nl st ops _ _ _ _ _ R1 Ht) as (st2' & evs & V & L & E2 & B1 & B2 & B3 & R2 & T2).
  rewrite Ea in E2. injection E2 as <- ->. split; [reflexivity|]. split; [exact Ef|].
  destruct (stop_rec st F st2 _ _ _ _ found R2) as (Id & Io & Me & Ex & St & En & Da & Cp & Pk).
  fold st3 in Id, Io, Me, Ex, St, En, Da, Cp, Pk. split; [|split; [|split; [exact Id|exact Io]]].
  - unfold from_root. rewrite Me, Ex, B1, Ef. apply load_chosen. intros name e He Hs. apply (Se name e He Hs).
  - intros name e He Hs. destruct (Se name e He Hs) as (_ & h & Hd & Hb). rewrite <- B2 in Hd.
    unfold read_stream, file_of. rewrite St, Hd, Da. f_equal.
    rewrite (read_all nl st F st2 st3 sele selc _ _ _ name e h R2 Cp Pk He Hd Hb). f_equal.
    rewrite as_told_app, as_told_first, T2, xs_recorded. reflexivity.
Qed.
Print Assumptions C84_recording.

(** ** At any moment of a recording, whatever part of a stream has reached the
    file reads as the events it completely contains (a crash loses at most the
    event it cuts). *)
Theorem C84_crash :
  forall nl export_ok st sele selc st1 found ops st2 raised name e,
    idle st -> in_order st -> times_ok ops ->
    start nl export_ok st sele selc = (st1, Some found) ->
    assigns nl st1 ops = (st2, raised) ->
    In (name, e) (g_envs st) -> sele name = true ->
    exists bs, file_of st2 name = Some bs /\
      forall w rest, bs = w ++ rest ->
        read_bytes nl st2 e w = whole (size_of st e) (zlen w) (of_env name (told_all st sele selc ops)).
Proof.
  intros nl ex st sele selc st1 found ops st2 raised name e I F Ht Es Ea He Hs.
  destruct (start_rec nl st F ex sele selc I) as (st1' & r & E & _ & Rs). rewrite Es in E. injection E as <- <-.
  destruct (Rs found eq_refl) as (Ef & _ & R1 & _ & _ & Se).
  destruct (assigns_rec nl st ops _ _ _ _ _ R1 Ht) as (st2' & evs & V & L & E2 & B1 & B2 & B3 & R2 & T2).
  rewrite Ea in E2. injection E2 as <- ->. destruct (Se name e He Hs) as (_ & h & Hd & Hb). rewrite <- B2 in Hd.
  unfold file_of. rewrite Hd. eexists. split; [reflexivity|]. intros w rest Hw.
  assert (Cp : forall c, ch_prim (g_chan st2 c) = prim0 st c) by (intros c; apply (r_chan _ _ _ _ _ _ R2)).
  assert (Pk : forall p, w_kind (p_w (g_prim st2 p)) = type0 st p) by (intros p; apply (r_prim _ _ _ _ _ _ R2)).
  rewrite (read_rec nl st F st2 st2 sele selc _ _ _ name e h w rest R2 Cp Pk He Hd Hb Hw).
  assert (Sz : forall n, size_of st2 e n = size_of st e n).
  { intros n. unfold size_of. destruct (dget n (re_chans e)) as [c|]; [|reflexivity]. rewrite Cp, Pk. reflexivity. }
  rewrite as_told_app, as_told_first, T2, xs_recorded.
  match goal with |- whole _ _ ?l = whole _ _ ?l' => change l' with l; generalize l end.
  intros l. generalize (zlen w). induction l as [|x l IH]; intros n; [reflexivity|]. cbn [whole]. rewrite Sz.
  destruct (_ <=? n); [rewrite IH|]; reflexivity.
Qed.
Print Assumptions C84_crash.

(** ** A body that raises spoils the channels. *)
Lemma poll_streaming nl st c h w st' b : poll_to nl st c h w = (st', b) ->
  (forall x, ev_streaming (ch_ev (g_chan st' x)) = ev_streaming (ch_ev (g_chan st x))) /\ g_envs st' = g_envs st.
Proof.
  unfold poll_to, ev_poll. intros H.
  assert (G : forall e', ev_streaming e' = ev_streaming (ch_ev (g_chan st c)) ->
    forall x, ev_streaming (ch_ev (g_chan (set_ev st c e') x)) = ev_streaming (ch_ev (g_chan st x))).
  { intros e' He x. unfold set_ev, s_chan. cbn [g_chan]. unfold upd. destruct (Nat.eqb_spec x c) as [->|]; [exact He|reflexivity]. }
  destruct (_ || _).
  - destruct (e_header _ _ _) as [hd|]; [|injection H as <- <-; auto].
    destruct (k_encode _ _ _ _) as [v|]; [|injection H as <- <-; auto].
    destruct (hd ++ v) as [|z0 r0] eqn:Eb; [injection H as <- <-; split; [apply G; reflexivity|reflexivity]|].
    destruct (h_open _); injection H as <- <-; split; try reflexivity; apply G; reflexivity.
  - injection H as <- <-. split; [apply G; reflexivity|reflexivity].
Qed.
Lemma enter_streaming nl st c h st' b : enter_event nl st c h = (st', b) ->
  (forall x, ev_streaming (ch_ev (g_chan st x)) = true -> ev_streaming (ch_ev (g_chan st' x)) = true) /\ g_envs st' = g_envs st.
Proof.
  unfold enter_event. destruct (ev_streaming (ch_ev (g_chan st c))) eqn:Es; [intros [= <- <-]; auto|].
  destruct (poll_to _ _ _ _ _) as [st2 b2] eqn:E2. apply poll_streaming in E2 as (P1 & P2).
  assert (G : forall x, ev_streaming (ch_ev (g_chan st x)) = true -> ev_streaming (ch_ev (g_chan st2 x)) = true).
  { intros x Hx. rewrite P1. unfold set_ev, s_chan. cbn [g_chan]. unfold upd.
    destruct (Nat.eqb_spec x c) as [->|]; [congruence|exact Hx]. }
  destruct b2; intros [= <- <-]; [auto|]. split; [|exact P2]. intros x Hx.
  unfold s_entered, set_ev, s_chan, s_prim. cbn [g_chan]. unfold upd. destruct (Nat.eqb_spec x c) as [->|]; [reflexivity|]. auto.
Qed.
Lemma chans_streaming nl h sel l : forall st st' r, enter_chans nl st h sel l = (st', r) ->
  (forall x, ev_streaming (ch_ev (g_chan st x)) = true -> ev_streaming (ch_ev (g_chan st' x)) = true) /\
  ((exists n c, In (n, c) l /\ sel n = true /\ ev_streaming (ch_ev (g_chan st c)) = true) -> r = None).
Proof.
  induction l as [|[n c] l IH]; intros st st' r; cbn [enter_chans].
  - intros [= <- <-]. split; [auto|]. intros (n & c & [] & _).
  - destruct (sel n) eqn:Sn.
    + destruct (enter_event nl st c h) as [st1 b] eqn:E1. pose proof (enter_streaming _ _ _ _ _ _ E1) as (G1 & _).
      destruct b; [intros [= <- <-]; auto|].
      destruct (enter_chans nl st1 h sel l) as [st2 r2] eqn:E2. destruct (IH _ _ _ E2) as (G2 & N2).
      intros H. assert (Es : st' = st2 /\ (r2 = None -> r = None)) by (destruct r2; injection H as <- <-; split; congruence).
      destruct Es as (-> & Er). split; [auto|]. intros (n' & c' & [Q|Hi] & Sn' & St').
      * injection Q as <- <-. unfold enter_event in E1. rewrite St' in E1. discriminate.
      * apply Er, N2. exists n', c'. auto.
    + intros H. destruct (IH _ _ _ H) as (G & N). split; [exact G|]. intros (n' & c' & [Q|Hi] & Sn' & St').
      * injection Q as <- <-. congruence.
      * apply N. exists n', c'. auto.
Qed.
Lemma envs_streaming nl ex sele selc l : forall st st' r, start_envs nl ex st sele selc l = (st', r) ->
  (exists name e n c, In (name, e) l /\ sele name = true /\ In (n, c) (re_chans e) /\ selc n = true /\
     ev_streaming (ch_ev (g_chan st c)) = true) -> r = None.
Proof.
  induction l as [|[name e] l IH]; intros st st' r; cbn [start_envs].
  - intros _ (name & e & n & c & [] & _).
  - destruct (sele name) eqn:Se.
    + destruct (ex name); [|intros [= <- <-]; auto].
      destruct (enter_chans _ _ _ _ _) as [st1 r1] eqn:E1. destruct (chans_streaming _ _ _ _ _ _ _ E1) as (G1 & N1).
      destruct r1 as [ns|]; [|intros [= <- <-]; auto].
      destruct (start_envs nl ex st1 sele selc l) as [st2 r2] eqn:E2.
      intros H (m & em & n & c & [Q|Hi] & Sm & Hc & Sc & St).
      * injection Q as <- <-. discriminate N1. exists n, c. auto.
      * assert (r2 = None) by (eapply IH; [exact E2|]; exists m, em, n, c; auto 10). subst r2. congruence.
    + intros H (m & em & n & c & [Q|Hi] & Sm & Hc & Sc & St); [injection Q as <- <-; congruence|].
      eapply IH; [exact H|]. exists m, em, n, c. auto.
Qed.

Lemma fire_closed nl w : 0 <= w_ts w < 2 ^ 64 -> k_value (w_kind w) (w_val w) -> forall Y st,
  (forall x, In x Y -> h_open (g_handle st (snd x)) = false /\ 0 <= ev_id (ch_ev (g_chan st (fst x))) < 2 ^ 16) ->
  (exists x, In x Y /\ ev_min (ch_ev (g_chan st (fst x))) <= w_ts w - ev_prev (ch_ev (g_chan st (fst x)))) ->
  snd (fire nl st w Y) = true.
Proof.
  intros Ht Hv Y. induction Y as [|[c h] Y IH]; intros st HY (x & Hx & Dx); [destruct Hx|].
  cbn [fire]. destruct (HY (c, h) (or_introl eq_refl)) as (Ho & Hi). cbn [fst snd] in Ho, Hi.
  unfold poll_to. rewrite (poll_emits nl _ w false Hi Ht Hv). cbn [orb].
  destruct (Z.leb_spec (ev_min (ch_ev (g_chan st c))) (w_ts w - ev_prev (ch_ev (g_chan st c)))) as [D|D].
  - destruct (event_bytes_cons (mkSent (ev_id (ch_ev (g_chan st c))) ""%string (w_kind w) (w_ts w) (w_val w))) as (z & r & E).
    rewrite E. cbn [set_ev s_chan g_handle]. rewrite Ho. reflexivity.
  - set (st1 := set_ev st c (ch_ev (g_chan st c))).
    assert (G : forall c', ch_ev (g_chan st1 c') = ch_ev (g_chan st c')).
    { intros c'. subst st1. unfold set_ev, s_chan. cbn [g_chan]. unfold upd. destruct (Nat.eqb_spec c' c) as [->|]; reflexivity. }
    apply IH.
    + intros y Hy. rewrite G. apply (HY y (or_intror Hy)).
    + destruct Hx as [<-|Hx]; [cbn in Dx; lia|]. exists x. rewrite G. auto.
Qed.

(** When the body of the recording raised: no channel of the recording can be
    recorded again, changing its value raises as soon as an event is due, and
    there is no new metadata to load the files with. *)
Theorem C84_exception_refuted :
  forall nl export_ok st sele selc st1 found ops st2 raised name e n c,
    idle st -> in_order st -> times_ok ops ->
    start nl export_ok st sele selc = (st1, Some found) ->
    assigns nl st1 ops = (st2, raised) ->
    In (name, e) (g_envs st) -> sele name = true -> In (n, c) (re_chans e) -> selc n = true ->
    let st3 := stop st2 (g_next st) found true in
    (forall export_ok' sele' selc', sele' name = true -> selc' n = true ->
       snd (start nl export_ok' st3 sele' selc') = None) /\
    (forall v ts, 0 <= ts < 2 ^ 64 -> v <> w_val (p_w (g_prim st3 (ch_prim (g_chan st3 c)))) ->
       ev_min (ch_ev (g_chan st3 c)) <= ts - ev_prev (ch_ev (g_chan st3 c)) ->
       snd (assign nl st3 (ch_prim (g_chan st3 c)) v ts) = true) /\
    g_meta st3 = g_meta st.
Proof.
  intros nl ex st sele selc st1 found ops st2 raised name e n c I F Ht Es Ea He Se Hc Sc st3.
  destruct (start_rec nl st F ex sele selc I) as (st1' & r & E & _ & Rs). rewrite Es in E. injection E as <- <-.
  destruct (Rs found eq_refl) as (Ef & _ & R1 & _ & Me & _).
  destruct (assigns_rec nl st ops _ _ _ _ _ R1 Ht) as (st2' & evs & V & L & E2 & B1 & B2 & B3 & R2 & T2).
  rewrite Ea in E2. injection E2 as <- ->.
  destruct (xs_in sele selc (g_envs st) name e n c He Se Hc Sc (g_next st)) as (h & Hy).
  subst st3. unfold stop. split; [|split].
  - intros ex' se' sc' Hse Hsc. unfold start.
    destruct (start_envs _ _ _ _ _ _) as [s r] eqn:E.
    assert (Er : r = None).
    { eapply envs_streaming; [exact E|]. exists name, e, n, c. cbn [close_from s_handle g_envs g_chan s_entered].
      rewrite (r_envs _ _ _ _ _ _ R2). repeat split; auto.
      rewrite (r_str _ _ _ _ _ _ R2). apply existsb_exists. exists (h, (name, n, c)). split; [exact Hy|].
      apply Nat.eqb_refl. }
    rewrite Er. reflexivity.
  - intros v ts Hts Hv Hd. cbn [close_from s_handle g_prim g_chan] in *. unfold assign.
    cbn [close_from s_handle g_prim g_chan].
    destruct (Z.eqb_spec (w_val (p_w (g_prim st2 (ch_prim (g_chan st2 c))))) v) as [Q|_]; [congruence|].
    rewrite (r_cbs _ _ _ _ _ _ R2).
    set (stc := s_prim _ _). apply fire_closed.
    + exact Hts.
    + apply store_value.
    + intros x Hx. apply in_map_iff in Hx as (y & <- & Hy'). apply filter_In in Hy' as (Hy' & _).
      destruct (r_X _ _ _ _ _ _ R2 y Hy') as (_ & _ & _ & Hb & Hi).
      subst stc. cbn [s_prim close_from s_handle g_handle g_chan cb fst snd].
      destruct (Nat.ltb_spec (xh y) (g_next st)); [lia|]. split; [reflexivity|].
      destruct (r_chan _ _ _ _ _ _ R2 (xc y)) as (_ & -> & _). exact Hi.
    + exists (c, h). split; [|exact Hd]. apply in_map_iff. exists (h, (name, n, c)). split; [reflexivity|].
      apply filter_In. split; [exact Hy|]. cbn [xc snd]. destruct (r_chan _ _ _ _ _ _ R2 c) as (-> & _). apply Nat.eqb_refl.
  - cbn [close_from s_handle g_meta]. congruence.
Qed.
Print Assumptions C84_exception_refuted.

(** ** Only changes of primitives behind recorded channels matter: those of bit
    fields are never recorded. *)
Definition behind (st : gst) (sele selc : string -> bool) (o : op) : bool :=
  existsb (fun w => Nat.eqb (ch_prim (g_chan st (snd w))) (fst (fst o))) (recorded sele selc (g_envs st)).
Lemma due_nothing prim_of least l L p ts : existsb (fun w => Nat.eqb (prim_of (snd w)) p) l = false ->
  due prim_of least l L p ts = [].
Proof.
  induction l as [|w l IH]; [reflexivity|]. cbn [existsb due filter]. intros H. apply orb_false_iff in H as (-> & H).
  cbn [andb]. apply IH, H.
Qed.
Lemma due_ext prim_of least l L L' p ts : (forall c, L c = L' c) -> due prim_of least l L p ts = due prim_of least l L' p ts.
Proof. intros H. unfold due. apply filter_ext. intros w. rewrite H. reflexivity. Qed.
Lemma told_behind prim_of least type_of l ops : forall V V' L L',
  (forall p, existsb (fun w => Nat.eqb (prim_of (snd w)) p) l = true -> V p = V' p) -> (forall c, L c = L' c) ->
  told prim_of least type_of l V L ops =
  told prim_of least type_of l V' L' (filter (fun o => existsb (fun w => Nat.eqb (prim_of (snd w)) (fst (fst o))) l) ops).
Proof.
  induction ops as [|[[p v] ts] ops IH]; intros V V' L L' HV HL; [reflexivity|]. cbn [filter fst].
  destruct (existsb (fun w => Nat.eqb (prim_of (snd w)) p) l) eqn:Ex.
  - cbn [told]. rewrite (HV p Ex). rewrite (due_ext prim_of least l L L' p ts HL).
    assert (HV' : forall x, existsb (fun w => Nat.eqb (prim_of (snd w)) x) l = true ->
      upd V p (k_store (type_of p) v) x = upd V' p (k_store (type_of p) v) x).
    { intros x Hx. unfold upd. destruct (Nat.eqb x p); [reflexivity|apply HV, Hx]. }
    destruct (V' p =? v); [apply IH; assumption|]. f_equal. apply IH; [exact HV'|].
    intros c. rewrite (HL c). reflexivity.
  - cbn [told]. rewrite (due_nothing _ _ _ _ _ _ Ex). cbn [map app existsb].
    assert (HV' : forall x, existsb (fun w => Nat.eqb (prim_of (snd w)) x) l = true -> upd V p (k_store (type_of p) v) x = V' x).
    { intros x Hx. unfold upd. destruct (Nat.eqb_spec x p) as [->|]; [congruence|apply HV, Hx]. }
    destruct (V p =? v); apply IH; assumption.
Qed.
Theorem C84_only_channels :
  forall st sele selc ops, told_all st sele selc ops = told_all st sele selc (filter (behind st sele selc) ops).
Proof.
  intros st sele selc ops. unfold told_all. f_equal.
  exact (told_behind _ _ _ _ ops _ _ _ _ (fun p _ => eq_refl) (fun c => eq_refl)).
Qed.
Print Assumptions C84_only_channels.

(** ** A concrete case: environments a and b, b's channel watching the same
    primitive as a's first with at least 50 ns between events; a bit field f of
    a lives in primitive 2. *)
Definition ex_prim (p : nat) : rprim :=
  match p with
  | 0%nat => mkRprim (mkWatched U8 3 100) []
  | 1%nat => mkRprim (mkWatched U16 300 200) []
  | _ => mkRprim (mkWatched U8 0 0) []
  end.
Definition ex_chan (c : nat) : rchan :=
  match c with
  | 0%nat => mkRchan 0 (mkEvent 1 0 0 false)
  | 1%nat => mkRchan 1 (mkEvent 2 0 0 false)
  | _ => mkRchan 0 (mkEvent 1 0 50 false)
  end.
Definition ex_a : renv := mkRenv [("x"%string, 1); ("y"%string, 2); ("f"%string, 3)] [("f"%string, U8)] [("x"%string, 0%nat); ("y"%string, 1%nat)].
Definition ex_b : renv := mkRenv [("z"%string, 1)] [] [("z"%string, 2%nat)].
Definition ex_st : gst :=
  mkGst ex_prim ex_chan [("a"%string, ex_a); ("b"%string, ex_b)] (fun _ => mkHandle "" [] false) 0 [] [] None [].
Definition all (_ : string) : bool := true.
Definition ex_ops : list op := [(0%nat, 4, 120); (2%nat, 1, 130); (0%nat, 4, 140); (1%nat, 65537, 250); (0%nat, 5, 160)].
Definition ex_run : gst * list bool := assigns true (fst (start true all ex_st all all)) ex_ops.

Example C84_case :
  idle ex_st /\ in_order ex_st /\ times_ok ex_ops /\
  snd (start true all ex_st all all) = Some [("a", ["x"; "y"]); ("b", ["z"])]%string /\
  of_env "a" (told_all ex_st all all ex_ops) =
    [mkParsed "x" 100 3; mkParsed "y" 200 300; mkParsed "x" 120 4; mkParsed "y" 250 1; mkParsed "x" 160 5] /\
  of_env "b" (told_all ex_st all all ex_ops) = [mkParsed "z" 100 3; mkParsed "z" 160 5] /\
  read_stream true (stop (fst ex_run) 0 [("a", ["x"; "y"]); ("b", ["z"])]%string false) "b" ex_b =
    Some [mkParsed "z" 100 3; mkParsed "z" 160 5].
Proof.
  assert (A : idle ex_st) by (split; intros [|[|p]]; reflexivity).
  assert (B : in_order ex_st).
  { split; [|split; [|split]].
    - cbn. repeat constructor; cbn; intuition discriminate.
    - intros name h H. discriminate.
    - intros [|[|p]]; cbn; unfold k_value; cbn; lia.
    - intros name e [H|[H|[]]]; injection H as <- <-.
      + split; [cbn; repeat constructor; cbn; intuition discriminate|].
        split; [cbn; repeat constructor; cbn; intuition discriminate|].
        intros n c [H|[H|[]]]; injection H as <- <-; cbn; repeat split; auto; lia.
      + split; [cbn; repeat constructor; cbn; intuition discriminate|].
        split; [cbn; repeat constructor; cbn; intuition discriminate|].
        intros n c [H|[]]; injection H as <- <-; cbn; repeat split; auto; lia. }
  split; [exact A|]. split; [exact B|]. split.
  - intros p v ts H. cbn in H. repeat (destruct H as [H|H]; [injection H as <- <- <-; lia|]). destruct H.
  - vm_compute. repeat split; reflexivity.
Qed.
Print Assumptions C84_case.

(** ** A change of the bit field alone is not in the recording. *)
Theorem C84_fields_refuted :
  exists st sele selc ops, idle st /\ in_order st /\ times_ok ops /\
    (exists name e f k, In (name, e) (g_envs st) /\ dget f (re_fields e) = Some k /\ sele name = true /\ selc f = true /\
       forall x, In x (told_all st sele selc ops) -> g_name (snd x) <> f) /\
    (exists p v ts, In (p, v, ts) ops /\ v <> w_val (p_w (g_prim st p))).
Proof.
  exists ex_st, all, all, [(2%nat, 1, 130)]. destruct C84_case as (A & B & _).
  split; [exact A|]. split; [exact B|]. split; [intros p v ts [H|[]]; injection H as <- <- <-; lia|]. split.
  - exists "a"%string, ex_a, "f"%string, U8. split; [left; reflexivity|]. do 3 (split; [reflexivity|]).
    vm_compute. intros x H. repeat (destruct H as [<-|H]; [discriminate|]). destruct H.
  - exists 2%nat, 1, 130. split; [left; reflexivity|]. vm_compute. discriminate.
Qed.
Print Assumptions C84_fields_refuted.

(** ** A recording that could not start spoils what it had registered: here b
    cannot be exported, and then a cannot be recorded at all. *)
Theorem C84_failed_start_refuted :
  exists nl export_ok st sele selc, idle st /\ in_order st /\
    snd (start nl export_ok st sele selc) = None /\
    forall export_ok' sele' selc', sele' "a"%string = true -> selc' "x"%string = true ->
      snd (start nl export_ok' (fst (start nl export_ok st sele selc)) sele' selc') = None.
Proof.
  exists true, (fun n => String.eqb n "a"), ex_st, all, all. destruct C84_case as (A & B & _).
  split; [exact A|]. split; [exact B|]. split; [vm_compute; reflexivity|].
  intros ex' se' sc' H1 H2. set (s := fst _). unfold start.
  destruct (start_envs _ _ _ _ _ _) as [s' r] eqn:E.
  assert (Er : r = None).
  { eapply envs_streaming; [exact E|]. exists "a"%string, ex_a, "x"%string, 0%nat.
    split; [left; reflexivity|]. split; [exact H1|]. split; [left; reflexivity|]. split; [exact H2|].
    vm_compute. reflexivity. }
  rewrite Er. reflexivity.
Qed.
Print Assumptions C84_failed_start_refuted.

(** ** The same environment registered under two names cannot be recorded. *)
Theorem C84_two_names_refuted :
  forall nl export_ok st sele selc n1 n2 e n c,
    idle st -> in_order st -> In (n1, e) (g_envs st) -> In (n2, e) (g_envs st) -> n1 <> n2 ->
    sele n1 = true -> sele n2 = true -> In (n, c) (re_chans e) -> selc n = true ->
    snd (start nl export_ok st sele selc) = None.
Proof.
  intros nl ex st sele selc n1 n2 e n c I F H1 H2 Hn S1 S2 Hc Sc.
  destruct (snd (start nl ex st sele selc)) eqn:E; [|reflexivity]. exfalso.
  assert (Q : snd (start nl ex st sele selc) <> None) by congruence.
  apply (C84_start_iff nl ex st sele selc I F) in Q as (_ & ND). clear -ND H1 H2 Hn S1 S2 Hc Sc.
  assert (G : forall m l, In (m, e) l -> sele m = true -> In (m, n, c) (recorded sele selc l)).
  { intros m l Hm Sm. unfold recorded. apply in_flat_map. exists (m, e). split; [exact Hm|]. cbn [fst snd]. rewrite Sm.
    apply in_map_iff. exists (n, c). split; [reflexivity|]. apply filter_In. auto. }
  pose proof (G n1 _ H1 S1) as G1. pose proof (G n2 _ H2 S2) as G2.
  apply in_split in G1 as (a & b & E). rewrite E in ND, G2. rewrite map_app in ND. cbn [map snd] in ND.
  apply NoDup_remove_2 in ND. apply ND. rewrite <- map_app. apply in_map_iff. exists (n2, n, c). split; [reflexivity|].
  apply in_app_or in G2. apply in_or_app. destruct G2 as [G2|[G2|G2]]; [auto| |auto]. congruence.
Qed.
Print Assumptions C84_two_names_refuted.

(** ** Reading a cut stream twice with the same environment gives wrong events
    the second time (the parser keeps what it could not decode). *)
Theorem C84_read_twice_refuted :
  exists nl e st w, 
    let once := x_feed nl (name_of e) (field_of e) (kind_of st e) x_init [w] in
    fst once = [mkParsed "x" 100 3] /\
    fst (x_feed nl (name_of e) (field_of e) (kind_of st e) (snd once) [w]) = [].
Proof.
  exists true, ex_a, ex_st, (firstn 22 (h_data (g_handle (fst (start true all ex_st all all)) 0))).
  vm_compute. split; reflexivity.
Qed.
Print Assumptions C84_read_twice_refuted.
