(** Proofs for C84. *)
From Coq Require Import ZifyBool ZifyNat Lia.
From Verif Require Import Base BaseLemmas PrimModel PrimSpec PrimProofs FifoModel EventModel EventSpec EventProofs
  RecordModel RecordSpec.
Open Scope list_scope.
Open Scope Z_scope.

Lemma upd_eq {A} (f : nat -> A) n a : upd f n a n = a.
Proof. unfold upd. rewrite Nat.eqb_refl. reflexivity. Qed.
Lemma upd_ne {A} (f : nat -> A) n m a : m <> n -> upd f n a m = f m.
Proof. intros H. unfold upd. destruct (Nat.eqb_spec m n); [congruence|reflexivity]. Qed.

(** A recorded channel with its file. *)
Definition xw := (nat * who)%type.
Definition xh (y : xw) : nat := fst y.
Definition xc (y : xw) : nat := snd (snd y).
Definition xe (y : xw) : string := fst (fst (snd y)).
Definition xn (y : xw) : string := snd (fst (snd y)).
Definition cb (y : xw) : nat * nat := (xc y, xh y).

Section Proofs.
  Context (nl : bool).
  Local Notation id_ st c := (ev_id (ch_ev (g_chan st c))).
  Local Notation prev_ st c := (ev_prev (ch_ev (g_chan st c))).
  Local Notation min_ st c := (ev_min (ch_ev (g_chan st c))).
  Local Notation str_ st c := (ev_streaming (ch_ev (g_chan st c))).

  (** Everything but events and file contents is unchanged. *)
  Definition kept (st st' : gst) : Prop :=
    g_prim st' = g_prim st /\ g_envs st' = g_envs st /\ g_next st' = g_next st /\ g_exports st' = g_exports st /\
    g_streams st' = g_streams st /\ g_meta st' = g_meta st /\ g_entered st' = g_entered st.
  Lemma kept_refl st : kept st st.
  Proof. repeat split. Qed.
  Lemma kept_trans a b c : kept a b -> kept b c -> kept a c.
  Proof.
    intros (A1 & A2 & A3 & A4 & A5 & A6 & A7) (B1 & B2 & B3 & B4 & B5 & B6 & B7).
    repeat split; congruence.
  Qed.

  Definition tell_of (st : gst) (w : watched) (y : xw) : sent :=
    mkSent (id_ st (xc y)) (xn y) (w_kind w) (w_ts w) (w_val w).
  Lemma event_bytes_name i n n' k t v : event_bytes (mkSent i n k t v) = event_bytes (mkSent i n' k t v).
  Proof. reflexivity. Qed.
  Lemma event_bytes_cons e : exists x r, event_bytes e = x :: r.
  Proof. unfold event_bytes. cbn [big_endian app]. eauto. Qed.

  Lemma poll_ok st c h n w :
    h_open (g_handle st h) = true -> 0 <= id_ st c < 2 ^ 16 -> 0 <= w_ts w < 2 ^ 64 -> k_value (w_kind w) (w_val w) ->
    let d := min_ st c <=? w_ts w - prev_ st c in
    exists st', poll_to nl st c h w = (st', false) /\ kept st st' /\
      (forall c', g_chan st' c' =
         if Nat.eqb c' c
         then mkRchan (ch_prim (g_chan st c)) (mkEvent (id_ st c) (if d then w_ts w else prev_ st c) (min_ st c) (str_ st c))
         else g_chan st c') /\
      (forall h', g_handle st' h' =
         if Nat.eqb h' h
         then mkHandle (h_name (g_handle st h))
                (h_data (g_handle st h) ++ (if d then event_bytes (mkSent (id_ st c) n (w_kind w) (w_ts w) (w_val w)) else []))
                true
         else g_handle st h').
  Proof.
    intros Ho Hi Ht Hv d. unfold poll_to. rewrite (poll_emits nl _ w false Hi Ht Hv). cbn [orb].
    fold d. destruct d eqn:D.
    - destruct (event_bytes_cons (mkSent (id_ st c) ""%string (w_kind w) (w_ts w) (w_val w))) as (x & r & E).
      rewrite E. cbn [set_ev s_chan g_handle]. rewrite Ho. eexists. split; [reflexivity|]. split; [repeat split|].
      split.
      + intros c'. unfold set_ev, s_handle, s_chan; cbn [g_chan]. unfold upd. destruct (Nat.eqb c' c); reflexivity.
      + intros h'. cbn [g_handle s_handle]. unfold upd.
        rewrite (event_bytes_name _ n ""%string), E. destruct (Nat.eqb h' h); reflexivity.
    - eexists. split; [reflexivity|]. split; [repeat split|]. split.
      + intros c'. unfold set_ev, s_chan; cbn [g_chan]. unfold upd. destruct (Nat.eqb c' c); [|reflexivity].
        destruct (ch_ev (g_chan st c)); reflexivity.
      + intros h'. cbn [g_handle set_ev s_chan]. destruct (Nat.eqb_spec h' h) as [->|]; [|reflexivity].
        rewrite app_nil_r. destruct (g_handle st h); cbn in *. rewrite Ho. reflexivity.
  Qed.

  Definition is_due (st : gst) (t : Z) (y : xw) : bool := min_ st (xc y) <=? t - prev_ st (xc y).
  Lemma fire_ok w : 0 <= w_ts w < 2 ^ 64 -> k_value (w_kind w) (w_val w) -> forall Y st,
    NoDup (map xc Y) ->
    (forall y, In y Y -> h_open (g_handle st (xh y)) = true /\ 0 <= id_ st (xc y) < 2 ^ 16) ->
    let D := filter (is_due st (w_ts w)) Y in
    exists st', fire nl st w (map cb Y) = (st', false) /\ kept st st' /\
      (forall c, g_chan st' c =
         mkRchan (ch_prim (g_chan st c))
           (mkEvent (id_ st c) (if existsb (fun y => Nat.eqb (xc y) c) D then w_ts w else prev_ st c) (min_ st c) (str_ st c))) /\
      (forall h, g_handle st' h =
         mkHandle (h_name (g_handle st h))
           (h_data (g_handle st h) ++ event_stream (map (tell_of st w) (filter (fun y => Nat.eqb (xh y) h) D)))
           (h_open (g_handle st h))).
  Proof.
    intros Ht Hv Y. induction Y as [|y Y IH]; intros st ND HY D.
    - exists st. split; [reflexivity|]. split; [apply kept_refl|]. split.
      + intros c. cbn. destruct (g_chan st c) as [p e]; destruct e; reflexivity.
      + intros h. cbn. rewrite app_nil_r. destruct (g_handle st h); reflexivity.
    - inversion ND as [|? ? Hn ND']; subst.
      destruct (HY y (or_introl eq_refl)) as (Ho & Hi).
      destruct (poll_ok st (xc y) (xh y) (xn y) w Ho Hi Ht Hv) as (st1 & E1 & K1 & C1 & H1).
      assert (G : forall c, c <> xc y -> g_chan st1 c = g_chan st c).
      { intros c Hc. rewrite C1. destruct (Nat.eqb_spec c (xc y)); [congruence|reflexivity]. }
      destruct (IH st1 ND') as (st2 & E2 & K2 & C2 & H2).
      { intros z Hz. destruct (HY z (or_intror Hz)) as (Hoz & Hiz). split.
        - rewrite H1. destruct (Nat.eqb (xh z) (xh y)); [reflexivity|exact Hoz].
        - rewrite G; [exact Hiz|]. intros Q. apply Hn. rewrite <- Q. apply in_map. exact Hz. }
      assert (F : filter (is_due st1 (w_ts w)) Y = filter (is_due st (w_ts w)) Y).
      { apply filter_ext_in. intros z Hz. unfold is_due. rewrite G; [reflexivity|].
        intros Q. apply Hn. rewrite <- Q. apply in_map. exact Hz. }
      cbn zeta in C2, H2. rewrite F in C2, H2.
      assert (NI : existsb (fun z => Nat.eqb (xc z) (xc y)) (filter (is_due st (w_ts w)) Y) = false).
      { destruct (existsb _ _) eqn:E; [|reflexivity]. apply existsb_exists in E as (z & Hz & Q).
        apply filter_In in Hz as (Hz & _). apply Nat.eqb_eq in Q. exfalso. apply Hn. rewrite <- Q.
        apply in_map. exact Hz. }
      exists st2. cbn [map fire]. unfold cb at 1. rewrite E1, E2. split; [reflexivity|].
      split; [eapply kept_trans; eauto|]. subst D. cbn [filter]. split.
      + intros c. rewrite C2, C1. unfold is_due at 2. destruct (Nat.eqb_spec c (xc y)) as [->|Hc].
        * cbn [ch_prim ch_ev ev_id ev_min ev_prev ev_streaming]. rewrite NI.
          destruct (min_ st (xc y) <=? w_ts w - prev_ st (xc y)); [cbn [existsb]; rewrite Nat.eqb_refl; reflexivity|].
          rewrite NI. reflexivity.
        * destruct (min_ st (xc y) <=? w_ts w - prev_ st (xc y)); [cbn [existsb]|reflexivity].
          destruct (Nat.eqb_spec (xc y) c); [congruence|]. reflexivity.
      + intros h. rewrite H2, H1.
        assert (TE : map (tell_of st1 w) (filter (fun z => Nat.eqb (xh z) h) (filter (is_due st (w_ts w)) Y)) =
                     map (tell_of st w) (filter (fun z => Nat.eqb (xh z) h) (filter (is_due st (w_ts w)) Y))).
        { apply map_ext_in. intros z Hz. apply filter_In in Hz as (Hz & _). apply filter_In in Hz as (Hz & _).
          unfold tell_of. rewrite G; [reflexivity|]. intros Q. apply Hn. rewrite <- Q. apply in_map. exact Hz. }
        rewrite TE. unfold is_due at 2. destruct (Nat.eqb_spec h (xh y)) as [->|Hh].
        * cbn [h_name h_data h_open]. rewrite <- app_assoc. rewrite Ho. f_equal. f_equal.
          destruct (min_ st (xc y) <=? w_ts w - prev_ st (xc y)); [|reflexivity].
          cbn [filter]. rewrite Nat.eqb_refl. cbn [map event_stream List.concat]. reflexivity.
        * destruct (min_ st (xc y) <=? w_ts w - prev_ st (xc y)); [cbn [filter]|reflexivity].
          destruct (Nat.eqb_spec (xh y) h); [congruence|]. reflexivity.
  Qed.

  (** *** The invariant of a recording that began in [st0]. *)
  Context (st0 : gst).
  Local Notation base := (g_next st0).
  Definition prim0 (c : nat) : nat := ch_prim (g_chan st0 c).
  Definition least0 (c : nat) : Z := min_ st0 c.
  Definition type0 (p : nat) : kind := w_kind (p_w (g_prim st0 p)).

  Record Rec (st : gst) (X : list xw) (evs : list (nat * (string * sent))) (V L : nat -> Z) : Prop := mkRec {
    r_envs : g_envs st = g_envs st0;
    r_next : (base <= g_next st)%nat;
    r_chan : forall c, ch_prim (g_chan st c) = prim0 c /\ id_ st c = id_ st0 c /\ min_ st c = least0 c;
    r_prim : forall p, w_kind (p_w (g_prim st p)) = type0 p /\ w_val (p_w (g_prim st p)) = V p /\ k_value (type0 p) (V p) /\
      0 <= w_ts (p_w (g_prim st p)) < 2 ^ 64;
    r_cbs : forall p, p_cbs (g_prim st p) = map cb (filter (fun y => Nat.eqb (prim0 (xc y)) p) X);
    r_str : forall c, str_ st c = existsb (fun y => Nat.eqb (xc y) c) X;
    r_nd : NoDup (map xc X);
    r_ent : g_entered st = map cb X;
    r_X : forall y, In y X ->
      prev_ st (xc y) = L (xc y) /\ h_open (g_handle st (xh y)) = true /\
      dget (xe y) (g_streams st) = Some (xh y) /\ (base <= xh y)%nat /\ 0 <= id_ st0 (xc y) < 2 ^ 16;
    r_name : forall e h, dget e (g_streams st) = Some h -> (h < g_next st)%nat /\ ((base <= h)%nat -> h_name (g_handle st h) = e);
    r_data : forall e h, dget e (g_streams st) = Some h -> (base <= h)%nat ->
      h_data (g_handle st h) = event_stream (map (fun x => snd (snd x)) (filter (fun x => Nat.eqb (fst x) h) evs));
    r_evs : forall x, In x evs -> exists y, In y X /\ fst x = xh y /\ fst (snd x) = xe y /\
      s_id (snd (snd x)) = id_ st0 (xc y) /\ s_name (snd (snd x)) = xn y /\ s_kind (snd (snd x)) = type0 (prim0 (xc y)) /\
      0 <= s_ts (snd (snd x)) < 2 ^ 64 /\ k_value (s_kind (snd (snd x))) (s_val (snd (snd x)))
  }.

  Definition as_told (evs : list (nat * (string * sent))) : list (string * parsed) :=
    map (fun x => (fst (snd x), seen (snd (snd x)))) evs.

  Definition mk_evs (k : kind) (t v : Z) (Y : list xw) : list (nat * (string * sent)) :=
    map (fun y => (xh y, (xe y, mkSent (id_ st0 (xc y)) (xn y) k t v))) Y.

  Lemma filter_mk_evs k t v h Y :
    map (fun x => snd (snd x)) (filter (fun x => Nat.eqb (fst x) h) (mk_evs k t v Y)) =
    map (fun y => mkSent (id_ st0 (xc y)) (xn y) k t v) (filter (fun y => Nat.eqb (xh y) h) Y).
  Proof.
    induction Y as [|y Y IH]; [reflexivity|]. cbn [mk_evs map filter fst]. fold (mk_evs k t v Y).
    destruct (Nat.eqb (xh y) h); [cbn [map snd]; f_equal; exact IH|exact IH].
  Qed.
  Lemma existsb_filter {A} (f g : A -> bool) l : existsb f (filter g l) = existsb (fun x => g x && f x) l.
  Proof. induction l as [|a l IH]; [reflexivity|]. cbn. destruct (g a); cbn; rewrite IH; reflexivity. Qed.
  Lemma filter_filter {A} (f g : A -> bool) l : filter f (filter g l) = filter (fun x => g x && f x) l.
  Proof. induction l as [|a l IH]; [reflexivity|]. cbn. destruct (g a); cbn; [destruct (f a)|]; rewrite IH; reflexivity. Qed.
  Lemma stream_app a b : event_stream (a ++ b) = event_stream a ++ event_stream b.
  Proof. unfold event_stream. rewrite map_app, concat_app. reflexivity. Qed.
  Lemma NoDup_map_filter {A B} (f : A -> B) (g : A -> bool) l : NoDup (map f l) -> NoDup (map f (filter g l)).
  Proof.
    induction l as [|a l IH]; [auto|]. cbn. intros H. inversion H as [|? ? Hn H']; subst. destruct (g a); [|auto].
    cbn. constructor; [|auto]. intros Q. apply Hn. apply in_map_iff in Q as (z & E & Hz).
    apply filter_In in Hz as (Hz & _). rewrite <- E. apply in_map. exact Hz.
  Qed.

  Definition new_due (X : list xw) (L : nat -> Z) (p : nat) (ts : Z) : list xw :=
    filter (fun y => Nat.eqb (prim0 (xc y)) p && (least0 (xc y) <=? ts - L (xc y))) X.
  Lemma due_new X L p ts : due prim0 least0 (map snd X) L p ts = map snd (new_due X L p ts).
  Proof.
    unfold due, new_due. induction X as [|y X IH]; [reflexivity|]. cbn [map filter]. unfold xc at 1 2 3.
    destruct (_ && _); cbn [map]; rewrite IH; reflexivity.
  Qed.

  Lemma assign_rec st X evs V L p v ts : Rec st X evs V L -> 0 <= ts < 2 ^ 64 ->
    let v' := k_store (type0 p) v in
    let D := new_due X L p ts in
    exists st', assign nl st p v ts = (st', false) /\
      g_exports st' = g_exports st /\ g_streams st' = g_streams st /\ g_meta st' = g_meta st /\
      Rec st' X (if V p =? v then evs else evs ++ mk_evs (type0 p) ts v' D) (upd V p v')
        (if V p =? v then L else fun c => if existsb (fun w => Nat.eqb (snd w) c) (map snd D) then ts else L c).
  Proof.
    intros R Ht v' D. destruct (r_prim _ _ _ _ _ R p) as (Pk & Pv & Pr & _).
    set (w := mkWatched (type0 p) v' ts).
    set (sp := s_prim st (upd (g_prim st) p (mkRprim w (p_cbs (g_prim st p))))).
    assert (Vv : k_value (type0 p) v') by (apply store_value).
    assert (Rp : Rec sp X evs (upd V p v') L).
    { destruct R. constructor; try assumption.
      - intros q. subst sp. cbn [s_prim g_prim]. unfold upd. destruct (Nat.eqb_spec q p) as [->|]; [|apply r_prim0].
        cbn. auto.
      - intros q. subst sp. cbn [s_prim g_prim]. unfold upd. destruct (Nat.eqb_spec q p) as [->|]; apply r_cbs0. }
    unfold assign. rewrite Pk, Pv. fold v' w sp. destruct (V p =? v) eqn:Ev.
    - exists sp. do 4 (split; [reflexivity|]). exact Rp.
    - rewrite (r_cbs _ _ _ _ _ R p).
      set (Y := filter (fun y => Nat.eqb (prim0 (xc y)) p) X).
      assert (HY : forall y, In y Y -> In y X) by (intros y Hy; apply filter_In in Hy; tauto).
      destruct (fire_ok w Ht Vv Y sp) as (st' & Ef & K & C & H).
      { apply NoDup_map_filter, (r_nd _ _ _ _ _ R). }
      { intros y Hy. destruct (r_X _ _ _ _ _ Rp y (HY y Hy)) as (_ & Ho & _ & _ & Hi). split; [exact Ho|].
        destruct (r_chan _ _ _ _ _ Rp (xc y)) as (_ & -> & _). exact Hi. }
      assert (ED : filter (is_due sp (w_ts w)) Y = D).
      { subst Y D. unfold new_due. rewrite filter_filter. apply filter_ext_in. intros y Hy.
        unfold is_due. destruct (r_chan _ _ _ _ _ Rp (xc y)) as (_ & _ & ->).
        destruct (r_X _ _ _ _ _ Rp y Hy) as (-> & _). reflexivity. }
      cbn zeta in C, H. rewrite ED in C, H. destruct K as (K1 & K2 & K3 & K4 & K5 & K6 & K7).
      exists st'. split; [exact Ef|]. do 3 (split; [assumption|]).
      assert (EXD : forall c, existsb (fun w => Nat.eqb (snd w) c) (map snd D) = existsb (fun y => Nat.eqb (xc y) c) D).
      { intros c. clear. induction D as [|y D' IH']; [reflexivity|]. cbn [map existsb]. rewrite IH'. reflexivity. }
      destruct Rp. constructor; rewrite ?K2, ?K3, ?K5; try assumption.
      + intros c. rewrite C. cbn. apply r_chan0.
      + intros q. rewrite K1. apply r_prim0.
      + intros q. rewrite K1. apply r_cbs0.
      + intros c. rewrite C. cbn [ch_ev ev_streaming]. apply r_str0.
      + rewrite K7. exact r_ent0.
      + intros y Hy. destruct (r_X0 y Hy) as (A1 & A2 & A3 & A4 & A5). rewrite C, H. cbn [ch_ev ev_prev h_open].
        rewrite EXD. repeat split; try assumption; try apply A5. destruct (existsb _ _); [reflexivity|exact A1].
      + intros e h He. destruct (r_name0 e h He) as (A1 & A2). split; [exact A1|]. intros Hb. rewrite H. cbn [h_name]. auto.
      + intros e h He Hb. rewrite H. cbn [h_data]. rewrite filter_app, map_app, stream_app, (r_data0 e h He Hb). f_equal.
        rewrite filter_mk_evs. f_equal. apply map_ext. intros y. unfold tell_of.
        destruct (r_chan0 (xc y)) as (_ & -> & _). reflexivity.
      + intros x Hx. apply in_app_or in Hx as [Hx|Hx]; [apply r_evs0, Hx|].
        apply in_map_iff in Hx as (y & <- & Hy). apply filter_In in Hy as (Hy & Q). apply andb_prop in Q as (Q & _).
        apply Nat.eqb_eq in Q. exists y. cbn. rewrite Q. repeat split; try assumption; try tauto; apply Vv.
  Qed.

  Lemma as_told_app a b : as_told (a ++ b) = as_told a ++ as_told b.
  Proof. apply map_app. Qed.
  Lemma as_told_mk k t v Y :
    as_told (mk_evs k t v Y) = map (fun w => let '(e, n, _) := w in (e, mkParsed n t v)) (map snd Y).
  Proof.
    unfold as_told, mk_evs. rewrite !map_map. apply map_ext. intros (h & (e & n) & c). reflexivity.
  Qed.

  Lemma assigns_rec ops : forall st X evs V L, Rec st X evs V L -> times_ok ops ->
    exists st' evs' V' L', assigns nl st ops = (st', map (fun _ => false) ops) /\
      g_exports st' = g_exports st /\ g_streams st' = g_streams st /\ g_meta st' = g_meta st /\
      Rec st' X (evs ++ evs') V' L' /\ as_told evs' = told prim0 least0 type0 (map snd X) V L ops.
  Proof.
    induction ops as [|[[p v] ts] ops IH]; intros st X evs V L R Ht.
    - exists st, [], V, L. rewrite app_nil_r. do 4 (split; [reflexivity|]). split; [exact R|reflexivity].
    - destruct (assign_rec st X evs V L p v ts R) as (st1 & E1 & A1 & A2 & A3 & R1).
      { apply (Ht p v ts). left. reflexivity. }
      assert (Ht' : times_ok ops) by (intros p' v' ts' Hi; apply (Ht p' v' ts'); right; exact Hi).
      cbn [assigns]. rewrite E1. cbn [told].
      destruct (V p =? v) eqn:Ev.
      + destruct (IH _ _ _ _ _ R1 Ht') as (st2 & ev2 & V2 & L2 & E2 & B1 & B2 & B3 & R2 & T2).
        rewrite E2. exists st2, ev2, V2, L2. cbn [map]. split; [reflexivity|].
        do 3 (split; [congruence|]). split; [exact R2|exact T2].
      + destruct (IH _ _ _ _ _ R1 Ht') as (st2 & ev2 & V2 & L2 & E2 & B1 & B2 & B3 & R2 & T2).
        rewrite E2. exists st2, (mk_evs (type0 p) ts (k_store (type0 p) v) (new_due X L p ts) ++ ev2), V2, L2.
        cbn [map]. split; [reflexivity|]. do 3 (split; [congruence|]). split; [rewrite app_assoc; exact R2|].
        rewrite as_told_app, as_told_mk, T2, !due_new. reflexivity.
  Qed.

  (** *** Starting. *)
  Definition V0 (p : nat) : Z := w_val (p_w (g_prim st0 p)).
  Definition T0 (p : nat) : Z := w_ts (p_w (g_prim st0 p)).
  Definition L0 : nat -> Z := last_first prim0 least0 T0.
  Definition first_evs (Y : list xw) : list (nat * (string * sent)) :=
    map (fun y => (xh y, (xe y, mkSent (id_ st0 (xc y)) (xn y) (type0 (prim0 (xc y))) (T0 (prim0 (xc y))) (V0 (prim0 (xc y))))))
      (filter (fun y => least0 (xc y) <=? T0 (prim0 (xc y))) Y).
  Lemma first_evs_app a b : first_evs (a ++ b) = first_evs a ++ first_evs b.
  Proof. unfold first_evs. rewrite filter_app, map_app. reflexivity. Qed.
  Lemma as_told_first Y : as_told (first_evs Y) = told_first prim0 least0 (map snd Y) V0 T0.
  Proof.
    unfold as_told, first_evs, told_first. rewrite map_map. induction Y as [|(h & (e & n) & c) Y IH]; [reflexivity|].
    cbn [map filter]. change (xc (h, (e, n, c))) with c. cbn [snd].
    destruct (least0 c <=? T0 (prim0 c)); cbn [map]; [f_equal; exact IH|exact IH].
  Qed.
  Lemma NoDup_app_l {A} (a b : list A) : NoDup (a ++ b) -> NoDup a.
  Proof.
    induction a as [|x a IH]; [constructor|]. cbn. intros H. inversion H as [|? ? Hn H']; subst.
    constructor; [|auto]. intros Q. apply Hn. apply in_or_app. auto.
  Qed.
  Lemma NoDup_snoc {A} (a : list A) x : NoDup a -> ~ In x a -> NoDup (a ++ [x]).
  Proof.
    induction a as [|y a IH]; cbn; intros H Hn; [constructor; auto|].
    inversion H; subst. constructor; [|apply IH; tauto].
    intros Q. apply in_app_or in Q as [Q|[Q|[]]]; [tauto|subst; tauto].
  Qed.

  Context (fine : in_order st0).
  Definition same_w (st : gst) : Prop := forall p, p_w (g_prim st p) = p_w (g_prim st0 p).

  Lemma enter_rec st X evs h e n c :
    Rec st X evs V0 L0 -> same_w st -> 0 <= id_ st0 c < 2 ^ 16 ->
    dget e (g_streams st) = Some h -> (base <= h)%nat -> h_open (g_handle st h) = true ->
    let y := (h, (e, n, c)) in
    exists st' b, enter_event nl st c h = (st', b) /\
      (b = true -> ~ NoDup (map xc (X ++ [y]))) /\
      (b = false -> Rec st' (X ++ [y]) (evs ++ first_evs [y]) V0 L0 /\ same_w st' /\
         g_exports st' = g_exports st /\ g_streams st' = g_streams st /\ g_meta st' = g_meta st /\
         g_next st' = g_next st /\ h_open (g_handle st' h) = true).
  Proof.
    intros R W Hi Hs Hb Ho y. unfold enter_event. rewrite (r_str _ _ _ _ _ R c).
    destruct (existsb (fun z => Nat.eqb (xc z) c) X) eqn:Ex.
    - exists st, true. split; [reflexivity|]. split; [intros _|discriminate].
      apply existsb_exists in Ex as (z & Hz & Q). apply Nat.eqb_eq in Q. rewrite map_app. cbn [map]. intros ND.
      change (xc y) with c in ND. rewrite <- Q in ND. apply (in_map xc) in Hz.
      apply in_split in Hz as (a & b & E). rewrite E in ND. rewrite <- app_assoc in ND.
      apply NoDup_remove_2 in ND. apply ND. apply in_or_app. right. apply in_or_app. right. left. reflexivity.
    - assert (Nc : ~ In c (map xc X)).
      { intros Q. apply in_map_iff in Q as (z & E & Hz).
        assert (Q : existsb (fun z => Nat.eqb (xc z) c) X = true)
          by (apply existsb_exists; exists z; split; [exact Hz|apply Nat.eqb_eq, E]). congruence. }
      set (st1 := set_ev st c _).
      destruct (r_chan _ _ _ _ _ R c) as (Cp & Ci & Cm).
      destruct fine as (_ & _ & Fp & _). specialize (Fp (prim0 c)). cbn zeta in Fp. destruct Fp as (Fv & Ft).
      assert (Ec : ch_ev (g_chan st1 c) = mkEvent (id_ st0 c) 0 (least0 c) false).
      { subst st1. unfold set_ev, s_chan. cbn [g_chan]. rewrite upd_eq. cbn. rewrite Ci, Cm. reflexivity. }
      rewrite Cp, W.
      destruct (poll_ok st1 c h n (p_w (g_prim st0 (prim0 c)))) as (st2 & E2 & K & C2 & H2).
      { exact Ho. } { rewrite Ec. exact Hi. } { exact Ft. } { exact Fv. }
      rewrite E2. eexists. exists false. split; [reflexivity|]. split; [discriminate|]. intros _.
      rewrite Ec in C2, H2. cbn [ev_id ev_prev ev_min ev_streaming] in C2, H2. rewrite Z.sub_0_r in C2, H2.
      change (w_ts (p_w (g_prim st0 (prim0 c)))) with (T0 (prim0 c)) in *.
      change (w_val (p_w (g_prim st0 (prim0 c)))) with (V0 (prim0 c)) in *.
      change (w_kind (p_w (g_prim st0 (prim0 c)))) with (type0 (prim0 c)) in *.
      assert (Ep : ch_prim (g_chan st1 c) = prim0 c).
      { subst st1. unfold set_ev, s_chan. cbn [g_chan]. rewrite upd_eq. exact Cp. }
      rewrite Ep in C2.
      assert (Eo : forall c', c' <> c -> g_chan st1 c' = g_chan st c').
      { intros c' Hc. subst st1. unfold set_ev, s_chan. cbn [g_chan]. apply upd_ne, Hc. }
      destruct K as (K1 & K2 & K3 & K4 & K5 & K6 & K7).
      change (g_prim st1) with (g_prim st) in K1. change (g_envs st1) with (g_envs st) in K2.
      change (g_next st1) with (g_next st) in K3. change (g_streams st1) with (g_streams st) in K5.
      change (g_entered st1) with (g_entered st) in K7. change (g_handle st1) with (g_handle st) in H2.
      cbn [s_entered set_ev s_chan s_prim g_prim g_chan g_envs g_handle g_next g_exports g_streams g_meta g_entered].
      split; [|split; [|split; [exact K4|split; [exact K5|split; [exact K6|split; [exact K3|]]]]]].
      2:{ intros p. cbn. unfold upd. rewrite K1. destruct (Nat.eqb_spec p (prim0 c)) as [->|]; [|apply W]. cbn. apply W. }
      2:{ cbn. rewrite H2, Nat.eqb_refl. reflexivity. }
      unfold set_ev, s_entered, s_chan, s_prim.
      constructor; cbn [g_prim g_chan g_envs g_handle g_next g_exports g_streams g_meta g_entered].
      + rewrite K2. apply R.
      + rewrite K3. apply R.
      + intros c'. unfold upd. destruct (Nat.eqb_spec c' c) as [->|Hc].
        * cbn [ch_prim ch_ev set_streaming ev_id ev_min]. rewrite C2, Nat.eqb_refl. cbn. auto.
        * rewrite C2. destruct (Nat.eqb_spec c' c); [congruence|]. rewrite Eo by exact Hc. apply R.
      + intros p. unfold upd. rewrite K1. destruct (Nat.eqb_spec p (prim0 c)) as [->|]; cbn [p_w]; apply R.
      + intros p. unfold upd. rewrite K1. rewrite filter_app, map_app. cbn [filter]. change (xc y) with c.
        destruct (Nat.eqb_spec p (prim0 c)) as [->|Hp].
        * cbn [p_cbs]. rewrite Nat.eqb_refl, (r_cbs _ _ _ _ _ R). reflexivity.
        * destruct (Nat.eqb_spec (prim0 c) p); [congruence|]. cbn [map]. rewrite app_nil_r. apply R.
      + intros c'. rewrite existsb_app. cbn [existsb]. change (xc y) with c. unfold upd.
        destruct (Nat.eqb_spec c' c) as [->|Hc].
        * rewrite Nat.eqb_refl, orb_true_r. reflexivity.
        * rewrite C2. destruct (Nat.eqb_spec c' c); [congruence|]. rewrite Eo by exact Hc.
          destruct (Nat.eqb_spec c c'); [congruence|]. cbn. rewrite orb_false_r. apply R.
      + rewrite map_app. apply NoDup_snoc; [apply R|exact Nc].
      + rewrite K7, map_app, (r_ent _ _ _ _ _ R). reflexivity.
      + intros z Hz. rewrite K5. apply in_app_or in Hz as [Hz|[<-|[]]].
        * destruct (r_X _ _ _ _ _ R z Hz) as (A1 & A2 & A3 & A4 & A5).
          assert (Hc : xc z <> c) by (intros Q; apply Nc; rewrite <- Q; apply in_map, Hz).
          rewrite upd_ne by exact Hc. rewrite C2. destruct (Nat.eqb_spec (xc z) c); [congruence|].
          rewrite Eo by exact Hc. split; [exact A1|]. split; [|auto].
          rewrite H2. destruct (Nat.eqb (xh z) h); [reflexivity|exact A2].
        * change (xc y) with c. change (xh y) with h. change (xe y) with e. rewrite upd_eq.
          cbn [ch_ev set_streaming ev_prev]. rewrite C2, H2, !Nat.eqb_refl. cbn [ch_ev ev_prev h_open].
          split; [reflexivity|]. auto.
      + intros e' h' He. rewrite K5 in He. rewrite K3. destruct (r_name _ _ _ _ _ R e' h' He) as (A1 & A2).
        split; [exact A1|]. intros Hb'. rewrite H2. destruct (Nat.eqb_spec h' h) as [->|]; [cbn|]; auto.
      + intros e' h' He Hb'. rewrite K5 in He. rewrite filter_app, map_app, stream_app, <- (r_data _ _ _ _ _ R e' h' He Hb').
        rewrite H2. unfold first_evs. cbn [filter]. change (xc y) with c.
        destruct (Nat.eqb_spec h' h) as [->|Hh].
        * cbn [h_data]. f_equal. destruct (least0 c <=? T0 (prim0 c)); [|reflexivity].
          cbn [map filter fst]. change (xh y) with h. rewrite Nat.eqb_refl. cbn [map snd].
          unfold event_stream. cbn [map List.concat]. rewrite app_nil_r. reflexivity.
        * destruct (least0 c <=? T0 (prim0 c)); [|cbn; rewrite app_nil_r; reflexivity].
          cbn [map filter fst]. change (xh y) with h. destruct (Nat.eqb_spec h h'); [congruence|].
          cbn. rewrite app_nil_r. reflexivity.
      + intros x Hx. apply in_app_or in Hx as [Hx|Hx].
        * destruct (r_evs _ _ _ _ _ R x Hx) as (z & Hz & A). exists z. split; [apply in_or_app; auto|exact A].
        * unfold first_evs in Hx. cbn [filter] in Hx. change (xc y) with c in Hx.
          destruct (least0 c <=? T0 (prim0 c)); [|destruct Hx]. destruct Hx as [<-|[]].
          exists y. split; [apply in_or_app; right; left; reflexivity|]. cbn. repeat split; try apply Ft; try apply Fv; auto.
  Qed.

  Definition xs_of (h : nat) (e : string) (sel : string -> bool) (l : list (string * nat)) : list xw :=
    map (fun nc => (h, (e, fst nc, snd nc))) (filter (fun nc => sel (fst nc)) l).

  Lemma enter_chans_rec sel h e l : forall st X evs,
    Rec st X evs V0 L0 -> same_w st -> (forall n c, In (n, c) l -> 0 <= id_ st0 c < 2 ^ 16) ->
    dget e (g_streams st) = Some h -> (base <= h)%nat -> h_open (g_handle st h) = true ->
    let Y := xs_of h e sel l in
    exists st' r, enter_chans nl st h sel l = (st', r) /\
      (r = None -> ~ NoDup (map xc (X ++ Y))) /\
      (forall ns, r = Some ns -> ns = map fst (filter (fun nc => sel (fst nc)) l) /\
         Rec st' (X ++ Y) (evs ++ first_evs Y) V0 L0 /\ same_w st' /\
         g_exports st' = g_exports st /\ g_streams st' = g_streams st /\ g_meta st' = g_meta st /\
         g_next st' = g_next st).
  Proof.
    induction l as [|[n c] l IH]; intros st X evs R W Hi Hs Hb Ho Y.
    - exists st, (Some []). split; [reflexivity|]. split; [discriminate|]. intros ns [= <-].
      subst Y. cbn. rewrite !app_nil_r. split; [reflexivity|]. auto 10.
    - cbn [enter_chans]. subst Y. unfold xs_of. cbn [filter fst].
      assert (Hi' : forall n' c', In (n', c') l -> 0 <= id_ st0 c' < 2 ^ 16) by (intros n' c' Q; apply (Hi n' c'); right; exact Q).
      destruct (sel n) eqn:Sn.
      2:{ apply (IH st X evs R W Hi' Hs Hb Ho). }
      cbn [map fst snd]. set (y := (h, (e, n, c))).
      destruct (enter_rec st X evs h e n c R W (Hi n c (or_introl eq_refl)) Hs Hb Ho) as (st1 & b & E1 & Bt & Bf).
      fold y in Bt, Bf. rewrite E1. fold (xs_of h e sel l). destruct b.
      + exists st1, None. split; [reflexivity|]. split; [|discriminate]. intros _ ND. apply (Bt eq_refl).
        change (y :: xs_of h e sel l) with ([y] ++ xs_of h e sel l) in ND. rewrite app_assoc, map_app in ND.
        eapply NoDup_app_l; eauto.
      + destruct (Bf eq_refl) as (R1 & W1 & A1 & A2 & A3 & A4 & A5).
        destruct (IH st1 _ _ R1 W1 Hi') as (st2 & r & E2 & Rn & Rs); [rewrite A2; exact Hs|exact Hb|exact A5|].
        rewrite E2. fold (xs_of h e sel l) in Rn, Rs. rewrite <- app_assoc in Rn. cbn [app] in Rn.
        destruct r as [ns|].
        * eexists. eexists. split; [reflexivity|]. split; [discriminate|]. intros ns' [= <-].
          destruct (Rs ns eq_refl) as (-> & R2 & W2 & B1 & B2 & B3 & B4).
          split; [reflexivity|]. split; [|split; [exact W2|repeat split; congruence]].
          change (y :: xs_of h e sel l) with ([y] ++ xs_of h e sel l). rewrite first_evs_app, !app_assoc. exact R2.
        * eexists. eexists. split; [reflexivity|]. split; [intros _; exact (Rn eq_refl)|discriminate].
  Qed.

  (** The recorded channels of a list of environments, files numbered from [h]. *)
  Fixpoint xs_envs (h : nat) (sele selc : string -> bool) (l : list (string * renv)) : list xw :=
    match l with
    | [] => []
    | (name, e) :: r => if sele name then xs_of h name selc (re_chans e) ++ xs_envs (S h) sele selc r else xs_envs h sele selc r
    end.
  Lemma xs_recorded sele selc l : forall h, map snd (xs_envs h sele selc l) = recorded sele selc l.
  Proof.
    induction l as [|[name e] l IH]; intros h; [reflexivity|]. cbn [xs_envs recorded flat_map fst snd].
    fold (recorded sele selc l). destruct (sele name); [|apply IH].
    rewrite map_app, IH. f_equal. unfold xs_of. rewrite map_map. reflexivity.
  Qed.
  Definition chosen (sele selc : string -> bool) (l : list (string * renv)) : list (string * list string) :=
    map (fun ne => (fst ne, map fst (filter (fun nc => selc (fst nc)) (re_chans (snd ne))))) (filter (fun ne => sele (fst ne)) l).

  Lemma open_rec st X evs name e : Rec st X evs V0 L0 -> same_w st -> (forall y, In y X -> xe y <> name) ->
    Rec (open_stream st name e) X evs V0 L0 /\ same_w (open_stream st name e).
  Proof.
    intros R W Hn. split; [|exact W]. pose proof (r_next _ _ _ _ _ R) as Hb.
    assert (Lt : forall y, In y X -> (xh y < g_next st)%nat).
    { intros y Hy. destruct (r_X _ _ _ _ _ R y Hy) as (_ & _ & A & _). apply (r_name _ _ _ _ _ R) in A. lia. }
    unfold open_stream. destruct R.
    constructor; cbn [g_prim g_chan g_envs g_handle g_next g_exports g_streams g_meta g_entered]; try assumption.
    - lia.
    - intros y Hy. destruct (r_X0 y Hy) as (A1 & A2 & A3 & A4 & A5). split; [exact A1|].
      rewrite upd_ne by (specialize (Lt y Hy); lia). split; [exact A2|].
      rewrite dget_dset_ne by (apply Hn, Hy). auto.
    - intros e' h' He. destruct (String.string_dec e' name) as [->|Q].
      + rewrite dget_dset_eq in He. injection He as <-. rewrite upd_eq. cbn. split; [lia|auto].
      + rewrite dget_dset_ne in He by exact Q. destruct (r_name0 e' h' He) as (A1 & A2). split; [lia|].
        intros Hb'. rewrite upd_ne by lia. auto.
    - intros e' h' He Hb'. destruct (String.string_dec e' name) as [->|Q].
      + rewrite dget_dset_eq in He. injection He as <-. rewrite upd_eq. cbn [h_data].
        assert (F : filter (fun x => Nat.eqb (fst x) (g_next st)) evs = []).
        { clear -r_evs0 Lt. induction evs as [|x l IH]; [reflexivity|]. cbn.
          destruct (r_evs0 x (or_introl eq_refl)) as (y & Hy & Q & _). specialize (Lt y Hy).
          destruct (Nat.eqb_spec (fst x) (g_next st)); [lia|]. apply IH. intros z Hz. apply r_evs0. right. exact Hz. }
        rewrite F. reflexivity.
      + rewrite dget_dset_ne in He by exact Q. destruct (r_name0 e' h' He) as (A1 & A2).
        rewrite upd_ne by lia. apply (r_data0 e' h' He Hb').
  Qed.

  Section Export.
    Context (export_ok : string -> bool).
    Lemma start_envs_rec sele selc l : forall st X evs,
      Rec st X evs V0 L0 -> same_w st -> NoDup (dkeys l) -> (forall ne, In ne l -> In ne (g_envs st0)) ->
      (forall y, In y X -> ~ In (xe y) (dkeys l)) ->
      let Y := xs_envs (g_next st) sele selc l in
      exists st' r, start_envs nl export_ok st sele selc l = (st', r) /\
        (r = None -> (exists name, In name (dkeys l) /\ sele name = true /\ export_ok name = false) \/ ~ NoDup (map xc (X ++ Y))) /\
        (forall found, r = Some found -> found = chosen sele selc l /\
           (forall name, In name (dkeys l) -> sele name = true -> export_ok name = true) /\
           Rec st' (X ++ Y) (evs ++ first_evs Y) V0 L0 /\ same_w st' /\ g_meta st' = g_meta st /\
           (forall name e, In (name, e) l -> sele name = true ->
              dget name (g_exports st') = Some e /\ exists h, dget name (g_streams st') = Some h /\ (base <= h)%nat) /\
           (forall name, ~ In name (dkeys l) -> dget name (g_exports st') = dget name (g_exports st) /\
              dget name (g_streams st') = dget name (g_streams st))).
    Proof.
      induction l as [|[name e] l IH]; intros st X evs R W ND Hin HX Y.
      - exists st, (Some []). split; [reflexivity|]. split; [discriminate|]. intros found [= <-].
        subst Y. cbn. rewrite !app_nil_r. split; [reflexivity|]. split; [tauto|]. split; [exact R|]. split; [exact W|].
        split; [reflexivity|]. split; [tauto|auto].
      - cbn [dkeys map fst] in ND. inversion ND as [|? ? Hn ND']; subst.
        assert (Hin' : forall ne, In ne l -> In ne (g_envs st0)) by (intros ne Q; apply Hin; right; exact Q).
        assert (HX' : forall y, In y X -> ~ In (xe y) (dkeys l)) by (intros y Hy Q; apply (HX y Hy); right; exact Q).
        cbn [start_envs]. subst Y. cbn [xs_envs]. destruct (sele name) eqn:Se.
        2:{ destruct (IH st X evs R W ND' Hin' HX') as (st' & r & E & Rn & Rs).
            exists st', r. split; [exact E|]. split.
            - intros Q. destruct (Rn Q) as [(m & M1 & M2)|M]; [left|right; exact M].
              exists m. split; [right; exact M1|exact M2].
            - intros found Q. destruct (Rs found Q) as (A1 & A2 & A3 & A4 & A5 & A6 & A7).
              split; [unfold chosen in *; cbn [filter fst]; rewrite Se; exact A1|].
              split; [intros m [Q'|Hm] Hs; [cbn in Q'; congruence|apply A2; assumption]|].
              do 3 (split; [assumption|]). split.
              + intros m em [Q'|Hm] Hs; [injection Q' as -> ->; congruence|apply A6; assumption].
              + intros m Hm. apply A7. intros Q'. apply Hm. right. exact Q'. }
        destruct (export_ok name) eqn:Xo.
        2:{ exists st, None. split; [reflexivity|]. split; [|discriminate]. intros _. left.
            exists name. split; [left; reflexivity|auto]. }
        destruct (open_rec st X evs name e R W) as (R1 & W1).
        { intros y Hy Q. apply (HX y Hy). left. symmetry. exact Q. }
        pose proof (r_next _ _ _ _ _ R) as Hb.
        destruct (enter_chans_rec selc (g_next st) name (re_chans e) _ _ _ R1 W1) as (st2 & r2 & E2 & Rn2 & Rs2).
        { intros n c Hc. destruct fine as (_ & _ & _ & Fe).
          destruct (Fe name e (Hin _ (or_introl eq_refl))) as (_ & _ & Fc). apply (Fc n c Hc). }
        { cbn [open_stream g_streams]. apply dget_dset_eq. }
        { exact Hb. }
        { cbn [open_stream g_handle]. rewrite upd_eq. reflexivity. }
        set (Y1 := xs_of (g_next st) name selc (re_chans e)) in *.
        rewrite E2. destruct r2 as [ns|].
        2:{ exists st2, None. split; [reflexivity|]. split; [|discriminate]. intros _. right. intros Q.
            apply (Rn2 eq_refl). rewrite app_assoc, map_app in Q. eapply NoDup_app_l; eauto. }
        destruct (Rs2 ns eq_refl) as (En & R2 & W2 & A1 & A2 & A3 & A4).
        cbn [open_stream g_next g_exports g_streams g_meta] in A1, A2, A3, A4.
        destruct (IH st2 _ _ R2 W2 ND' Hin') as (st3 & r3 & E3 & Rn3 & Rs3).
        { intros y Hy. apply in_app_or in Hy as [Hy|Hy]; [apply HX', Hy|].
          apply in_map_iff in Hy as (nc & <- & _). exact Hn. }
        rewrite A4 in Rn3, Rs3. rewrite E3. destruct r3 as [l3|].
        + exists st3, (Some ((name, ns) :: l3)). split; [reflexivity|]. split; [discriminate|]. intros found [= <-].
          destruct (Rs3 l3 eq_refl) as (B1 & B2 & B3 & B4 & B5 & B6 & B7).
          split; [unfold chosen in *; cbn [filter fst]; rewrite Se; cbn [map fst snd]; congruence|].
          split; [intros m [Q'|Hm] Hs; [cbn in Q'; congruence|apply B2; assumption]|].
          rewrite first_evs_app, !app_assoc. split; [exact B3|]. split; [exact B4|]. split; [congruence|]. split.
          * intros m em [Q'|Hm] Hs; [|apply B6; assumption]. injection Q' as <- <-.
            destruct (B7 name Hn) as (-> & ->). rewrite A1, A2, !dget_dset_eq. split; [reflexivity|].
            exists (g_next st). auto.
          * intros m Hm. destruct (B7 m) as (-> & ->); [intros Q'; apply Hm; right; exact Q'|].
            rewrite A1, A2. rewrite !dget_dset_ne by (intros Q'; apply Hm; left; symmetry; exact Q'). auto.
        + exists st3, None. split; [reflexivity|]. split; [|discriminate]. intros _.
          rewrite app_assoc. destruct (Rn3 eq_refl) as [(m & M1 & M2)|M]; [left|right; exact M].
          exists m. split; [right; exact M1|exact M2].
    Qed.

    Lemma idle_rec : idle st0 -> Rec (s_entered st0 []) [] [] V0 L0 /\ same_w (s_entered st0 []).
    Proof.
      intros (I1 & I2). split; [|intros p; reflexivity]. destruct fine as (F1 & F2 & F3 & F4).
      constructor; cbn [s_entered g_prim g_chan g_envs g_handle g_next g_exports g_streams g_meta g_entered].
      - reflexivity.
      - lia.
      - intros c. auto.
      - intros p. destruct (F3 p) as (A & B). auto.
      - intros p. apply I1.
      - intros c. apply I2.
      - constructor.
      - reflexivity.
      - intros y [].
      - intros e h He. apply F2 in He. split; [exact He|lia].
      - intros e h He Hb. apply F2 in He. lia.
      - intros x [].
    Qed.

    Lemma start_rec sele selc : idle st0 ->
      let Y := xs_envs base sele selc (g_envs st0) in
      exists st' r, start nl export_ok st0 sele selc = (st', r) /\
        (r = None -> (exists name, In name (dkeys (g_envs st0)) /\ sele name = true /\ export_ok name = false) \/ ~ NoDup (map xc Y)) /\
        (forall found, r = Some found -> found = chosen sele selc (g_envs st0) /\
           (forall name, In name (dkeys (g_envs st0)) -> sele name = true -> export_ok name = true) /\
           Rec st' Y (first_evs Y) V0 L0 /\ same_w st' /\ g_meta st' = g_meta st0 /\
           (forall name e, In (name, e) (g_envs st0) -> sele name = true ->
              dget name (g_exports st') = Some e /\ exists h, dget name (g_streams st') = Some h /\ (base <= h)%nat)).
    Proof.
      intros I Y. destruct (idle_rec I) as (R & W).
      destruct (start_envs_rec sele selc (g_envs st0) _ _ _ R W) as (st' & r & E & Rn & Rs).
      { apply fine. } { auto. } { intros y []. }
      change (g_next (s_entered st0 [])) with base in Rn, Rs. fold Y in Rn, Rs. cbn [app] in Rn, Rs.
      unfold start. rewrite E. destruct r as [l|].
      - exists st', (Some l). split; [reflexivity|]. split; [discriminate|]. intros found [= <-].
        destruct (Rs l eq_refl) as (A1 & A2 & A3 & A4 & A5 & A6 & _). auto 10.
      - eexists. exists None. split; [reflexivity|]. split; [exact Rn|discriminate].
    Qed.
  End Export.

  (** *** Reading. *)
  Lemma xs_from sele selc l : forall h y, In y (xs_envs h sele selc l) ->
    exists e, In (xe y, e) l /\ sele (xe y) = true /\ In (xn y, xc y) (re_chans e) /\ selc (xn y) = true.
  Proof.
    induction l as [|[name e] l IH]; intros h y; cbn [xs_envs]; [intros []|].
    destruct (sele name) eqn:Se.
    - intros Hy. apply in_app_or in Hy as [Hy|Hy].
      + apply in_map_iff in Hy as ([n c] & <- & Hc). apply filter_In in Hc as (Hc & Hs). exists e. cbn in *. auto.
      + destruct (IH _ _ Hy) as (e' & A & B). exists e'. split; [right; exact A|exact B].
    - intros Hy. destruct (IH _ _ Hy) as (e' & A & B). exists e'. split; [right; exact A|exact B].
  Qed.
  Lemma xs_in sele selc l name e n c : In (name, e) l -> sele name = true -> In (n, c) (re_chans e) -> selc n = true ->
    forall h, exists k, In (k, (name, n, c)) (xs_envs h sele selc l).
  Proof.
    intros He Se Hc Sc. induction l as [|[name' e'] l IH]; intros h; [destruct He|]. cbn [xs_envs].
    destruct He as [Q|He].
    - injection Q as -> ->. rewrite Se. exists h. apply in_or_app. left. apply in_map_iff. exists (n, c). split; [reflexivity|].
      apply filter_In. auto.
    - destruct (sele name').
      + destruct (IH He (S h)) as (k & Hk). exists k. apply in_or_app. auto.
      + apply IH, He.
  Qed.

  Lemma name_of_in e n i : NoDup (map snd (re_names e)) -> In (n, i) (re_names e) -> name_of e i = Some n.
  Proof.
    unfold name_of. induction (re_names e) as [|[m j] l IH]; [intros _ []|]. cbn [map snd find].
    intros ND [Q|Hi]; inversion ND as [|? ? Hn ND']; subst.
    - injection Q as -> ->. rewrite Z.eqb_refl. reflexivity.
    - destruct (Z.eqb_spec j i) as [->|]; [|apply IH; assumption].
      exfalso. apply Hn. apply in_map_iff. exists (n, i). auto.
  Qed.

  Definition evs_of (h : nat) (evs : list (nat * (string * sent))) : list sent :=
    map (fun x => snd (snd x)) (filter (fun x => Nat.eqb (fst x) h) evs).

  Lemma evs_env st X evs V L name h : Rec st X evs V L -> dget name (g_streams st) = Some h -> (base <= h)%nat ->
    map seen (evs_of h evs) = of_env name (as_told evs).
  Proof.
    intros R Hd Hb. unfold evs_of, of_env, as_told.
    assert (Q : forall x, In x evs -> Nat.eqb (fst x) h = String.eqb (fst (snd x)) name).
    { intros x Hx. destruct (r_evs _ _ _ _ _ R x Hx) as (y & Hy & -> & -> & _).
      destruct (r_X _ _ _ _ _ R y Hy) as (_ & _ & Dy & By & _).
      destruct (String.eqb_spec (xe y) name) as [E|E].
      - apply Nat.eqb_eq. rewrite E in Dy. congruence.
      - apply Nat.eqb_neq. intros Qh. apply E. rewrite Qh in Dy.
        destruct (r_name _ _ _ _ _ R _ _ Dy) as (_ & N1). destruct (r_name _ _ _ _ _ R _ _ Hd) as (_ & N2).
        rewrite <- (N1 Hb), <- (N2 Hb). reflexivity. }
    clear -Q. induction evs as [|x evs IH]; [reflexivity|]. cbn [map filter fst].
    rewrite (Q x (or_introl eq_refl)).
    destruct (String.eqb (fst (snd x)) name); cbn [map snd]; rewrite IH; auto; intros z Hz; apply Q; right; exact Hz.
  Qed.

  Lemma whole_in st e es : (forall x, In x es -> size_of st e (s_name x) = Z.of_nat (wire_size (s_kind x))) ->
    forall n, map seen (events_in n es) = whole (size_of st e) n (map seen es).
  Proof.
    induction es as [|x es IH]; intros H n; [reflexivity|]. cbn [events_in map whole]. cbn [seen g_name].
    rewrite (H x (or_introl eq_refl)). destruct (_ <=? n); [|reflexivity]. cbn [map].
    rewrite IH by (intros z Hz; apply H; right; exact Hz). reflexivity.
  Qed.

  Lemma dget_nodup {A} n (a : A) l : NoDup (dkeys l) -> In (n, a) l -> dget n l = Some a.
  Proof. apply In_dget. Qed.

  Lemma read_rec st st' sele selc evs V L name e h w rest :
    Rec st (xs_envs base sele selc (g_envs st0)) evs V L ->
    (forall c, ch_prim (g_chan st' c) = prim0 c) -> (forall p, w_kind (p_w (g_prim st' p)) = type0 p) ->
    In (name, e) (g_envs st0) -> dget name (g_streams st) = Some h -> (base <= h)%nat ->
    h_data (g_handle st h) = w ++ rest ->
    read_bytes nl st' e w = whole (size_of st' e) (zlen w) (of_env name (as_told evs)).
  Proof.
    intros R Hc Hk He Hd Hb Hw. destruct fine as (Fn & _ & _ & Fe). destruct (Fe name e He) as (ND & NI & Fc).
    rewrite <- (evs_env _ _ _ _ _ _ _ R Hd Hb).
    rewrite (r_data _ _ _ _ _ R name h Hd Hb) in Hw. fold (evs_of h evs) in Hw.
    assert (Ag : forall x, In x (evs_of h evs) ->
      agreed (name_of e) (field_of e) (kind_of st' e) x /\ size_of st' e (s_name x) = Z.of_nat (wire_size (s_kind x))).
    { intros x Hx. apply in_map_iff in Hx as (z & <- & Hz). apply filter_In in Hz as (Hz & Qh). apply Nat.eqb_eq in Qh.
      destruct (r_evs _ _ _ _ _ R z Hz) as (y & Hy & E1 & E2 & E3 & E4 & E5 & E6 & E7).
      destruct (r_X _ _ _ _ _ R y Hy) as (_ & _ & Dy & By & Iy).
      destruct (xs_from _ _ _ _ _ Hy) as (e' & He' & _ & Hn & _).
      assert (En : xe y = name).
      { destruct (r_name _ _ _ _ _ R _ _ Dy) as (_ & N1). destruct (r_name _ _ _ _ _ R _ _ Hd) as (_ & N2).
        rewrite <- (N1 By), <- (N2 Hb), <- Qh, E1. reflexivity. }
      assert (Ee : e' = e).
      { rewrite En in He'. apply (In_dget _ _ _ Fn) in He'. apply (In_dget _ _ _ Fn) in He. congruence. }
      subst e'. destruct (Fc _ _ Hn) as (F1 & F2 & F3). pose proof (In_dget _ _ _ ND Hn) as G.
      split.
      - unfold agreed. rewrite E3, E4, E5. split; [apply name_of_in; assumption|]. split.
        + right. unfold field_of, kind_of. rewrite G, Hc, Hk. auto.
        + rewrite <- E5. auto.
      - unfold size_of. rewrite E4, G, Hc, Hk, E5. reflexivity. }
    assert (Fo : Forall (agreed (name_of e) (field_of e) (kind_of st' e)) (evs_of h evs)).
    { apply Forall_forall. intros x Hx. apply (Ag x Hx). }
    unfold read_bytes. cbn [x_feed].
    destruct (parse_step nl _ _ _ (evs_of h evs) [] 0 0 w rest Fo Hw) as (es2 & t & q & _ & _ & _ & _ & P & _).
    unfold x_init. rewrite P. cbn [app fst]. rewrite app_nil_r. apply whole_in. intros x Hx. apply (Ag x Hx).
  Qed.

  Lemma whole_all size n l : (forall x, 0 <= size x) -> n = fold_right Z.add 0 (map (fun x => 10 + size (g_name x)) l) -> whole size n l = l.
  Proof.
    intros Hs. revert n. induction l as [|x l IH]; intros n Hn; [reflexivity|]. cbn [whole]. cbn [map fold_right] in Hn.
    assert (0 <= fold_right Z.add 0 (map (fun x => 10 + size (g_name x)) l)).
    { clear -Hs. induction l as [|z l IH]; cbn [map fold_right]; [lia|]. specialize (Hs (g_name z)). lia. }
    destruct (Z.leb_spec (10 + size (g_name x)) n); [|lia]. rewrite IH by lia. reflexivity.
  Qed.
  Lemma read_all st st' sele selc evs V L name e h :
    Rec st (xs_envs base sele selc (g_envs st0)) evs V L ->
    (forall c, ch_prim (g_chan st' c) = prim0 c) -> (forall p, w_kind (p_w (g_prim st' p)) = type0 p) ->
    In (name, e) (g_envs st0) -> dget name (g_streams st) = Some h -> (base <= h)%nat ->
    read_bytes nl st' e (h_data (g_handle st h)) = of_env name (as_told evs).
  Proof.
    intros R Hc Hk He Hd Hb.
    rewrite (read_rec st st' sele selc evs V L name e h _ [] R Hc Hk He Hd Hb) by (rewrite app_nil_r; reflexivity).
    (* every event fits *)
    destruct fine as (Fn & _ & _ & Fe). destruct (Fe name e He) as (ND & NI & Fc).
    apply whole_all.
    { intros x. unfold size_of. destruct (dget x _); lia. }
    rewrite <- (evs_env _ _ _ _ _ _ _ R Hd Hb), (r_data _ _ _ _ _ R name h Hd Hb). fold (evs_of h evs).
    assert (Sz : forall x, In x (evs_of h evs) -> size_of st' e (s_name x) = Z.of_nat (wire_size (s_kind x))).
    { intros x Hx. apply in_map_iff in Hx as (z & <- & Hz). apply filter_In in Hz as (Hz & Qh). apply Nat.eqb_eq in Qh.
      destruct (r_evs _ _ _ _ _ R z Hz) as (y & Hy & E1 & E2 & E3 & E4 & E5 & E6 & E7).
      destruct (r_X _ _ _ _ _ R y Hy) as (_ & _ & Dy & By & Iy).
      destruct (xs_from _ _ _ _ _ Hy) as (e' & He' & _ & Hn & _).
      assert (En : xe y = name).
      { destruct (r_name _ _ _ _ _ R _ _ Dy) as (_ & N1). destruct (r_name _ _ _ _ _ R _ _ Hd) as (_ & N2).
        rewrite <- (N1 By), <- (N2 Hb), <- Qh, E1. reflexivity. }
      assert (Ee : e' = e).
      { rewrite En in He'. apply (In_dget _ _ _ Fn) in He'. apply (In_dget _ _ _ Fn) in He. congruence. }
      subst e'. unfold size_of. rewrite E4, (In_dget _ _ _ ND Hn), Hc, Hk, E5. reflexivity. }
    clear -Sz. induction (evs_of h evs) as [|x l IH]; [reflexivity|].
    unfold event_stream. cbn [map List.concat fold_right]. fold (event_stream l). rewrite zlen_app, zlen_event.
    cbn [seen g_name]. rewrite (Sz x (or_introl eq_refl)), IH by (intros z Hz; apply Sz; right; exact Hz). reflexivity.
  Qed.

  (** *** Stopping. *)
  Lemma exits_spec l : forall st, let st' := fold_left exit_event l st in
    g_envs st' = g_envs st /\ g_handle st' = g_handle st /\ g_next st' = g_next st /\ g_exports st' = g_exports st /\
    g_streams st' = g_streams st /\
    (forall c, ch_prim (g_chan st' c) = ch_prim (g_chan st c) /\ id_ st' c = id_ st c /\
       str_ st' c = (str_ st c && negb (existsb (fun x => Nat.eqb (fst x) c) l))%bool) /\
    (forall p, p_w (g_prim st' p) = p_w (g_prim st p)) /\
    (forall p x, In x (p_cbs (g_prim st' p)) -> In x (p_cbs (g_prim st p)) /\ ~ (In x l /\ ch_prim (g_chan st (fst x)) = p)).
  Proof.
    induction l as [|a l IH]; intros st st'.
    - subst st'. cbn. repeat split; auto; try tauto. rewrite andb_true_r. reflexivity.
    - subst st'. cbn [fold_left]. destruct (IH (exit_event st a)) as (A1 & A2 & A3 & A4 & A5 & A6 & A7 & A8).
      rewrite A1, A2, A3, A4, A5. do 5 (split; [reflexivity|]).
      assert (Ch : forall c, g_chan (exit_event st a) c =
        if Nat.eqb c (fst a) then mkRchan (ch_prim (g_chan st c)) (set_streaming (ch_ev (g_chan st c)) false) else g_chan st c).
      { intros c. unfold exit_event, set_ev, s_chan, s_prim. cbn [g_chan]. unfold upd.
        destruct (Nat.eqb_spec c (fst a)) as [->|]; reflexivity. }
      assert (Pr : forall p, g_prim (exit_event st a) p =
        if Nat.eqb p (ch_prim (g_chan st (fst a)))
        then mkRprim (p_w (g_prim st p)) (filter (fun y => negb (same_cb y a)) (p_cbs (g_prim st p))) else g_prim st p).
      { intros p. unfold exit_event, set_ev, s_chan, s_prim. cbn [g_prim g_chan]. unfold upd.
        destruct (Nat.eqb_spec p (ch_prim (g_chan st (fst a)))) as [->|]; reflexivity. }
      split; [|split].
      + intros c. destruct (A6 c) as (B1 & B2 & B3). rewrite B1, B2, B3, Ch. cbn [existsb].
        rewrite (Nat.eqb_sym (fst a) c).
        destruct (Nat.eqb c (fst a)); cbn; repeat split; rewrite ?andb_false_r; auto.
      + intros p. rewrite A7, Pr. destruct (Nat.eqb _ _); reflexivity.
      + intros p x Hx. destruct (A8 p x Hx) as (B1 & B2). rewrite Pr in B1.
        assert (Cp : ch_prim (g_chan (exit_event st a) (fst x)) = ch_prim (g_chan st (fst x)))
          by (rewrite Ch; destruct (Nat.eqb (fst x) (fst a)); reflexivity).
        rewrite Cp in B2.
        destruct (Nat.eqb_spec p (ch_prim (g_chan st (fst a)))) as [Ep|Ep].
        * cbn [p_cbs] in B1. apply filter_In in B1 as (B1 & B3). split; [exact B1|].
          intros ([<-|Hl] & Q); [|apply B2; auto].
          unfold same_cb in B3. rewrite !Nat.eqb_refl in B3. discriminate.
        * split; [exact B1|]. intros ([<-|Hl] & Q); [congruence|apply B2; auto].
  Qed.

  Lemma stop_rec st X evs V L found : Rec st X evs V L ->
    let st' := stop st base found false in
    idle st' /\ in_order st' /\ g_meta st' = Some found /\ g_exports st' = g_exports st /\ g_streams st' = g_streams st /\
    g_envs st' = g_envs st0 /\
    (forall h, h_data (g_handle st' h) = h_data (g_handle st h)) /\
    (forall c, ch_prim (g_chan st' c) = prim0 c) /\ (forall p, w_kind (p_w (g_prim st' p)) = type0 p).
  Proof.
    intros R st'. destruct (exits_spec (rev (g_entered st)) st) as (A1 & A2 & A3 & A4 & A5 & A6 & A7 & A8).
    assert (Id : idle st').
    { split.
      - intros p. subst st'. unfold stop, s_meta, close_from, s_handle. cbn [g_prim].
        destruct (p_cbs (g_prim _ p)) as [|x r] eqn:Ec; [reflexivity|]. exfalso.
        destruct (A8 p x) as (B1 & B2); [rewrite Ec; left; reflexivity|]. apply B2.
        rewrite (r_cbs _ _ _ _ _ R) in B1. apply in_map_iff in B1 as (y & <- & Hy). apply filter_In in Hy as (Hy & Q).
        apply Nat.eqb_eq in Q. rewrite <- in_rev, (r_ent _ _ _ _ _ R). split; [apply in_map, Hy|].
        destruct (r_chan _ _ _ _ _ R (fst (cb y))) as (-> & _). exact Q.
      - intros c. subst st'. unfold stop, s_meta, close_from, s_handle. cbn [g_chan].
        destruct (A6 c) as (_ & _ & ->). rewrite (r_str _ _ _ _ _ R c).
        destruct (existsb (fun y => Nat.eqb (xc y) c) X) eqn:Ex; [|reflexivity]. cbn [andb].
        apply existsb_exists in Ex as (y & Hy & Q). apply negb_false_iff. apply existsb_exists. exists (cb y).
        split; [|exact Q]. rewrite <- in_rev, (r_ent _ _ _ _ _ R). apply in_map, Hy. }
    split; [exact Id|].
    assert (Ev : g_envs st' = g_envs st0).
    { subst st'. unfold stop, s_meta, close_from, s_handle. cbn [g_envs]. rewrite A1. apply R. }
    assert (Cp : forall c, ch_prim (g_chan st' c) = prim0 c /\ id_ st' c = id_ st0 c).
    { intros c. subst st'. unfold stop, s_meta, close_from, s_handle. cbn [g_chan].
      destruct (A6 c) as (-> & -> & _). destruct (r_chan _ _ _ _ _ R c) as (B1 & B2 & _). auto. }
    assert (Pw : forall p, p_w (g_prim st' p) = p_w (g_prim st p)).
    { intros p. subst st'. unfold stop, s_meta, close_from, s_handle. cbn [g_prim]. apply A7. }
    split.
    { destruct fine as (F1 & F2 & F3 & F4). unfold in_order. rewrite Ev. split; [exact F1|]. split; [|split].
      - subst st'. unfold stop, s_meta, close_from, s_handle. cbn [g_streams g_next]. rewrite A3, A5.
        intros name h Hh. apply (r_name _ _ _ _ _ R name h Hh).
      - intros p. rewrite Pw. destruct (r_prim _ _ _ _ _ R p) as (-> & -> & B). exact B.
      - intros name e He. destruct (F4 name e He) as (G1 & G1' & G2). split; [exact G1|]. split; [exact G1'|].
        intros n c Hc. destruct (Cp c) as (_ & ->). apply G2, Hc. }
    subst st'. unfold stop, s_meta, close_from, s_handle in *. cbn [g_meta g_exports g_streams g_handle g_envs g_chan g_prim] in *.
    rewrite A2, A4, A5. do 4 (split; [first [reflexivity|exact Ev]|]). split; [|split].
    - intros h. destruct (Nat.ltb h base); reflexivity.
    - intros c. apply Cp.
    - intros p. rewrite Pw. apply R.
  Qed.

  Lemma load_chosen sele selc ex l : (forall name e, In (name, e) l -> sele name = true -> dget name ex = Some e) ->
    load_all ex (chosen sele selc l) = Some (filter (fun ne => sele (fst ne)) l).
  Proof.
    induction l as [|[name e] l IH]; intros H; [reflexivity|]. unfold chosen in *. cbn [filter fst].
    destruct (sele name) eqn:Se.
    - cbn [map load_all fst snd]. rewrite (H name e (or_introl eq_refl) Se), IH; [reflexivity|].
      intros n' e' Hi. apply H. right. exact Hi.
    - apply IH. intros n' e' Hi. apply H. right. exact Hi.
  Qed.
End Proofs.
