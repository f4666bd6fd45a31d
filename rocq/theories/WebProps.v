(** C93: what the page of the web interface offers.  C94: which page is given out. *)
From Coq Require Import QArith.
From Verif Require Import Base BaseLemmas WebModel WebSpec.
From Coq Require Import ZifyBool ZifyNat Lia.

Ltac no := intros; repeat match goal with
  | X : _ /\ _ |- _ => destruct X
  | X : exists _, _ |- _ => destruct X
  | X : _ \/ _ |- _ => destruct X
  | X : False |- _ => destruct X end; try discriminate; try congruence.

Lemma forall2_weaken {A B} (P R : A -> B -> Prop) l l' : (forall a b, P a b -> R a b) -> Forall2 P l l' -> Forall2 R l l'.
Proof. intros I F. induction F; constructor; auto. Qed.

Section Page.
Context {D : Type}.
Implicit Types (a : wapp D) (e : entry D) (r : row D) (t : tab D).

Lemma rows_forall2 l : forall rs, make_rows l = Some rs <-> Forall2 (fun (ne : string * entry D) r => make_row ne = Some r) l rs.
Proof.
  induction l as [|ne l IH]; intros rs; cbn [make_rows].
  - split; intros H; [injection H as <-; constructor|inversion H; reflexivity].
  - destruct (make_row ne) as [r|] eqn:E.
    + destruct (make_rows l) as [rs'|] eqn:E'.
      * split; intros H.
        { injection H as <-. constructor; [exact E|apply IH; reflexivity]. }
        inversion H as [|? y ? ys A B]; subst. apply IH in B. congruence.
      * split; intros H; [discriminate|]. inversion H as [|? y ? ys A B]; subst. apply IH in B. discriminate.
    + split; intros H; [discriminate|]. inversion H; congruence.
Qed.

(** What a tab shows of an environment, apart from the rows. *)
Lemma tabs_forall2 p l : forall act ts, make_tabs p act l = Some ts <->
  Forall2 (fun (ne : string * wenv D) t =>
    exists b, make_tab p b (fst ne) (snd ne) = Some t) l ts /\
  (forall t ts', ts = t :: ts' -> t_active t = act /\ Forall (fun x => t_active x = false) ts').
Proof.
  assert (Act : forall b n (e : wenv D) t, make_tab (D := D) p b n e = Some t -> t_active t = b).
  { unfold make_tab. intros b n e t H. destruct (make_rows _); [|discriminate]. injection H as <-. reflexivity. }
  assert (Flag : forall b n (e : wenv D) t, make_tab (D := D) p b n e = Some t -> make_tab p (t_active t) n e = Some t).
  { intros b n e t H. rewrite (Act _ _ _ _ H). exact H. }
  induction l as [|[n e] l IH]; intros act ts; cbn [make_tabs].
  - split.
    + intros H. injection H as <-. split; [constructor|discriminate].
    + intros (H & _). inversion H. reflexivity.
  - split.
    + destruct (make_tab p act n e) as [t|] eqn:E; [|discriminate].
      destruct (make_tabs p false l) as [ts'|] eqn:E'; [|discriminate]. intros H. injection H as <-.
      apply IH in E' as (F & G). split.
      * constructor; [exists act; exact E|exact F].
      * intros t0 ts0 H. injection H as <- <-. split; [exact (Act _ _ _ _ E)|].
        destruct ts' as [|t1 ts1]; [constructor|]. destruct (G _ _ eq_refl). constructor; assumption.
    + intros (F & G). inversion F as [|? t ? ts' (b & B) F']; subst. cbn [fst snd] in B.
      destruct (G _ _ eq_refl) as (G1 & G2). rewrite <- G1, (Flag _ _ _ _ B).
      rewrite (proj2 (IH false ts')); [reflexivity|]. split; [exact F'|].
      intros t0 ts0 ->. apply Forall_cons_iff in G2. exact G2.
Qed.
Lemma peers_forall2 l : forall ps, peers_tabs l = Some ps <-> exists pss, Forall2 (two_of (D := D)) l pss /\ ps = List.concat pss.
Proof.
  induction l as [|p l IH]; intros ps; cbn [peers_tabs].
  - split; [intros H; injection H as <-; exists []; auto|]. intros (pss & F & ->). inversion F. reflexivity.
  - unfold peer_tabs. destruct (snd (pe_remote p)) as [e|] eqn:E.
    + split.
      * destruct (peers_tabs l) as [b|] eqn:E'; [|discriminate]. intros H. injection H as <-.
        destruct (proj1 (IH b) eq_refl) as (pss & F & ->).
        exists ([pe_host p; (fst (pe_remote p), e)] :: pss). split; [constructor; [exists e; auto|exact F]|reflexivity].
      * intros (pss & F & ->). inversion F as [|? q ? pss' (e' & A & ->) B]; subst.
        rewrite (proj2 (IH (List.concat pss'))) by (exists pss'; auto). rewrite A in E. injection E as ->. reflexivity.
    + split; [discriminate|]. intros (pss & F & ->). inversion F as [|? q ? pss' (e' & A & ->) B]; subst. congruence.
Qed.
Lemma page_shown p a ts : page p a = Some ts <-> exists envs, shown a envs /\ make_tabs p true envs = Some ts.
Proof.
  unfold page, shown. fold (peers_of a). split.
  - destruct (peers_tabs (peers_of a)) as [ps|] eqn:E; [|discriminate]. intros H.
    apply peers_forall2 in E as (pss & F & ->). eexists. split; [exists pss; split; [exact F|reflexivity]|exact H].
  - intros (envs & (pss & F & ->) & H). rewrite (proj2 (peers_forall2 _ (List.concat pss))) by (exists pss; auto). exact H.
Qed.

(** Every environment has its tab, in the order of the specification; the first tab,
    and only it, is the one that is shown at first; every name of an environment has
    its row, in order. *)
Theorem C93_tabs : forall p a ts, page p a = Some ts ->
  exists envs, shown a envs /\
    Forall2 (fun ne t => t_name t = fst ne /\
      Forall2 (fun n r => ro_id r = fst n /\ ro_cmd r = commandable (snd n) /\ make_row n = Some r)
        (we_names (snd ne)) (t_rows t)) envs ts /\
    (forall t ts', ts = t :: ts' -> t_active t = true /\ Forall (fun x => t_active x = false) ts').
Proof.
  intros p a ts H. apply page_shown in H as (envs & S & H). exists envs. split; [exact S|].
  apply tabs_forall2 in H as (F & G). split; [|exact G].
  eapply forall2_weaken; [|exact F]. intros [n e] t (b & B). unfold make_tab in B. cbn [fst snd] in *.
  destruct (make_rows (we_names e)) as [rs|] eqn:E; [|discriminate]. injection B as <-. cbn [t_name t_rows].
  split; [reflexivity|]. apply rows_forall2 in E. eapply forall2_weaken; [|exact E].
  intros [m x] r R. cbn [fst snd]. unfold make_row in R. destruct x as [c|f].
  - destruct (chan_controls m c) eqn:K; [|discriminate]. cbn in R. injection R as <-.
    unfold make_row. rewrite K. auto.
  - injection R as <-. auto.
Qed.

Lemma slider_some n s : (exists c, slider (D := D) n s = Some c) <-> sound_slider s.
Proof.
  unfold slider, sound_slider. destruct (Qle_bool _ _) eqn:E.
  - split; [intros (c & H); discriminate|]. intros (H & _). apply Qle_bool_iff in E. apply Qlt_not_le in H. contradiction.
  - assert (L : (num_q (sl_min s) < num_q (sl_max s))%Q).
    { apply Qnot_le_lt. intros X. apply Qle_bool_iff in X. congruence. }
    destruct (Z.eqb_spec (sl_steps s) 0) as [Z0|Z0].
    + split; [intros (c & H); discriminate|]. intros (_ & H). contradiction.
    + split; [auto|eauto].
Qed.
Lemma row_some n e : (exists r, make_row (n, e) = Some r) <-> (forall s, drawn_slider e s -> sound_slider s).
Proof.
  unfold make_row, drawn_slider. destruct e as [c|f]; [|split; [intros _ s []|eauto]].
  unfold chan_controls. destruct (wc_cmd c) eqn:C; cbn [negb].
  2:{ split; [intros _ s (X & _); discriminate|intros _; eexists; reflexivity]. }
  destruct (wc_boolean c) eqn:B.
  { split; [intros _ s (_ & X & _); discriminate|intros _; eexists; reflexivity]. }
  destruct (wc_enum c) eqn:E.
  { split; [intros _ s (_ & _ & X & _); discriminate|intros _; eexists; reflexivity]. }
  destruct (wc_slider c) as [s|] eqn:S.
  2:{ split; [intros _ s (_ & _ & _ & X); discriminate|intros _; eexists; reflexivity]. }
  split.
  - intros (r & H) s' (_ & _ & _ & X). injection X as <-. apply (slider_some n).
    destruct (slider n s); [eauto|discriminate].
  - intros H. destruct (proj2 (slider_some n s) (H s ltac:(auto))) as (k & ->). eexists; reflexivity.
Qed.
Lemma tab_some p b n (w : wenv D) : (exists t, make_tab p b n w = Some t) <->
  (forall m e s, In (m, e) (we_names w) -> drawn_slider e s -> sound_slider s).
Proof.
  unfold make_tab.
  assert (X : (exists rs, make_rows (we_names w) = Some rs) <->
    (forall m e s, In (m, e) (we_names w) -> drawn_slider e s -> sound_slider s)).
  { induction (we_names w) as [|[m e] l IH]; cbn [make_rows].
    - split; [intros _ m e s []|eauto].
    - split.
      + intros (rs & H) m' e' s [Y|Y] Ds.
        * injection Y as -> ->. destruct (make_row (m', e')) as [r|] eqn:R; [|discriminate].
          exact (proj1 (row_some m' e') (ex_intro _ _ R) s Ds).
        * destruct (make_row (m, e)); [|discriminate]. destruct (make_rows l) as [rs'|]; [|discriminate].
          exact (proj1 IH (ex_intro _ _ eq_refl) m' e' s Y Ds).
      + intros H. destruct (proj2 (row_some m e) (fun s => H m e s (or_introl eq_refl))) as (r & ->).
        destruct (proj2 IH) as (rs & ->); [|eauto]. intros m' e' s Y. apply (H m' e' s). right. exact Y. }
  destruct (make_rows (we_names w)) as [rs|].
  - split; [intros _; apply X; exists rs; reflexivity|intros _; eexists; reflexivity].
  - split; [intros (t & H); discriminate|]. intros H. destruct (proj2 X H) as (rs & Y). discriminate.
Qed.

(** There is a page exactly when every peer has shared its environment and every slider
    that would be drawn has its lower bound below its upper bound and a number of steps
    other than zero: one peer or one slider takes the page of everything away. *)
Theorem C93_composes : forall p a,
  (exists ts, page p a = Some ts) <->
  exists envs, shown a envs /\
    forall n w m e s, In (n, w) envs -> In (m, e) (we_names w) -> drawn_slider e s -> sound_slider s.
Proof.
  intros p a.
  assert (X : forall envs b, (exists ts, make_tabs p b envs = Some ts) <->
    forall n (w : wenv D) m e s, In (n, w) envs -> In (m, e) (we_names w) -> drawn_slider e s -> sound_slider s).
  { induction envs as [|[n w] l IH]; intros b; cbn [make_tabs].
    - split; [intros _ n w m e s []|eauto].
    - split.
      + intros (ts & H) n' w' m e s [Y|Y].
        * injection Y as -> ->. destruct (make_tab p b n' w') as [t|] eqn:T; [|discriminate].
          exact (proj1 (tab_some p b n' w') (ex_intro _ _ T) m e s).
        * destruct (make_tab p b n w); [|discriminate]. destruct (make_tabs p false l) as [ts'|] eqn:E; [|discriminate].
          exact (proj1 (IH false) (ex_intro _ _ E) n' w' m e s Y).
      + intros H. destruct (proj2 (tab_some p b n w)) as (t & ->).
        { intros m e s. apply (H n w m e s (or_introl eq_refl)). }
        destruct (proj2 (IH false)) as (ts & ->); [|cbn; eauto]. intros n' w' m e s Y. apply (H n' w' m e s). right. exact Y. }
  split.
  - intros (ts & H). apply page_shown in H as (envs & S & H). exists envs. split; [exact S|]. apply (X envs true). eauto.
  - intros (envs & S & H). apply (X envs true) in H as (ts & H). exists ts. apply page_shown. eauto.
Qed.

(** A peer that has not shared its environment: no page at all. *)
Theorem C93_unready_peer_refuted : forall p a q,
  In q (peers_of a) -> snd (pe_remote q) = None -> page p a = None.
Proof.
  intros p a q H N. destruct (page p a) as [ts|] eqn:E; [|reflexivity]. exfalso.
  apply page_shown in E as (envs & (pss & F & _) & _). revert pss F H. generalize (peers_of a).
  induction l as [|x l IH]; intros pss F H; [destruct H|]. inversion F as [|? y ? ys (e & A & _) B]; subst.
  destruct H as [->|H]; [congruence|eauto].
Qed.

(** A name that may be set has exactly one element to choose a value with; one that may
    not has nothing. *)
Theorem C93_one_control : forall n e r, make_row (n, e) = Some r ->
  (commandable e = true -> List.length (filter chooser (ro_ctl r)) = 1%nat) /\
  (commandable e = false -> ro_ctl r = []) /\
  Forall (fun c => ctl_id c = n) (ro_ctl r).
Proof.
  intros n e r H. unfold make_row in H. destruct e as [c|f]; cbn [commandable].
  - destruct (chan_controls n c) as [l|] eqn:K; [|discriminate]. cbn in H. injection H as <-. cbn [ro_ctl].
    unfold chan_controls in K. destruct (wc_cmd c); cbn [negb] in K.
    2:{ injection K as <-. repeat split; auto; discriminate. }
    destruct (wc_boolean c).
    { injection K as <-. destruct (wc_default c); repeat split; auto; try discriminate; repeat constructor. }
    destruct (wc_enum c). { injection K as <-. repeat split; auto; try discriminate; repeat constructor. }
    destruct (wc_slider c) as [s|].
    + destruct (slider n s) as [x|] eqn:S; [|discriminate]. cbn in K. injection K as <-.
      unfold slider in S. destruct (Qle_bool _ _); [discriminate|]. destruct (_ =? 0); [discriminate|]. injection S as <-.
      destruct (wc_default c); repeat split; auto; try discriminate; repeat constructor.
    + injection K as <-. destruct (wc_default c); repeat split; auto; try discriminate; repeat constructor.
  - injection H as <-. cbn [ro_ctl]. unfold field_controls. destruct (wf_cmd f); cbn [negb].
    2:{ repeat split; auto; discriminate. }
    destruct (_ =? 1); [repeat split; auto; try discriminate; repeat constructor|].
    destruct (wf_enum f); repeat split; auto; try discriminate; repeat constructor.
Qed.

(** Which element that is: a toggle for two states, a menu for an enumeration, an input
    box otherwise; sending is possible exactly with the box. *)
Theorem C93_which_control : forall n e r, make_row (n, e) = Some r -> commandable e = true ->
  (In (Toggle n) (ro_ctl r) <-> two_state e = true) /\
  ((exists o, In (Dropdown n o) (ro_ctl r)) <-> two_state e = false /\ enumeration e <> None) /\
  (In (Input n) (ro_ctl r) <-> two_state e = false /\ enumeration e = None) /\
  (In (Send n) (ro_ctl r) <-> In (Input n) (ro_ctl r)).
Proof.
  intros n e r H C. unfold make_row in H.
  assert (Fin : forall P Q : Prop, P -> Q -> (P <-> Q)) by tauto.
  destruct e as [c|f]; cbn [commandable two_state enumeration] in *.
  - destruct (chan_controls n c) as [l|] eqn:K; [|discriminate]. cbn in H. injection H as <-. cbn [ro_ctl].
    unfold chan_controls in K. rewrite C in K; cbn [negb] in K.
    destruct (wc_boolean c).
    { injection K as <-. destruct (wc_default c); cbn [In]; repeat split; auto; no. }
    destruct (wc_enum c) as [items|]. 
    { injection K as <-. unfold enum_dropdown. cbn [In]. repeat split; first [solve [no]|solve [intros; eexists; left; reflexivity]|solve [auto]]. }
    assert (Sl : match wc_slider c with
        | Some s => exists x y z, l = Slider n x y z :: (match wc_default c with Some d => [Reset n d] | None => [] end ++ [Input n; Send n])
        | None => l = match wc_default c with Some d => [Reset n d] | None => [] end ++ [Input n; Send n] end).
    { destruct (wc_slider c) as [s|]; [|congruence]. unfold slider in K.
      destruct (Qle_bool _ _); [discriminate|]. destruct (_ =? 0); [discriminate|]. injection K as <-. eauto. }
    assert (M : forall x, In x l -> x = Input n \/ x = Send n \/ (exists d, x = Reset n d) \/ exists u v w, x = Slider n u v w).
    { intros x X. destruct (wc_slider c); [destruct Sl as (? & ? & ? & ->)|rewrite Sl in X];
        destruct (wc_default c); cbn [In app] in X; intuition (subst; eauto 10). }
    assert (I1 : In (Input n) l) by (destruct (wc_slider c); [destruct Sl as (? & ? & ? & ->)|rewrite Sl];
        destruct (wc_default c); cbn [In app]; auto 10).
    assert (I2 : In (Send n) l) by (destruct (wc_slider c); [destruct Sl as (? & ? & ? & ->)|rewrite Sl];
        destruct (wc_default c); cbn [In app]; auto 10).
    repeat split; auto.
    + intros X. apply M in X as [X|[X|[(? & X)|(? & ? & ? & X)]]]; discriminate.
    + discriminate.
    + destruct H as (o & X). apply M in X as [X|[X|[(? & X)|(? & ? & ? & X)]]]; discriminate.
    + intros (_ & X). congruence.
  - injection H as <-. cbn [ro_ctl]. unfold field_controls. rewrite C; cbn [negb].
    destruct (wf_width f =? 1).
    { cbn [In]. repeat split; auto; no. }
    destruct (wf_enum f) as [items|].
    { unfold enum_dropdown. cbn [In]. repeat split; first [solve [no]|solve [intros; eexists; left; reflexivity]|solve [auto]]. }
    cbn [In]. repeat split; auto; try discriminate.
    + intros [X|[X|[]]]; discriminate.
    + destruct H as (o & [X|[X|[]]]); discriminate.
    + intros (_ & X). congruence.
Qed.

(** The menu of an enumeration offers exactly its members, in order, each with its own
    value, and marks exactly those that have the current value. *)
Theorem C93_menu_options : forall n e r i o, make_row (n, e) = Some r -> In (Dropdown i o) (ro_ctl r) ->
  exists items, enumeration e = Some items /\ i = n /\ map fst o = items /\
    Forall (fun x => snd x = true <-> snd (fst x) = current e) o.
Proof.
  intros n e r i o H I.
  assert (X : exists items, enumeration e = Some items /\ Dropdown i o = @enum_dropdown D n items (current e)).
  { unfold make_row in H. destruct e as [c|f]; cbn [enumeration current].
    - destruct (chan_controls n c) as [l|] eqn:K; [|discriminate]. cbn in H. injection H as <-. cbn [ro_ctl] in I.
      unfold chan_controls in K. destruct (wc_cmd c); cbn [negb] in K; [|injection K as <-; destruct I].
      destruct (wc_boolean c). { injection K as <-. destruct (wc_default c); cbn [In] in I; no. }
      destruct (wc_enum c) as [items|].
      { injection K as <-. exists items. split; [reflexivity|]. destruct I as [I|[]]. congruence. }
      destruct (wc_slider c) as [s|].
      + unfold slider in K. destruct (Qle_bool _ _); [discriminate|]. destruct (_ =? 0); [discriminate|]. injection K as <-.
        destruct (wc_default c); cbn [In app] in I; no.
      + injection K as <-. destruct (wc_default c); cbn [In app] in I; no.
    - injection H as <-. cbn [ro_ctl] in I. unfold field_controls in I. destruct (wf_cmd f); cbn [negb] in I; [|destruct I].
      destruct (_ =? 1); [cbn [In] in I; no|]. destruct (wf_enum f) as [items|]; [|cbn [In] in I; no].
      exists items. split; [reflexivity|]. destruct I as [I|[]]. congruence. }
  destruct X as (items & E & X). unfold enum_dropdown in X. injection X as -> ->. exists items.
  split; [exact E|]. split; [reflexivity|]. split.
  - rewrite map_map. rewrite <- (map_id items) at 2. apply map_ext. intros [a b]. reflexivity.
  - apply Forall_forall. intros x Hx. apply in_map_iff in Hx as ((a & b) & <- & _). cbn [fst snd].
    rewrite Z.eqb_eq. split; congruence.
Qed.

(** So with distinct values at most one member is marked, and one is exactly when the
    current value is a member's. *)
Theorem C93_marked_once : forall n e r i o, make_row (n, e) = Some r -> In (Dropdown i o) (ro_ctl r) ->
  (forall items, enumeration e = Some items -> NoDup (map snd items)) ->
  (List.length (filter snd o) <= 1)%nat /\
  (List.length (filter snd o) = 1%nat <-> exists items m, enumeration e = Some items /\ In (m, current e) items).
Proof.
  intros n e r i o H I Nd. destruct (C93_menu_options n e r i o H I) as (items & E & -> & M & F).
  specialize (Nd items E). rewrite E. clear H I E. revert items M Nd F.
  assert (Z0 : forall o : list (string * Z * bool), Forall (fun x => snd x = true <-> snd (fst x) = current e) o ->
    ~ In (current e) (map snd (map fst o)) -> filter snd o = []).
  { induction o0 as [|x o0 IH]; intros F N; [reflexivity|]. apply Forall_cons_iff in F as [F1 F]. cbn [filter map] in *.
    destruct (snd x) eqn:S; [destruct N; left; apply F1; reflexivity|]. apply IH; [exact F|]. intros X. apply N. right. exact X. }
  induction o as [|x o IH]; intros items M Nd F; cbn [map] in M.
  - subst items. cbn. split; [lia|]. split; [discriminate|]. intros (its & m & X & Y). injection X as <-. destruct Y.
  - apply Forall_cons_iff in F as [F1 F]. subst items. cbn [map] in Nd. apply NoDup_cons_iff in Nd as [N Nd].
    cbn [filter]. destruct (snd x) eqn:S.
    + assert (C : snd (fst x) = current e) by (apply F1; reflexivity). rewrite C in N.
      rewrite (Z0 o F N). cbn. split; [lia|]. split; [|auto]. intros _.
      exists (fst x :: map fst o), (fst (fst x)). split; [reflexivity|]. left. rewrite <- C. destruct (fst x); reflexivity.
    + destruct (IH (map fst o) eq_refl Nd F) as (A & B). split; [exact A|]. rewrite B. split.
      * intros (its & m & X & Y). injection X as <-. exists (fst x :: map fst o), m. split; [reflexivity|right; exact Y].
      * intros (its & m & X & Y). injection X as <-. exists (map fst o), m. split; [reflexivity|].
        destruct Y as [Y|Y]; [|exact Y]. exfalso. assert (snd (fst x) = current e) by (rewrite Y; reflexivity).
        apply F1 in H. discriminate.
Qed.

(** The button that resets one channel, exactly. *)
Theorem C93_reset_button : forall n e r i d, make_row (n, e) = Some r ->
  (In (Reset i d) (ro_ctl r) <->
   exists c, e = EChan c /\ i = n /\ wc_cmd c = true /\ wc_default c = Some d /\ (wc_boolean c = true \/ wc_enum c = None)).
Proof.
  intros n e r i d H. unfold make_row in H. destruct e as [c|f].
  - destruct (chan_controls n c) as [l|] eqn:K; [|discriminate]. cbn in H. injection H as <-. cbn [ro_ctl].
    unfold chan_controls in K. destruct (wc_cmd c) eqn:C; cbn [negb] in K.
    2:{ injection K as <-. split; [intros []|]. intros (c' & X & _ & Y & _). injection X as <-. congruence. }
    destruct (wc_boolean c) eqn:B.
    { injection K as <-. destruct (wc_default c) as [x|] eqn:Df; cbn [In]; split.
      - intros [X|[X|[]]]; [discriminate|]. injection X as -> ->. exists c. auto 6.
      - intros (c' & X & -> & _ & Y & _). injection X as <-. right. left. congruence.
      - no.
      - intros (c' & X & -> & _ & Y & _). injection X as <-. congruence. }
    destruct (wc_enum c) as [items|] eqn:E.
    { injection K as <-. split; [cbn [In]; unfold enum_dropdown; no|].
      intros (c' & X & _ & _ & _ & [Y|Y]); injection X as <-; congruence. }
    assert (G : forall l0, In (Reset i d) (match wc_default c with Some x => [Reset n x] | None => [] end ++ [Input n; Send n]) \/ l0 = @Reset D i d /\ False <->
      exists c', EChan c = EChan c' /\ i = n /\ wc_cmd c' = true /\ wc_default c' = Some d /\ (wc_boolean c' = true \/ wc_enum c' = None)).
    { intros l0. destruct (wc_default c) as [x|] eqn:Df; cbn [In app]; split.
      - intros [[X|[X|[X|[]]]]|[_ []]]; try discriminate. injection X as -> ->. exists c. auto 7.
      - intros (c' & X & -> & _ & Y & _). injection X as <-. left. left. congruence.
      - no.
      - intros (c' & X & -> & _ & Y & _). injection X as <-. congruence. }
    destruct (wc_slider c) as [s|].
    + unfold slider in K. destruct (Qle_bool _ _); [discriminate|]. destruct (_ =? 0); [discriminate|]. injection K as <-.
      rewrite <- (G (Input n)). cbn [In]. split; [intros [X|X]; [discriminate|left; exact X]|intros [X|[_ []]]; right; exact X].
    + injection K as <-. rewrite <- (G (Input n)). tauto.
  - injection H as <-. cbn [ro_ctl]. unfold field_controls. split; [|intros (c & X & _); discriminate].
    destruct (negb _); [intros []|]. destruct (_ =? 1); [cbn [In]; no|]. destruct (wf_enum f); unfold enum_dropdown; cbn [In]; no.
Qed.

(** A channel with an enumeration that may be set and has a default has no button to
    reset it. *)
Theorem C93_reset_refuted : forall n c d items r, make_row (n, EChan c) = Some r ->
  wc_cmd c = true -> wc_default c = Some d -> wc_boolean c = false -> wc_enum c = Some items ->
  forall i d', ~ In (Reset i d') (ro_ctl r).
Proof.
  intros n c d items r H _ _ B E i d' X. apply (C93_reset_button n _ r i d' H) in X as (c' & Y & _ & _ & _ & [Z|Z]);
    injection Y as <-; congruence.
Qed.

(** The sliders of a row are the one that is drawn, with the bounds of the description;
    its step is the range over the number of steps, for whole bounds without the
    fraction. *)
Theorem C93_slider : forall n e r i lo hi st, make_row (n, e) = Some r ->
  (In (Slider i lo hi st) (ro_ctl r) <->
   exists s, drawn_slider e s /\ i = n /\ lo = sl_min s /\ hi = sl_max s /\
     match lo, hi with
     | NI a, NI b => st = NI (Z.quot (b - a) (sl_steps s))
     | _, _ => st = NF ((num_q hi - num_q lo) / inject_Z (sl_steps s))
     end).
Proof.
  intros n e r i lo hi st H. unfold make_row in H. destruct e as [c|f]; cbn [drawn_slider].
  - destruct (chan_controls n c) as [l|] eqn:K; [|discriminate]. cbn in H. injection H as <-. cbn [ro_ctl].
    unfold chan_controls in K. destruct (wc_cmd c) eqn:C; cbn [negb] in K.
    2:{ injection K as <-. split; [intros []|no]. }
    destruct (wc_boolean c) eqn:B. { injection K as <-. destruct (wc_default c); cbn [In]; split; no. }
    destruct (wc_enum c) as [items|] eqn:E. { injection K as <-. unfold enum_dropdown; cbn [In]; split; no. }
    destruct (wc_slider c) as [s|].
    + unfold slider in K. destruct (Qle_bool _ _); [discriminate|]. destruct (_ =? 0); [discriminate|]. injection K as <-.
      split.
      * intros [X|X]; [|destruct (wc_default c); cbn [In app] in X; no]. injection X as -> <- <- <-. exists s.
        repeat split. destruct (sl_min s), (sl_max s); reflexivity.
      * intros (s' & (_ & _ & _ & X) & -> & -> & -> & Y). injection X as <-. left. f_equal.
        destruct (sl_min s), (sl_max s); symmetry; exact Y.
    + injection K as <-. split; [|no]. destruct (wc_default c); cbn [In app]; no.
  - injection H as <-. cbn [ro_ctl]. unfold field_controls. split; [|no].
    destruct (negb _); [intros []|]. destruct (_ =? 1); [cbn [In]; no|]. destruct (wf_enum f); unfold enum_dropdown; cbn [In]; no.
Qed.

(** A slider with whole bounds closer together than its number of steps has step 0. *)
Theorem C93_slider_step_refuted : forall n e r s (a b : Z), make_row (n, e) = Some r -> drawn_slider e s ->
  sl_min s = NI a -> sl_max s = NI b -> b - a < sl_steps s ->
  In (Slider n (NI a) (NI b) (NI 0)) (ro_ctl r).
Proof.
  intros n e r s a b H Ds A B L. apply (C93_slider n e r n _ _ _ H). exists s. rewrite A, B.
  repeat split; auto. f_equal. symmetry.
  assert (S : sound_slider s) by (apply (proj1 (row_some n e) (ex_intro _ r H) s Ds)).
  destruct S as (S & _). rewrite A, B in S. cbn [num_q] in S. rewrite <- Zlt_Qlt in S. apply Z.quot_small. lia.
Qed.

(** The button that resets everything is there exactly when two channels have a
    default. *)
Theorem C93_reset_all : forall p b n (w : wenv D) t, make_tab p b n w = Some t ->
  (t_reset_all t = true <->
   exists l1 n1 c1 l2 n2 c2 l3, we_names w = l1 ++ (n1, EChan c1) :: l2 ++ (n2, EChan c2) :: l3 /\
     wc_default c1 <> None /\ wc_default c2 <> None).
Proof.
  intros p b n w t H. unfold make_tab in H. destruct (make_rows _) as [rws|]; [|discriminate]. injection H as <-. cbn [t_reset_all].
  clear rws. unfold num_defaults. generalize (we_names w) as l. intros l.
  set (f := fun ne : string * entry D => match snd ne with EChan c => match wc_default c with Some _ => true | None => false end | _ => false end).
  assert (Ff : forall m e, f (m, e) = true <-> exists c, e = EChan c /\ wc_default c <> None).
  { intros m e. unfold f. cbn [snd]. destruct e as [c|x].
    - destruct (wc_default c) eqn:E; split; intros X; try discriminate; auto.
      + exists c. split; [reflexivity|congruence].
      + destruct X as (c' & Y & Z). injection Y as <-. congruence.
    - split; [discriminate|]. intros (c & X & _). discriminate. }
  assert (Two : (1 < List.length (filter f l))%nat <-> exists l1 x l2 y l3, l = l1 ++ x :: l2 ++ y :: l3 /\ f x = true /\ f y = true).
  { split.
    - assert (One : forall l, filter f l <> [] -> exists l2 y l3, l = l2 ++ y :: l3 /\ f y = true).
      { induction l0 as [|x l0 IH]; cbn [filter]; [congruence|]. destruct (f x) eqn:E.
        - intros _. exists [], x, l0. auto.
        - intros X. destruct (IH X) as (l2 & y & l3 & -> & Y). exists (x :: l2), y, l3. auto. }
      induction l as [|x l IH]; cbn [filter List.length]; [lia|]. destruct (f x) eqn:E; cbn [List.length]; intros L.
      + destruct (One l) as (l2 & y & l3 & -> & Y); [intros X; rewrite X in L; cbn in L; lia|].
        exists [], x, l2, y, l3. auto.
      + destruct (IH L) as (l1 & x' & l2 & y & l3 & -> & X & Y). exists (x :: l1), x', l2, y, l3. auto.
    - intros (l1 & x & l2 & y & l3 & -> & X & Y). rewrite filter_app. cbn [filter]. rewrite X, filter_app. cbn [filter]. rewrite Y.
      rewrite app_length. cbn [List.length]. rewrite app_length. cbn [List.length]. lia. }
  rewrite Nat.ltb_lt, Two. split.
  - intros (l1 & (n1 & e1) & l2 & (n2 & e2) & l3 & -> & X & Y). apply Ff in X as (c1 & -> & X). apply Ff in Y as (c2 & -> & Y).
    exists l1, n1, c1, l2, n2, c2, l3. auto.
  - intros (l1 & n1 & c1 & l2 & n2 & c2 & l3 & -> & X & Y). exists l1, (n1, EChan c1), l2, (n2, EChan c2), l3.
    split; [reflexivity|]. split; apply Ff; eauto.
Qed.

(** The command menu: the custom commands in order with the first one chosen, or an
    unusable menu when there are none. *)
Theorem C93_commands : forall p b n (w : wenv D) t, make_tab p b n w = Some t ->
  (we_cmds w <> [] -> map fst (fst (t_menu t)) = we_cmds w /\ snd (t_menu t) = true /\
     exists c cs, fst (t_menu t) = (c, true) :: cs /\ Forall (fun x => snd x = false) cs) /\
  (we_cmds w = [] -> snd (t_menu t) = false).
Proof.
  intros p b n w t H. unfold make_tab in H. destruct (make_rows _); [|discriminate]. injection H as <-. cbn [t_menu].
  destruct (we_cmds w) as [|c cs]; cbn; [split; auto; congruence|]. split; [|discriminate]. intros _.
  split; [|split; [reflexivity|]].
  - f_equal. rewrite map_map. cbn. apply map_id.
  - exists c, (map (fun x => (x, false)) cs). split; [reflexivity|]. apply Forall_forall. intros x X.
    apply in_map_iff in X as (y & <- & _). reflexivity.
Qed.

(** What is shown of a name without a description, and with one. *)
Theorem C93_description : forall n e r, make_row (n, e) = Some r ->
  ro_tip r = match description e with
             | Some EmptyString | None => ("No description for '" ++ n ++ "'.")%string
             | Some d => d
             end.
Proof.
  intros n e r H. unfold make_row in H. destruct e as [c|f]; cbn [description].
  - destruct (chan_controls n c); [|discriminate]. cbn in H. injection H as <-. cbn [ro_tip]. destruct (wc_desc c) as [[|]|]; reflexivity.
  - injection H as <-. cbn [ro_tip]. destruct (wf_desc f) as [[|]|]; reflexivity.
Qed.

Lemma append_inj p (x y : string) : (p ++ x)%string = (p ++ y)%string -> x = y.
Proof. induction p as [|c p IH]; cbn; [auto|]. intros H. injection H as H. auto. Qed.

(** Two tabs have one id exactly when they have one name, so ids are distinct exactly
    when no two of the environments have the same name. *)
Theorem C93_tab_ids : forall p a ts, page p a = Some ts ->
  (NoDup (map t_content ts) <-> NoDup (map t_name ts)) /\
  forall t, In t ts -> t_content t = (p ++ "-" ++ t_name t)%string /\ t_button t = (t_content t ++ "-tab")%string.
Proof.
  intros p a ts H. apply page_shown in H as (envs & _ & H). apply tabs_forall2 in H as (F & _).
  assert (X : forall t, In t ts -> t_content t = (p ++ "-" ++ t_name t)%string /\ t_button t = (t_content t ++ "-tab")%string).
  { induction F as [|[n w] t l ts' (b & B) F IH]; intros t0 I; [destruct I|]. destruct I as [<-|I]; [|auto].
    unfold make_tab in B. destruct (make_rows _); [|discriminate]. injection B as <-. cbn [t_content t_name t_button].
    split; [reflexivity|].
    assert (As : forall u v w : string, ((u ++ v) ++ w)%string = (u ++ v ++ w)%string).
    { induction u as [|c u IHu]; intros v' w'; cbn; [reflexivity|]. f_equal. apply IHu. }
    rewrite As. reflexivity. }
  split; [|exact X].
  assert (E : map t_content ts = map (fun x => (p ++ "-" ++ x)%string) (map t_name ts)).
  { rewrite map_map. apply map_ext_in. intros t I. apply X, I. }
  rewrite E. split.
  - apply NoDup_map_inv.
  - clear E X. intros N. induction N as [|x l Nx N IH]; cbn [map]; constructor; auto.
    intros Y. apply in_map_iff in Y as (y & Y & I). apply append_inj in Y. apply (append_inj "-") in Y. subst y. contradiction.
Qed.

(** Ids of elements are not unique: every control of a row has the id of the row. *)
Theorem C93_element_ids_refuted : forall n e r, make_row (n, e) = Some r -> commandable e = true ->
  exists c, In c (ro_ctl r) /\ ctl_id c = ro_id r.
Proof.
  intros n e r H C. destruct (C93_one_control n e r H) as (A & _ & B). specialize (A C).
  destruct (ro_ctl r) as [|c l] eqn:E; [discriminate|]. exists c. split; [left; reflexivity|].
  apply Forall_cons_iff in B as [B _]. rewrite B. unfold make_row in H. destruct e as [k|f].
  - destruct (chan_controls n k); [|discriminate]. cbn in H. injection H as <-. reflexivity.
  - injection H as <-. reflexivity.
Qed.
End Page.

(** A connection and a task with one name: two tabs with one id. *)
Theorem C93_tab_ids_refuted : exists (a : wapp Z) ts, page "runtimepy" a = Some ts /\
  NoDup (map fst (wa_conns a)) /\ NoDup (map fst (wa_tasks a)) /\ ~ NoDup (map t_content ts).
Proof.
  exists (mkWapp [("a"%string, mkWenv [] [])] [("a"%string, mkWenv [] [])] [] [] None). eexists. split; [reflexivity|].
  split; [repeat constructor; intros []|]. split; [repeat constructor; intros []|]. cbn. intros N. apply NoDup_cons_iff in N as [N _]. apply N. left. reflexivity.
Qed.
Print Assumptions C93_tabs.
Print Assumptions C93_composes.
Print Assumptions C93_unready_peer_refuted.
Print Assumptions C93_one_control.
Print Assumptions C93_which_control.
Print Assumptions C93_menu_options.
Print Assumptions C93_marked_once.
Print Assumptions C93_reset_button.
Print Assumptions C93_reset_refuted.
Print Assumptions C93_slider.
Print Assumptions C93_slider_step_refuted.
Print Assumptions C93_reset_all.
Print Assumptions C93_commands.
Print Assumptions C93_description.
Print Assumptions C93_tab_ids.
Print Assumptions C93_element_ids_refuted.
Print Assumptions C93_tab_ids_refuted.

Section Kept.
Context {W Doc : Type}.
Implicit Types (x : wapplication W Doc) (h : list (wapplication W Doc * W)).

Lemma serve_app h1 : forall docs h2, serve docs (h1 ++ h2) =
  let '(d1, r1) := serve docs h1 in let '(d2, r2) := serve d1 h2 in (d2, r1 ++ r2).
Proof.
  induction h1 as [|[x w] h1 IH]; intros docs h2; cbn [app serve].
  - destruct (serve docs h2). reflexivity.
  - destruct (cached_app x w docs) as [d r]. rewrite IH. destruct (serve d h1) as [d1 r1]. destruct (serve d1 h2). reflexivity.
Qed.
Lemma serve_length h : forall docs, List.length (snd (serve docs h)) = List.length h.
Proof.
  induction h as [|[x w] h IH]; intros docs; cbn [serve]; [reflexivity|]. destruct (cached_app x w docs) as [d r].
  specialize (IH d). destruct (serve d h). cbn in *. lia.
Qed.
Lemma last_snoc name (l : list (wapplication W Doc * W * option Doc)) x w r :
  last_of name (l ++ [(x, w, r)]) =
  match (if String.eqb name (ap_name x) then r else None) with Some d => Some d | None => last_of name l end.
Proof.
  induction l as [|[[y v] q] l IH]; cbn [app last_of].
  - destruct (String.eqb name (ap_name x)); [destruct r|]; reflexivity.
  - rewrite IH. destruct (if String.eqb name (ap_name x) then r else None); [reflexivity|].
    destruct (last_of name l); reflexivity.
Qed.
Lemma combine_snoc {A B} (l : list A) : forall (l' : list B) u v, List.length l = List.length l' ->
  combine (l ++ [u]) (l' ++ [v]) = combine l l' ++ [(u, v)].
Proof. induction l as [|y l IH]; intros [|z l'] u v E; cbn in *; try lia; [reflexivity|]. f_equal. apply IH. lia. Qed.

(** What is kept is, under every name, the last document that was given out. *)
Lemma serve_docs h : forall name,
  dget name (fst (serve ([] : documents (Doc := Doc)) h)) = last_of name (combine h (snd (serve [] h))).
Proof.
  induction h as [|[x w] h IH] using rev_ind; intros name; [reflexivity|].
  pose proof (serve_app h [] [(x, w)]) as E. cbn [serve] in E.
  pose proof (serve_length h ([] : documents (Doc := Doc))) as L.
  destruct (serve [] h) as [d1 r1]. cbn [fst snd] in *. unfold cached_app in E.
  rewrite E. clear E.
  destruct (if ap_caching x then dget (ap_name x) d1 else None) as [d|] eqn:Q.
  - cbn [fst snd]. rewrite combine_snoc by lia. rewrite last_snoc, <- IH.
    destruct (String.eqb_spec name (ap_name x)) as [->|]; [|reflexivity].
    destruct (ap_caching x); [exact Q|discriminate].
  - destruct (ap_compose x w) as [d|]; cbn [fst snd]; rewrite combine_snoc by lia; rewrite last_snoc, <- IH.
    + destruct (String.eqb_spec name (ap_name x)) as [->|N].
      * rewrite dget_dset_eq. reflexivity.
      * apply dget_dset_ne. exact N.
    + destruct (String.eqb name (ap_name x)); reflexivity.
Qed.

(** Every answer of every history: an application that keeps its page answers with the
    last document that was given out under the name of its composing function, by
    whatever application; if there is none, or if it does not keep its page, with what
    it composes now. *)
Theorem C94_answer : forall h x w h' rs, snd (serve [] (h ++ (x, w) :: h')) = rs ->
  exists before r after, rs = before ++ r :: after /\ List.length before = List.length h /\
    r = match (if ap_caching x then last_of (ap_name x) (combine h before) else None) with
        | Some d => Some d
        | None => ap_compose x w
        end.
Proof.
  intros h x w h' rs <-. rewrite serve_app. pose proof (serve_docs h (ap_name x)) as K.
  pose proof (serve_length h ([] : documents (Doc := Doc))) as L.
  destruct (serve [] h) as [d1 r1]. cbn [fst snd] in *. cbn [serve].
  destruct (cached_app x w d1) as [d2 r] eqn:E. destruct (serve d2 h') as [d3 r3]. cbn [snd].
  exists r1, r, r3. split; [reflexivity|]. split; [exact L|]. rewrite <- K.
  unfold cached_app in E. destruct (if ap_caching x then dget (ap_name x) d1 else None).
  - injection E as _ <-. reflexivity.
  - destruct (ap_compose x w); injection E as _ <-; reflexivity.
Qed.

(** Without keeping, every request is answered with a page of its own moment. *)
Theorem C94_fresh : forall h x w h', ap_caching x = false ->
  nth_error (snd (serve [] (h ++ (x, w) :: h'))) (List.length h) = Some (ap_compose x w).
Proof.
  intros h x w h' C. destruct (C94_answer h x w h' _ eq_refl) as (b & r & a & -> & L & ->).
  rewrite C. rewrite nth_error_app2 by lia. rewrite <- L, Nat.sub_diag. reflexivity.
Qed.

Lemma last_none name (l : list (wapplication W Doc * W * option Doc)) : (forall y v r, In (y, v, r) l -> ap_name y = name -> r = None) -> last_of name l = None.
Proof.
  induction l as [|[[y v] r] l IH]; intros H; cbn [last_of]; [reflexivity|].
  rewrite IH by (intros y' v' r' I; apply (H y' v' r'); right; exact I).
  destruct (String.eqb_spec name (ap_name y)) as [->|]; [|reflexivity]. apply (H y v r); [left; reflexivity|reflexivity].
Qed.
Lemma last_in name (l : list (wapplication W Doc * W * option Doc)) d : last_of name l = Some d -> exists y v, In (y, v, Some d) l /\ ap_name y = name.
Proof.
  induction l as [|[[y v] r] l IH]; cbn [last_of]; [discriminate|]. destruct (last_of name l) as [d'|].
  - intros E. injection E as ->. destruct (IH eq_refl) as (y' & v' & I & N). exists y', v'. split; [right; exact I|exact N].
  - destruct (String.eqb_spec name (ap_name y)) as [->|]; [|discriminate]. intros ->. exists y, v. split; [left|]; reflexivity.
Qed.
Lemma answers_of_compose h : forall y v d, In (y, v, Some d) (combine h (snd (serve [] h))) ->
  exists z u, In (z, u) h /\ ap_name z = ap_name y /\ ap_compose z u = Some d.
Proof.
  induction h as [|[x w] h IH] using rev_ind; intros y v d I; [destruct I|].
  pose proof (serve_app h [] [(x, w)]) as E. cbn [serve] in E. pose proof (serve_docs h (ap_name x)) as K.
  pose proof (serve_length h ([] : documents (Doc := Doc))) as L.
  destruct (serve [] h) as [d1 r1]. cbn [fst snd] in *. destruct (cached_app x w d1) as [d2 r] eqn:Q. rewrite E in I. cbn [snd] in I.
  rewrite combine_snoc in I by lia. apply in_app_or in I as [I|[I|[]]].
  - destruct (IH y v d I) as (z & u & A & B). exists z, u. split; [apply in_or_app; left; exact A|exact B].
  - injection I as -> -> ->. unfold cached_app in Q.
    destruct (if ap_caching y then dget (ap_name y) d1 else None) as [d'|] eqn:G.
    + injection Q as _ ->. destruct (ap_caching y); [|discriminate]. rewrite G in K. symmetry in K.
      apply last_in in K as (z & u & A & N). destruct (IH z u d A) as (z' & u' & A' & N' & C').
      exists z', u'. split; [apply in_or_app; left; exact A'|]. split; [congruence|exact C'].
    + destruct (ap_compose y v) eqn:C; injection Q as _ Q; [|discriminate]. exists y, v.
      split; [apply in_or_app; right; left; reflexivity|]. split; [reflexivity|]. congruence.
Qed.

(** If no other application composes under its name, whatever an application answers it
    composed itself, at that request or an earlier one. *)
Theorem C94_own_page : forall h x w h' d,
  (forall y v, In (y, v) h -> ap_name y = ap_name x -> y = x) ->
  nth_error (snd (serve [] (h ++ (x, w) :: h'))) (List.length h) = Some (Some d) ->
  ap_compose x w = Some d \/ exists v, In (x, v) h /\ ap_compose x v = Some d.
Proof.
  intros h x w h' d U H. rewrite serve_app in H. pose proof (serve_docs h (ap_name x)) as K.
  pose proof (answers_of_compose h) as An. pose proof (serve_length h ([] : documents (Doc := Doc))) as L.
  destruct (serve [] h) as [d1 r1]. cbn [fst snd] in *. cbn [serve] in H.
  destruct (cached_app x w d1) as [d2 r] eqn:Q. destruct (serve d2 h') as [d3 r3]. cbn [snd] in H.
  rewrite nth_error_app2 in H by lia. rewrite L, Nat.sub_diag in H. injection H as ->. unfold cached_app in Q.
  destruct (if ap_caching x then dget (ap_name x) d1 else None) as [d'|] eqn:G.
  - right. injection Q as _ ->. destruct (ap_caching x); [|discriminate]. rewrite G in K. symmetry in K.
    apply last_in in K as (z & u & A & N). destruct (An z u d A) as (z' & u' & A' & N' & C').
    assert (z' = x) by (apply (U z' u' A'); congruence). subst z'. eauto.
  - left. destruct (ap_compose x w); injection Q as _ Q; congruence.
Qed.

(** Once an application that keeps its page has answered, it answers the same for ever,
    whatever happens, as long as every application of that name keeps its page. *)
Theorem C94_kept_for_ever : forall h x w h2 w' h' d,
  (forall y v, In (y, v) (h ++ (x, w) :: h2) -> ap_name y = ap_name x -> ap_caching y = true) -> ap_caching x = true ->
  nth_error (snd (serve [] (h ++ (x, w) :: h2 ++ (x, w') :: h'))) (List.length h) = Some (Some d) ->
  nth_error (snd (serve [] (h ++ (x, w) :: h2 ++ (x, w') :: h'))) (List.length h + S (List.length h2)) = Some (Some d).
Proof.
  intros h x w h2 w' h' d All C H.
  assert (Keep : forall (l : list (wapplication W Doc * W)) docs, (forall y v, In (y, v) l -> ap_name y = ap_name x -> ap_caching y = true) ->
    dget (ap_name x) docs = Some d -> dget (ap_name x) (fst (serve docs l)) = Some d).
  { induction l as [|[y v] l IH]; intros docs A G; cbn [serve]; [exact G|].
    destruct (cached_app y v docs) as [d1 r] eqn:Q. specialize (IH d1).
    destruct (serve d1 l) as [d2 r2]. cbn [fst] in *. apply IH; [intros y' v' I; apply A with v'; right; exact I|].
    unfold cached_app in Q. destruct (String.eqb_spec (ap_name y) (ap_name x)) as [N|N].
    - rewrite (A y v (or_introl eq_refl) N), N, G in Q. injection Q as <- _. exact G.
    - destruct (if ap_caching y then _ else None); [injection Q as <- _; exact G|].
      destruct (ap_compose y v); injection Q as <- _; [|exact G]. rewrite dget_dset_ne; [exact G|congruence]. }
  rewrite serve_app in *. pose proof (serve_length h ([] : documents (Doc := Doc))) as L.
  destruct (serve [] h) as [d1 r1]. cbn [fst snd] in *. cbn [serve] in *.
  destruct (cached_app x w d1) as [d2 r] eqn:Q. rewrite serve_app in *.
  specialize (Keep h2 d2). pose proof (serve_length h2 d2) as L2. destruct (serve d2 h2) as [d3 r3]. cbn [fst snd] in *. cbn [serve] in *.
  destruct (cached_app x w' d3) as [d4 r4] eqn:Q'. destruct (serve d4 h') as [d5 r5]. cbn [snd] in *.
  rewrite nth_error_app2 in H by lia. rewrite L, Nat.sub_diag in H. injection H as ->.
  rewrite nth_error_app2 by lia. replace (_ + _ - _)%nat with (S (List.length h2)) by lia. cbn [nth_error].
  rewrite nth_error_app2 by lia. rewrite L2, Nat.sub_diag. cbn [nth_error]. f_equal.
  assert (G : dget (ap_name x) d2 = Some d).
  { unfold cached_app in Q. rewrite C in Q. destruct (dget (ap_name x) d1) eqn:G1.
    - injection Q as <- ->. exact G1.
    - destruct (ap_compose x w); injection Q as <- Q; [|discriminate]. rewrite Q. apply dget_dset_eq. }
  assert (G3 : dget (ap_name x) d3 = Some d).
  { apply Keep; [|exact G]. intros y v I. apply All with v. apply in_or_app. right. right. exact I. }
  unfold cached_app in Q'. rewrite C, G3 in Q'. injection Q' as _ <-. reflexivity.
Qed.

(** All applications made with [create_app] share one name: whichever is asked first,
    its page is what all of them answer, if they keep pages. *)
Theorem C94_own_page_refuted : forall (f g : W -> option Doc) w w' d, f w = Some d ->
  snd (serve [] [(create_app true f, w); (create_app true g, w')]) = [Some d; Some d].
Proof.
  intros f g w w' d E. cbn [serve]. unfold cached_app, create_app. cbn [ap_caching ap_name ap_compose dget]. rewrite E.
  rewrite dget_dset_eq. reflexivity.
Qed.

(** An application that does not keep its page still leaves it for those that do. *)
Theorem C94_uncached_leaks_refuted : forall (f g : W -> option Doc) w w' d, f w = Some d ->
  snd (serve [] [(create_app false f, w); (create_app true g, w')]) = [Some d; Some d].
Proof.
  intros f g w w' d E. cbn [serve]. unfold cached_app, create_app. cbn [ap_caching ap_name ap_compose dget]. rewrite E.
  rewrite dget_dset_eq. reflexivity.
Qed.

(** A page that could not be composed is composed again at the next request. *)
Theorem C94_retry : forall x w w', ap_compose x w = None ->
  snd (serve [] [(x, w); (x, w')]) = [None; ap_compose x w'].
Proof.
  intros x w w' E. cbn [serve]. unfold cached_app. cbn [dget]. rewrite E.
  destruct (ap_caching x); cbn [dget]; destruct (ap_compose x w'); reflexivity.
Qed.
End Kept.

(** So the page of a kept application does not follow the program: what is marked as the
    current value, and which channels there are, stay as they were at the first
    request. *)
Definition ex_light (v : Z) : wapp Z :=
  mkWapp [] [("lights"%string, mkWenv [("color"%string,
    EChan (mkWchan false true (Some [("red"%string, 0); ("green"%string, 1)]) v (Some 0) None None))] [])] [] [] None.
Theorem C94_current_refuted :
  exists (w w' : wapp Z) ts ts', page "runtimepy" w = Some ts /\ page "runtimepy" w' = Some ts' /\ ts <> ts' /\
    snd (serve [] [(create_app true (page "runtimepy"), w); (create_app true (page "runtimepy"), w')]) = [Some ts; Some ts].
Proof.
  exists (ex_light 0), (ex_light 1). eexists. eexists. split; [reflexivity|]. split; [reflexivity|]. split; [discriminate|].
  apply C94_own_page_refuted. reflexivity.
Qed.
Print Assumptions C94_answer.
Print Assumptions C94_fresh.
Print Assumptions C94_own_page.
Print Assumptions C94_kept_for_ever.
Print Assumptions C94_own_page_refuted.
Print Assumptions C94_uncached_leaks_refuted.
Print Assumptions C94_retry.
Print Assumptions C94_current_refuted.

(** A page with every kind of row. *)
Definition ex_env : wenv Z := mkWenv
  [("gain"%string, EChan (mkWchan false true None 5 (Some 5) (Some (mkSlider (NI 0) (NI 10) 64)) (Some "The gain."%string)));
   ("on"%string, EChan (mkWchan true true None 1 (Some 1) None None));
   ("mode"%string, EField (mkWfield 2 true (Some [("idle"%string, 0); ("run"%string, 1)]) 1 None));
   ("busy"%string, EField (mkWfield 1 false None 0 None))] ["reset"%string; "save"%string].
Example ex_page : exists t, page "runtimepy" (mkWapp [("link"%string, ex_env)] [] [] [] None) = Some [t] /\
  t_active t = true /\ t_reset_all t = true /\ map (@ro_ctl Z) (t_rows t) =
  [[Slider "gain" (NI 0) (NI 10) (NI 0); Reset "gain" 5; Input "gain"; Send "gain"];
   [Toggle "on"; Reset "on" 1];
   [Dropdown "mode" [("idle"%string, 0, false); ("run"%string, 1, true)]];
   []].
Proof. eexists. split; [reflexivity|]. auto. Qed.
Example ex_kept : exists ts, page "runtimepy" (ex_light 0) = Some ts /\
  nth_error (snd (serve [] [(create_app true (page "runtimepy"), ex_light 0); (create_app true (page "runtimepy"), ex_light 1)])) 1 = Some (Some ts).
Proof. eexists. split; reflexivity. Qed.
Example ex_fresh : ap_caching (create_app false (page (D := Z) "runtimepy")) = false /\
  nth_error (snd (serve [] [(create_app false (page "runtimepy"), ex_light 0); (create_app false (page "runtimepy"), ex_light 1)])) 1
  = Some (page "runtimepy" (ex_light 1)).
Proof. split; reflexivity. Qed.
Example ex_retry : page "runtimepy" (mkWapp [] [] [] [mkWpeer ("p.host"%string, ex_env) ("p.peer"%string, None)] None) = None.
Proof. reflexivity. Qed.
