(** More about the NP-05B connection: what is sent, what is shown before the first
    report, what a toggle asks for, and that nothing raises. *)
From Verif Require Import Base BaseLemmas PyStrModel PyStrProofs TaskModel Np05bModel Np05bSpec Np05bProofs Np05bProps.
From Coq Require Import ZifyBool ZifyNat Lia.
Open Scope list_scope.
Open Scope Z_scope.

(** C71.  The line breaks. *)
Theorem C71_line_breaks : forall x, is_break x = true <-> In x [10; 11; 12; 13; 28; 29; 30; 133; 8232; 8233].
Proof. intros x. unfold is_break. cbn [In]. lia. Qed.
Print Assumptions C71_line_breaks.

(** C71.  Until the device reports states, every outlet is unknown and every
    channel off, whatever else it sends; and a status query that is answered at all
    gives one permission. *)
Theorem C71_unknown_until_reported : forall ports items, Forall (item_ok ports) items ->
  (forall i bits, In i items -> status_of i <> Some (RBits bits)) ->
  np_text (np_init ports) (on_wire (flat_map item_lines items)) =
    NGo (mkNp [] (repeat None ports) (repeat false ports)
           (List.length (filter (fun i => match status_of i with Some _ => true | None => false end) items))).
Proof.
  intros ports items F N. destruct (C71_exchanges ports (np_init ports) items) as [E _].
  - split; cbn [np_init n_outlets n_chans]; apply repeat_length.
  - reflexivity.
  - exact F.
  - rewrite E. f_equal. change (np_init ports) with (mkNp [] (repeat None ports) (repeat false ports) 0). clear E F.
    assert (G : forall n, fold_left (fun s i => after_item i s) items (mkNp [] (repeat None ports) (repeat false ports) n) =
      mkNp [] (repeat None ports) (repeat false ports) (n + List.length (filter (fun i => match status_of i with Some _ => true | None => false end) items))); [|apply G].
    induction items as [|i items IH]; intros n; [cbn; rewrite Nat.add_0_r; reflexivity|]. cbn [fold_left filter].
    assert (N' : forall j bits, In j items -> status_of j <> Some (RBits bits)) by (intros j bits H; apply N; right; exact H).
    unfold after_item at 2. destruct (status_of i) as [[|bits|d]|] eqn:St.
    + cbn [n_prev n_outlets n_chans n_sem List.length]. rewrite (IH N'). f_equal. lia.
    + destruct (N i bits (or_introl eq_refl) St).
    + cbn [n_prev n_outlets n_chans n_sem List.length]. rewrite (IH N'). f_equal. lia.
    + apply (IH N').
Qed.
Print Assumptions C71_unknown_until_reported.
Example C71_unknown_case : Forall (item_ok 3) [Noise (lit ">"); Pair CmdStatus [] [] (RFail (lit ",busy")); Joined CmdSet (lit " 1 1") ROk] /\
  np_text (np_init 3) (on_wire (flat_map item_lines [Noise (lit ">"); Pair CmdStatus [] [] (RFail (lit ",busy")); Joined CmdSet (lit " 1 1") ROk])) =
    NGo (mkNp [] (repeat None 3) (repeat false 3) 1).
Proof.
  split; [|vm_compute; reflexivity].
  assert (P : forall l, forallb (fun x => negb (is_break x) && negb (x =? 36)) l = true -> plain l).
  { intros l H. rewrite forallb_forall in H. apply Forall_forall. intros x Hx. specialize (H x Hx). apply andb_prop in H. destruct H as [H1 H2].
    split; [destruct (is_break x); [discriminate|reflexivity]|lia]. }
  constructor; [apply P; reflexivity|]. constructor; [|constructor; [|constructor]].
  - split; [constructor|]. split; [constructor|]. split; [apply P; reflexivity|]. right. eexists. reflexivity.
  - split; [apply P; reflexivity|discriminate].
Qed.

(** C72.  The command that is sent names the outlet and the state, in one line. *)
Theorem C72_command : forall (idx : Z) (state : bool),
  let args := lit " " ++ dec idx ++ lit " " ++ (if state then lit "1" else lit "0") in
  set_message idx state = on_wire [cmd_text CmdSet ++ args] /\ plain args /\
  status_message = on_wire [cmd_text CmdStatus].
Proof.
  intros idx state args. unfold set_message, np_message, status_message, np_message, args, on_wire. cbn [join map List.concat np_value cmd_text].
  split; [|split; [|reflexivity]].
  - rewrite !app_nil_r. change (lit "$A3" ++ 32 :: dec idx ++ 32 :: (if state then lit "1" else lit "0")) with (lit "$A3" ++ lit " " ++ dec idx ++ lit " " ++ (if state then lit "1" else lit "0")). reflexivity.
  - apply plain_app; [apply plain_cons; [reflexivity|discriminate|constructor]|]. apply plain_app; [apply dec_plain|].
    apply plain_app; [apply plain_cons; [reflexivity|discriminate|constructor]|]. destruct state; (apply plain_cons; [reflexivity|discriminate|constructor]).
Qed.
Print Assumptions C72_command.

(** C72.  Different requests are different commands. *)
Theorem C72_command_injective : forall i j s t, 0 <= i -> 0 <= j -> set_message i s = set_message j t -> i = j /\ s = t.
Proof.
  intros i j s t Hi Hj E. unfold set_message, np_message in E. cbn [join] in E. apply app_inv_tail in E.
  change (np_value SetOutlet ++ 32 :: dec i ++ 32 :: (if s then lit "1" else lit "0")) with (lit "$A3 " ++ dec i ++ 32 :: (if s then lit "1" else lit "0")) in E.
  change (np_value SetOutlet ++ 32 :: dec j ++ 32 :: (if t then lit "1" else lit "0")) with (lit "$A3 " ++ dec j ++ 32 :: (if t then lit "1" else lit "0")) in E.
  apply app_inv_head in E. destruct (dec_nonneg i Hi) as (l & El & Fl & _ & Vl). destruct (dec_nonneg j Hj) as (m & Em & Fm & _ & Vm). rewrite El, Em in E.
  assert (G : forall a b x y, Forall is_digit a -> Forall is_digit b -> a ++ 32 :: x = b ++ 32 :: y -> a = b /\ x = y).
  { induction a as [|c a IH]; intros [|d b] x y Fa Fb H; cbn [app] in H.
    - injection H as H. auto.
    - injection H as H0 H. subst d. inversion Fb as [|? ? D _]. unfold is_digit in D. lia.
    - injection H as H0 H. subst c. inversion Fa as [|? ? D _]. unfold is_digit in D. lia.
    - injection H as H0 H. subst d. inversion Fa; inversion Fb; subst. destruct (IH b x y) as [-> ->]; auto. }
  destruct (G _ _ _ _ Fl Fm E) as [-> E2]. split; [lia|]. destruct s, t; (reflexivity || discriminate).
Qed.
Print Assumptions C72_command_injective.

(** C72.  What a command on an outlet's channel asks for: a toggle of a known outlet
    the opposite (so it is always sent to the device), everything else the value that
    was given, if it is one. *)
Theorem C72_toggle : forall ports s idx b given, sized ports s -> 1 <= idx <= Z.of_nat ports ->
  nth_error (n_outlets s) (Z.to_nat (idx - 1)) = Some (Some b) ->
  exists wanted, np_target true (Some b) given = Some wanted /\ wanted <> b /\
    np_begin ports idx wanted s = BSend (Z.to_nat (idx - 1)) /\ np_begin ports idx b s = BTrue.
Proof.
  intros ports s idx b given S R H. exists (negb b). split; [reflexivity|]. split; [destruct b; discriminate|].
  unfold np_begin. replace ((0 <=? idx - 1) && (idx - 1 <=? Z.of_nat ports)) with true by lia. rewrite H. destruct b; split; reflexivity.
Qed.
Theorem C72_explicit : forall curr given, np_target false curr given = given /\ np_target true None given = given.
Proof. intros curr given. split; reflexivity. Qed.
Print Assumptions C72_toggle.
Print Assumptions C72_explicit.

Lemma reply_goes ports s0 d0 ops p e r rs : pinv ports s0 d0 ops p -> p_replies p = (e, r) :: rs ->
  exists s, np_text (p_np p) (e ++ [13; 10] ++ r ++ [13; 10]) = NGo s.
Proof.
  intros [Ip Is Id Il Ic Ik] Rp. destruct (p_lock p) as [h|] eqn:Lk; [|destruct Ik as (_ & A2 & _); congruence].
  destruct Ik as (r2 & b & Hk & Hr & He & Ho).
  destruct He as [c1 c2 c3 c4|l1 l2 okk c1 c2 c3 c4 c5 c6 c7|l1 l2 l3 okk bts c1 c2 c3 c4 c5 c6 c7].
  - congruence.
  - destruct c5 as [c5|c5]; rewrite c5 in Rp; [discriminate|].
    assert (X : (e, r) = set_reply r2 b okk) by (injection Rp; intros; subst; reflexivity).
    replace e with (fst (set_reply r2 b okk)) by now rewrite <- X. replace r with (snd (set_reply r2 b okk)) by now rewrite <- X.
    rewrite (deliver_set ports) by assumption. eauto.
  - destruct c7 as [[[c7|c7] c8]|[c7 _]]; rewrite c7 in Rp; [| |discriminate].
    + assert (X : (e, r) = set_reply r2 b okk) by (injection Rp; intros; subst; reflexivity).
      replace e with (fst (set_reply r2 b okk)) by now rewrite <- X. replace r with (snd (set_reply r2 b okk)) by now rewrite <- X.
      rewrite (deliver_set ports) by assumption. eauto.
    + assert (X : (e, r) = status_reply bts) by (injection Rp; intros; subst; reflexivity).
      replace e with (fst (status_reply bts)) by now rewrite <- X. replace r with (snd (status_reply bts)) by now rewrite <- X.
      rewrite (deliver_status ports) by assumption. eauto.
Qed.

(** C72.  Without time-outs nothing raises, as long as nobody asks for the outlet
    after the last one. *)
Theorem C72_no_exception_partial : forall ports s0 d0 ops,
  n_prev s0 = [] -> sized ports s0 -> n_sem s0 = 0%nat -> List.length d0 = ports ->
  Forall no_timeout ops -> Forall (panel_ok ports) ops ->
  (forall idx state, In (idx, state) (calls_of ops) -> idx <> Z.of_nat ports + 1) ->
  p_err (p_run ports (np_pdu s0 d0) ops) = false.
Proof.
  intros ports s0 d0 ops P S Z0 L N O C. induction ops as [|o ops IH] using rev_ind; [reflexivity|].
  apply Forall_app in N as [N1 N2]. apply Forall_app in O as [O1 O2].
  assert (C1 : forall idx state, In (idx, state) (calls_of ops) -> idx <> Z.of_nat ports + 1) by (intros i st H; apply (C i st); rewrite calls_of_app; apply in_app_iff; left; exact H).
  specialize (IH N1 O1 C1). pose proof (pinv_run ports s0 d0 ops P S Z0 L N1 O1) as V.
  unfold p_run in *. rewrite fold_left_app. cbn [fold_left]. set (p := fold_left (p_step ports) ops (np_pdu s0 d0)) in *.
  destruct o as [idx state|k|ok|bits| |k|k]; cbn [p_step].
  - unfold np_begin. destruct ((0 <=? idx - 1) && (idx - 1 <=? Z.of_nat ports)) eqn:E; [|exact IH].
    assert (Ne : idx <> Z.of_nat ports + 1) by (apply (C idx state); rewrite calls_of_app; apply in_app_iff; right; left; reflexivity).
    destruct (nth_error (n_outlets (p_np p)) (Z.to_nat (idx - 1))) as [[b|]|] eqn:Q.
    + destruct (Bool.eqb b state); exact IH.
    + exact IH.
    + exfalso. apply nth_error_None in Q. destruct (i_size _ _ _ _ _ V) as [A _]. lia.
  - destruct (p_lock p); [exact IH|]. destruct (nth_error (p_calls p) k) as [[| |]|]; exact IH.
  - destruct (p_cmds p) as [|[| ] ?]; exact IH.
  - exact IH.
  - destruct (p_replies p) as [|[e r] rs] eqn:Rp; [exact IH|]. destruct (reply_goes ports s0 d0 ops p e r rs V Rp) as [s ->]. exact IH.
  - destruct (n_sem (p_np p)); [exact IH|]. destruct (nth_error (p_calls p) k) as [[| |]|]; exact IH.
  - destruct (nth_error (p_calls p) k) as [[| |]|]; exact IH.
Qed.
Print Assumptions C72_no_exception_partial.
