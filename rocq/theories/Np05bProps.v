(** C71, C72: the NP-05B connection. *)
From Coq Require Import ZifyBool ZifyNat Lia.
From Verif Require Import Base BaseLemmas PyStrModel TaskModel TaskProofs Np05bModel Np05bSpec Np05bProofs.

(** C71. Whatever the device sends between and around them: when echoes and
    responses arrive in lines, the outlets show the last reported states, one
    permission per answered status query is given to the waiting calls, and
    nothing is left over. *)
Theorem C71_exchanges : forall ports s items,
  sized ports s -> n_prev s = [] -> Forall (item_ok ports) items ->
  np_text s (on_wire (flat_map item_lines items)) = NGo (fold_left (fun s i => after_item i s) items s) /\
  n_prev (fold_left (fun s i => after_item i s) items s) = [].
Proof.
  intros ports s items S P F. split; [now apply (items_ok ports)|].
  clear - P. revert s P. induction items as [|i items IH]; intros s P; [exact P|]. cbn [fold_left]. apply IH.
  now rewrite after_item_prev.
Qed.
Print Assumptions C71_exchanges.

(** The text may arrive in pieces that end at the end of a line (also between
    the "\r" and the "\n" of one line end). *)
Theorem C71_chunks_partial : forall s a x b, is_break x = true ->
  np_text s ((a ++ [x]) ++ b) = match np_text s (a ++ [x]) with NGo s' => np_text s' b | r => r end.
Proof. exact text_chunk. Qed.
Print Assumptions C71_chunks_partial.

(** Not in other pieces: outlets then show states the device never reported. *)
Theorem C71_chunks_refuted : ~ (forall s a b,
  sized 5 s -> n_prev s = [] ->
  np_text s (a ++ b) = match np_text s a with NGo s' => np_text s' b | r => r end).
Proof.
  intros H. specialize (H (np_init 5) (lit "$A5" ++ [13; 10] ++ lit "$A0,11") (lit "100" ++ [13; 10])).
  specialize (H ltac:(split; reflexivity) eq_refl). vm_compute in H. discriminate.
Qed.
Print Assumptions C71_chunks_refuted.

(** A prompt in front of an echo hides it: the response is then taken for an
    echo, and the next echo raises an exception. *)
Theorem C71_prompt_refuted : ~ (forall items s,
  sized 5 s -> n_prev s = [] -> Forall (item_ok 5) items ->
  exists s', np_text s (on_wire (map (fun l => if is_command l then 62 :: l else l)
                                     (firstn 1 (flat_map item_lines items)) ++ skipn 1 (flat_map item_lines items))) = NGo s').
Proof.
  intros H. specialize (H [Pair CmdSet (lit " 1 1") [] ROk; Pair CmdStatus [] [] (RBits [true; false; false; false; false])] (np_init 5)).
  destruct H as [s' E].
  - split; reflexivity.
  - reflexivity.
  - repeat constructor; discriminate.
  - vm_compute in E. discriminate.
Qed.
Print Assumptions C71_prompt_refuted.

(** C72. Without time-outs, a call for an outlet that exists returns True
    because the outlet was shown in the wanted state when it was called, or
    tells whether the device reported the wanted state in answer to a query it
    handled after this call's command.  If the device accepted the command and
    nobody used its buttons in between, the result is True. *)
Theorem C72_result_partial : forall ports s0 d0 ops k idx state r,
  n_prev s0 = [] -> sized ports s0 -> n_sem s0 = 0%nat -> List.length d0 = ports ->
  Forall no_timeout ops -> Forall (panel_ok ports) ops ->
  nth_error (calls_of ops) k = Some (idx, state) -> 1 <= idx <= Z.of_nat ports ->
  let p := p_run ports (np_pdu s0 d0) ops in
  nth_error (p_calls p) k = Some (CDone r) ->
  (r = Some true /\ exists ops1 ops2,
     ops = ops1 ++ PCall idx state :: ops2 /\ List.length (calls_of ops1) = k /\
     nth_error (n_outlets (p_np (p_run ports (np_pdu s0 d0) ops1))) (Z.to_nat (idx - 1)) = Some (Some state)) \/
  (exists l1 l2 l3 accepted bits reported,
     p_log p = l1 ++ DvSet k (Z.to_nat (idx - 1)) state accepted :: l2 ++ DvStatus k bits :: l3 /\ Forall is_panel l2 /\
     nth_error bits (Z.to_nat (idx - 1)) = Some reported /\ r = Some (Bool.eqb reported state) /\
     (accepted = true -> l2 = [] -> r = Some true)).
Proof.
  intros ports s0 d0 ops k idx state r P S Z0 L N O C R p D.
  pose proof (pinv_run ports s0 d0 ops P S Z0 L N O) as I. fold p in I.
  pose proof (i_calls _ _ _ _ _ I k idx state _ C D) as H. destruct r as [r|]; [|destruct (H R)].
  destruct (H R) as [[-> (o1 & o2 & E1 & E2 & E3)]|(l1 & l2 & l3 & ok & bits & v & E & F & V & Q & T)].
  - left. split; [reflexivity|]. exists o1, o2. now repeat split.
  - right. exists l1, l2, l3, ok, bits, v. split; [exact E|]. split; [exact F|]. split; [exact V|]. split; [now rewrite Q|].
    intros A B. now rewrite (T A B).
Qed.
Print Assumptions C72_result_partial.

(** After a time-out the late answer is taken for the answer to the next call:
    it returns before the device answered, and says False although the device
    accepts the command. *)
Theorem C72_timeout_refuted : ~ (forall s0 d0 ops k idx state r,
  n_prev s0 = [] -> sized 5 s0 -> n_sem s0 = 0%nat -> List.length d0 = 5%nat ->
  Forall (panel_ok 5) ops ->
  nth_error (calls_of ops) k = Some (idx, state) -> 1 <= idx <= 5 ->
  let p := p_run 5 (np_pdu s0 d0) ops in
  nth_error (p_calls p) k = Some (CDone (Some r)) ->
  (r = true \/ exists bits, In (DvStatus k bits) (p_log p))).
Proof.
  intros H.
  specialize (H (mkNp [] (repeat (Some false) 5) (repeat false 5) 0) (repeat false 5)
     [PCall 1 true; PLock 0; PTimeout 0; PDevice true; PDevice true; PDeliver; PDeliver;
      PCall 2 true; PLock 1; PResume 1] 1%nat 2 true false
     eq_refl ltac:(split; reflexivity) eq_refl eq_refl ltac:(repeat constructor) eq_refl ltac:(lia)).
  destruct (H ltac:(vm_compute; reflexivity)) as [E|[bits E]]; [discriminate|].
  vm_compute in E. destruct E as [E|[E|[]]]; discriminate.
Qed.
Print Assumptions C72_timeout_refuted.

(** Without time-outs, whenever no call is talking to the device the outlets
    and the channels show what the device reported last. *)
Theorem C72_shown_partial : forall ports s0 d0 ops bits,
  n_prev s0 = [] -> sized ports s0 -> n_sem s0 = 0%nat -> List.length d0 = ports ->
  Forall no_timeout ops -> Forall (panel_ok ports) ops ->
  let p := p_run ports (np_pdu s0 d0) ops in
  p_lock p = None -> last_status (p_log p) = Some bits ->
  n_outlets (p_np p) = map Some bits /\ n_chans (p_np p) = bits.
Proof.
  intros ports s0 d0 ops bits P S Z0 L N O p K B.
  pose proof (pinv_run ports s0 d0 ops P S Z0 L N O) as I. fold p in I.
  pose proof (i_lock _ _ _ _ _ I) as H. rewrite K in H. destruct H as (_ & _ & _ & H & _). unfold shown in H.
  now rewrite B in H.
Qed.
Print Assumptions C72_shown_partial.

(** A call that sent its commands returns once the device handled them and the
    answers arrived. *)
Lemma device_step ports p ok : p_lock (p_step ports p (PDevice ok)) = p_lock p /\
  p_calls (p_step ports p (PDevice ok)) = p_calls p /\ p_cmds (p_step ports p (PDevice ok)) = tl (p_cmds p).
Proof. cbn [p_step]. destruct (p_cmds p) as [|[]] eqn:E; cbn [p_lock p_calls p_cmds]; now rewrite ?E. Qed.
Lemma deliver_step ports p : p_lock (p_step ports p PDeliver) = p_lock p /\
  p_calls (p_step ports p PDeliver) = p_calls p /\ p_cmds (p_step ports p PDeliver) = p_cmds p /\
  p_replies (p_step ports p PDeliver) = tl (p_replies p).
Proof.
  cbn [p_step]. destruct (p_replies p) as [|[e r] rs] eqn:E; [now rewrite E|].
  destruct (np_text _ _); now repeat split.
Qed.
Theorem C72_completes_partial : forall ports s0 d0 ops k,
  n_prev s0 = [] -> sized ports s0 -> n_sem s0 = 0%nat -> List.length d0 = ports ->
  Forall no_timeout ops -> Forall (panel_ok ports) ops ->
  let p := p_run ports (np_pdu s0 d0) ops in
  p_lock p = Some k ->
  let p' := p_run ports p [PDevice true; PDevice true; PDeliver; PDeliver; PResume k] in
  p_lock p' = None /\ exists r, nth_error (p_calls p') k = Some (CDone (Some r)).
Proof.
  intros ports s0 d0 ops k P S Z0 L N O p K p'.
  set (q := p_run ports p [PDevice true; PDevice true; PDeliver; PDeliver]).
  assert (Eq : q = p_run ports (np_pdu s0 d0) (ops ++ [PDevice true; PDevice true; PDeliver; PDeliver])).
  { unfold q, p, p_run. now rewrite fold_left_app. }
  assert (Iq : pinv ports s0 d0 (ops ++ [PDevice true; PDevice true; PDeliver; PDeliver]) q).
  { rewrite Eq. apply pinv_run; try assumption; apply Forall_app; (split; [assumption|repeat constructor]). }
  pose proof (pinv_run ports s0 d0 ops P S Z0 L N O) as Ip. fold p in Ip.
  pose proof (i_lock _ _ _ _ _ Ip) as H. rewrite K in H. destruct H as (real & b & Hk & _ & He & _).
  assert (Lc : (List.length (p_cmds p) <= 2)%nat) by (destruct He as [c1 ? ? ?|? ? ? ? ? ? c1 ? ? ?|? ? ? ? ? ? ? ? ? ? c1 ?]; rewrite c1; cbn [List.length]; lia).
  set (p2 := p_run ports p [PDevice true; PDevice true]).
  assert (I2 : pinv ports s0 d0 (ops ++ [PDevice true; PDevice true]) p2).
  { replace p2 with (p_run ports (np_pdu s0 d0) (ops ++ [PDevice true; PDevice true])) by (unfold p2, p, p_run; now rewrite fold_left_app).
    apply pinv_run; try assumption; apply Forall_app; (split; [assumption|repeat constructor]). }
  assert (E2 : p_lock p2 = Some k /\ p_calls p2 = p_calls p /\ p_cmds p2 = []).
  { unfold p2, p_run. cbn [fold_left]. destruct (device_step ports p true) as (A1 & A2 & A3).
    destruct (device_step ports (p_step ports p (PDevice true)) true) as (B1 & B2 & B3).
    rewrite B1, B2, B3, A1, A2, A3. repeat split; [exact K|]. destruct (p_cmds p) as [|? [|? [|]]]; cbn [List.length tl] in *; try reflexivity; lia. }
  destruct E2 as (L2 & C2 & M2).
  pose proof (i_lock _ _ _ _ _ I2) as H2. rewrite L2 in H2. destruct H2 as (real2 & b2 & Hk2 & _ & He2 & _).
  assert (Lr : (List.length (p_replies p2) <= 2)%nat).
  { destruct He2 as [c1 ? ? ?|? ? ? ? ? ? c1 ? ? ?|? ? ? ? ? ? ? ? ? ? c1 c2]; try congruence.
    destruct c2 as [[[->| ->] _]|[-> _]]; cbn [List.length]; lia. }
  assert (Qd : q = p_step ports (p_step ports p2 PDeliver) PDeliver).
  { unfold q, p2, p_run. cbn [fold_left]. reflexivity. }
  destruct (deliver_step ports p2) as (A1 & A2 & A3 & A4).
  destruct (deliver_step ports (p_step ports p2 PDeliver)) as (B1 & B2 & B3 & B4). rewrite <- Qd in B1, B2, B3, B4.
  assert (Rq : p_replies q = []).
  { rewrite B4, A4. destruct (p_replies p2) as [|? [|? [|]]]; cbn [List.length tl] in *; try reflexivity; lia. }
  pose proof (i_lock _ _ _ _ _ Iq) as H3. rewrite B1, A1, L2 in H3. destruct H3 as (real3 & b3 & Hk3 & _ & He3 & _).
  assert (Sq : n_sem (p_np q) = 1%nat).
  { destruct He3 as [c1 ? ? ?|? ? ? ? ? ? c1 ? ? ?|? ? ? ? ? ? ? ? ? ? c1 c2]; try congruence.
    destruct c2 as [[[E|E] _]|(_ & E & _)]; congruence. }
  assert (E' : p' = p_step ports q (PResume k)).
  { unfold p', q, p_run. cbn [fold_left]. reflexivity. }
  rewrite E'. cbn [p_step]. rewrite Sq, Hk3. cbn [p_lock p_calls]. split; [reflexivity|]. eexists.
  apply upd_nth. apply nth_error_Some. congruence.
Qed.
Print Assumptions C72_completes_partial.

(** An index out of range: False at once, nothing is sent... *)
Theorem C72_range_partial : forall ports p idx state,
  idx < 1 \/ Z.of_nat ports + 1 < idx ->
  p_step ports p (PCall idx state) =
    mkPdu (p_np p) (p_calls p ++ [CDone (Some false)]) (p_lock p) (p_cmds p) (p_replies p) (p_dev p) (p_log p) (p_err p).
Proof.
  intros ports p idx state H. cbn [p_step]. unfold np_begin.
  replace ((0 <=? idx - 1) && (idx - 1 <=? Z.of_nat ports)) with false by lia. reflexivity.
Qed.
Print Assumptions C72_range_partial.

(** ... except for the index after the last outlet, which raises IndexError. *)
Theorem C72_range_refuted : forall ports s state,
  sized ports s -> np_begin ports (Z.of_nat ports + 1) state s = BIndex.
Proof.
  intros ports s state [So _]. unfold np_begin.
  replace ((0 <=? Z.of_nat ports + 1 - 1) && (Z.of_nat ports + 1 - 1 <=? Z.of_nat ports)) with true by lia.
  destruct (nth_error (n_outlets s) (Z.to_nat (Z.of_nat ports + 1 - 1))) eqn:E; [|reflexivity].
  assert (Z.to_nat (Z.of_nat ports + 1 - 1) < List.length (n_outlets s))%nat by (apply nth_error_Some; congruence). lia.
Qed.
Print Assumptions C72_range_refuted.

(** The premises are met. *)
Definition ex_items : list item :=
  [Noise (lit "Synaccess Telnet V6.2"); Noise (lit ">");
   Joined CmdStatus [] (RBits [false; false; true; false; true]);
   Pair CmdSet (lit " 1 1") [lit ">"] (RFail []);
   Pair CmdStatus [] [] (RBits [true; false; true; false; true])].
Example ex_items_ok : Forall (item_ok 5) ex_items.
Proof. repeat constructor; cbn; try lia; try discriminate; try (left; reflexivity). Qed.
Example ex_items_text : exists s, np_text (np_init 5) (on_wire (flat_map item_lines ex_items)) = NGo s /\
  n_chans s = [true; false; true; false; true] /\ n_sem s = 2%nat.
Proof. eexists. split; [vm_compute; reflexivity|]. split; reflexivity. Qed.
Definition ex_pops : list pop :=
  [PCall 2 true; PCall 1 true; PLock 1; PDevice true; PDeliver; PDevice true; PPanel [true; false; true; true; true]; PDeliver; PResume 1;
   PLock 0; PDevice true; PPanel [true; false; true; true; true]; PDevice true; PDeliver; PDeliver; PResume 0].
Example ex_pdu : let p := p_run 5 (np_pdu (np_init 5) (repeat false 5)) ex_pops in
  p_calls p = [CDone (Some false); CDone (Some true)] /\ p_err p = false /\ n_chans (p_np p) = [true; false; true; true; true].
Proof. vm_compute. repeat split. Qed.
Example ex_pops_ok : Forall no_timeout ex_pops /\ Forall (panel_ok 5) ex_pops.
Proof. split; repeat constructor. Qed.
