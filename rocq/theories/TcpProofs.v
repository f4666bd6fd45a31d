(** Invariants of TcpModel. *)
From Coq Require Import ZifyBool ZifyNat Lia.
From Verif Require Import Base BaseLemmas TcpModel TcpSpec.
Open Scope list_scope.
Open Scope Z_scope.

Lemma set_nth_length {A} (l : list A) : forall i x, List.length (set_nth i x l) = List.length l.
Proof. induction l as [|y l IH]; intros [|i] x; cbn; auto. Qed.
Lemma set_nth_nth {A} (l : list A) : forall i x j, nth_error (set_nth i x l) j = if Nat.eqb i j then match nth_error l j with Some _ => Some x | None => None end else nth_error l j.
Proof.
  induction l as [|y l IH]; intros [|i] x [|j]; cbn; try reflexivity.
  - destruct (Nat.eqb i j); reflexivity.
  - apply IH.
Qed.
Lemma index_put c i s : index (put_ses c i s) = index c.
Proof. unfold put_ses, index. destruct (Nat.eqb i _); cbn; [reflexivity|apply set_nth_length]. Qed.
Lemma ses_put c i s j : ses (put_ses c i s) j = if Nat.eqb i j then match ses c j with Some _ => Some s | None => None end else ses c j.
Proof.
  unfold ses. rewrite index_put. unfold put_ses. destruct (Nat.eqb_spec i (index c)) as [->|N].
  - cbn [c_cur set_cur c_old]. rewrite (Nat.eqb_sym j). destruct (Nat.eqb (index c) j); reflexivity.
  - cbn [c_cur set_old c_old]. destruct (Nat.eqb_spec j (index c)) as [->|N2].
    + destruct (Nat.eqb_spec i (index c)); [contradiction|reflexivity].
    + apply set_nth_nth.
Qed.
Lemma ses_index c i s : ses c i = Some s -> (i <= index c)%nat.
Proof.
  unfold ses. destruct (Nat.eqb_spec i (index c)); [lia|]. intros H. unfold index. assert (nth_error (c_old c) i <> None) by congruence.
  apply nth_error_Some in H0. lia.
Qed.
Lemma put_fields c i s : let c' := put_ses c i s in
  c_enabled c' = c_enabled c /\ c_reader c' = c_reader c /\ c_cancel c' = c_cancel c /\ c_client c' = c_client c /\ c_rx c' = c_rx c /\
  c_tx c' = c_tx c /\ c_done c' = c_done c /\ c_sent c' = c_sent c /\ c_raised c' = c_raised c.
Proof. unfold put_ses. destruct (Nat.eqb _ _); cbn; auto 12. Qed.

Definition given (c : conn) (i : nat) : list chunk :=
  map snd (filter (fun e => Nat.eqb (fst (fst e)) i && snd (fst e)) (c_sent c)).
Record Inv (c : conn) : Prop := {
  iq : forall i s, ses c i = Some s -> processed c i ++ s_queue s = s_recv s;
  io : forall i s, ses c i = Some s -> s_out s = given c i;
  idn : Forall (fun e => (fst e <= index c)%nat) (c_done c);
  isn : Forall (fun e => (fst (fst e) <= index c)%nat) (c_sent c);
  iad : ascending (map fst (c_done c));
  ias : ascending (map (fun e => fst (fst e)) (c_sent c));
  irx : c_rx c = bytes (map snd (c_done c));
  itx : c_tx c = bytes (map snd (c_sent c));
  ill : forall i s, ses c i = Some s -> s_lost s = true -> s_tr s = TGone;
  ide : c_enabled c = false -> c_cancel c = true \/ c_reader c = RNone \/ c_reader c = RDone;
  ice : c_enabled c = true -> c_cancel c = true -> c_reader c = RNone
}.
Lemma inv_new b : Inv (conn_new b).
Proof.
  constructor; cbn; auto; try constructor; try discriminate.
  - intros i s. unfold ses. cbn. destruct i as [|i]; cbn; [intros H; injection H as <-; reflexivity|destruct i; discriminate].
  - intros i s. unfold ses. cbn. destruct i as [|i]; cbn; [intros H; injection H as <-; reflexivity|destruct i; discriminate].
  - intros i s. unfold ses. cbn. destruct i as [|i]; cbn; [intros H; injection H as <-; discriminate|destruct i; discriminate].
Qed.
Lemma bytes_app a b : bytes (a ++ b) = bytes a + bytes b.
Proof. unfold bytes. induction a as [|x a IH]; cbn [app fold_right]; [reflexivity|]. rewrite IH. lia. Qed.
Lemma ascending_snoc l n : ascending l -> Forall (fun x => (x <= n)%nat) l -> ascending (l ++ [n]).
Proof.
  induction l as [|a l IH]; intros H F; [exact I|]. inversion_clear F. destruct l as [|b l]; [cbn; auto|].
  destruct H as [H H']. cbn [app ascending]. split; [exact H|]. apply IH; assumption.
Qed.

(** Steps that only change sessions' fields, keeping what matters. *)
Lemma inv_put c i s s' : Inv c -> ses c i = Some s -> (processed c i ++ s_queue s' = s_recv s') -> s_out s' = s_out s ->
  (s_lost s' = true -> s_tr s' = TGone) -> Inv (put_ses c i s').
Proof.
  intros V E Q O L. pose proof (put_fields c i s') as (F1 & F2 & F3 & F4 & F5 & F6 & F7 & F8 & F9). destruct V.
  constructor; unfold processed, given; rewrite ?F1, ?F2, ?F3, ?F4, ?F5, ?F6, ?F7, ?F8, ?index_put; auto.
  - intros j x. rewrite ses_put. destruct (Nat.eqb_spec i j) as [<-|N]; [|apply iq0]. rewrite E. intros H. injection H as <-. exact Q.
  - intros j x. rewrite ses_put. destruct (Nat.eqb_spec i j) as [<-|N]; [|apply io0]. rewrite E. intros H. injection H as <-. rewrite O. apply io0, E.
  - intros j x. rewrite ses_put. destruct (Nat.eqb_spec i j) as [<-|N]; [|apply ill0]. rewrite E. intros H. injection H as <-. exact L.
Qed.
Lemma inv_disable c : Inv c -> Inv (disable c).
Proof.
  intros V. unfold disable. destruct (c_enabled c) eqn:E; [|exact V]. destruct V. constructor; auto.
  - cbn. intros _. destruct (c_reader c); auto.
  - discriminate.
Qed.
Lemma inv_reader c r : Inv c -> (c_enabled c = false -> c_cancel c = true \/ r = RNone \/ r = RDone) -> (c_enabled c = true -> c_cancel c = true -> r = RNone) -> Inv (set_reader c r).
Proof. intros V A B. destruct V. constructor; auto. Qed.
Lemma ses_cur c : ses c (index c) = Some (c_cur c).
Proof. unfold ses. rewrite Nat.eqb_refl. reflexivity. Qed.
Lemma put_cur c s : put_ses c (index c) s = set_cur c s.
Proof. unfold put_ses. rewrite Nat.eqb_refl. reflexivity. Qed.
Lemma inv_send c data : Inv c -> Inv (send c data).
Proof.
  intros V. destruct V. unfold send. set (ok := match s_tr (c_cur c) with TGone => false | _ => true end).
  assert (Sx : forall j, ses (send c data) j = if Nat.eqb j (index c) then Some (if ok then mkSes (s_queue (c_cur c)) (s_recv (c_cur c)) (s_out (c_cur c) ++ [data]) (s_tr (c_cur c)) (s_lost (c_cur c)) else c_cur c) else ses c j).
  { intros j. unfold ses, send, index. cbn. fold ok. destruct (Nat.eqb j _); reflexivity. }
  unfold send in Sx. fold ok in Sx.
  constructor; cbn [c_done c_sent c_rx c_tx c_enabled c_cancel c_reader]; auto.
  - intros j s. rewrite Sx. unfold processed. cbn [c_done]. destruct (Nat.eqb_spec j (index c)) as [->|N]; [|apply iq0].
    intros H. injection H as <-. destruct ok; apply (iq0 _ _ (ses_cur c)).
  - intros j s. rewrite Sx. unfold given. cbn [c_sent]. rewrite filter_app, map_app. cbn [filter fst snd]. destruct (Nat.eqb_spec j (index c)) as [->|N].
    + intros H. injection H as <-. rewrite Nat.eqb_refl. destruct ok; cbn [andb map s_out snd]; [|rewrite app_nil_r; apply (io0 _ _ (ses_cur c))].
      f_equal. apply (io0 _ _ (ses_cur c)).
    + intros H. destruct (Nat.eqb_spec (index c) j); [congruence|]. cbn. rewrite app_nil_r. apply io0, H.
  - apply Forall_app. split; [exact isn0|]. repeat constructor.
  - rewrite map_app. apply ascending_snoc; [exact ias0|]. clear - isn0. induction isn0; constructor; auto.
  - rewrite map_app, bytes_app, itx0. cbn. unfold zlen. lia.
  - intros j s. rewrite Sx. destruct (Nat.eqb_spec j (index c)) as [->|N]; [|apply ill0].
    intros H. injection H as <-. destruct ok; apply (ill0 _ _ (ses_cur c)).
Qed.
Lemma inv_step c o : Inv c -> Inv (step c o).
Proof.
  intros V. destruct o as [i data|i buffered|i|data| |ok| |r|buffered]; cbn [step].
  - destruct (ses c i) as [s|] eqn:E; [|exact V]. destruct (s_tr s) eqn:T; try exact V.
    apply (inv_put c i s); auto.
    + cbn. rewrite app_assoc. f_equal. apply V, E.
    + cbn. intros L. pose proof (ill _ V i s E L). congruence.
  - destruct (ses c i) as [s|] eqn:E; [|exact V]. apply (inv_put c i s); auto; [apply (iq _ V i s E)|]. cbn. intros L. rewrite (ill _ V i s E L). reflexivity.
  - destruct (ses c i) as [s|] eqn:E; [|exact V]. destruct (s_lost s); [exact V|]. apply inv_disable. apply (inv_put c i s); auto. apply (iq _ V i s E).
  - apply inv_send, V.
  - apply inv_disable, V.
  - destruct (c_reader c) eqn:R; try exact V. destruct (c_enabled c) eqn:En.
    + destruct V. constructor; auto; discriminate.
    + destruct (c_client c).
      * destruct ok; [|exact V]. destruct V.
        assert (Sx : forall j s, ses (mkConn (c_old c ++ [c_cur c]) ses_new true RStart false true (c_rx c) (c_tx c) (c_done c) (c_sent c) (c_raised c)) j = Some s ->
          (j = S (index c) /\ s = ses_new) \/ ses c j = Some s).
        { intros j s. unfold ses, index. cbn. rewrite app_length. cbn [List.length]. destruct (Nat.eqb_spec j (List.length (c_old c) + 1)) as [->|N].
          - intros H. injection H as <-. left. split; [lia|reflexivity].
          - intros H. right. destruct (Nat.eqb_spec j (List.length (c_old c))) as [->|N2].
            + rewrite nth_error_app2, Nat.sub_diag in H by lia. exact H.
            + destruct (Nat.lt_ge_cases j (List.length (c_old c))) as [L|L]; [rewrite nth_error_app1 in H by exact L; exact H|].
              exfalso. assert (nth_error (c_old c ++ [c_cur c]) j <> None) by congruence. apply nth_error_Some in H0. rewrite app_length in H0. cbn in H0. lia. }
        assert (Nd : forall l, Forall (fun e : nat * chunk => (fst e <= index c)%nat) l -> filter (fun e => Nat.eqb (fst e) (S (index c))) l = []).
        { induction 1 as [|x l H _ IH]; [reflexivity|]. cbn. destruct (Nat.eqb_spec (fst x) (S (index c))); [lia|exact IH]. }
        assert (Ns : forall l, Forall (fun e : nat * bool * chunk => (fst (fst e) <= index c)%nat) l -> filter (fun e => Nat.eqb (fst (fst e)) (S (index c)) && snd (fst e)) l = []).
        { induction 1 as [|x l H _ IH]; [reflexivity|]. cbn. destruct (Nat.eqb_spec (fst (fst x)) (S (index c))); [lia|exact IH]. }
        assert (Ix : index (mkConn (c_old c ++ [c_cur c]) ses_new true RStart false true (c_rx c) (c_tx c) (c_done c) (c_sent c) (c_raised c)) = S (index c)).
        { unfold index. cbn. rewrite app_length. cbn. lia. }
        constructor; auto; try discriminate.
        -- intros j s H. apply Sx in H as [[-> ->]|H]; [|apply iq0, H]. unfold processed. cbn [c_done]. rewrite Nd by assumption. reflexivity.
        -- intros j s H. apply Sx in H as [[-> ->]|H]; [|apply io0, H]. unfold given. cbn [c_sent]. rewrite Ns by assumption. reflexivity.
        -- rewrite Ix. eapply Forall_impl; [|exact idn0]. cbn. intros; lia.
        -- rewrite Ix. eapply Forall_impl; [|exact isn0]. cbn. intros; lia.
        -- intros j s H L. apply Sx in H as [[-> ->]|H]; [discriminate|]. apply (ill0 j s H L).
      * destruct V. constructor; auto; discriminate.
  - destruct (c_reader c) eqn:R; try exact V.
    + destruct (c_cancel c) eqn:C.
      * apply inv_reader; [exact V|auto|]. intros A B. pose proof (ice _ V A B). congruence.
      * apply inv_reader; [exact V| |congruence]. intros A. destruct (ide _ V A) as [X|[X|X]]; congruence.
    + destruct (c_cancel c) eqn:C.
      * apply inv_reader; [exact V|auto|]. intros A B. pose proof (ice _ V A B). congruence.
      * destruct (s_queue (c_cur c)) as [|data rest] eqn:Q; [exact V|]. destruct V.
        set (c' := mkConn _ _ _ _ _ _ _ _ _ _ _).
        assert (Sx : forall j s, ses c' j = Some s -> (j = index c /\ s = mkSes rest (s_recv (c_cur c)) (s_out (c_cur c)) (s_tr (c_cur c)) (s_lost (c_cur c))) \/ (j <> index c /\ ses c j = Some s)).
        { intros j s. unfold ses, c', index. cbn. destruct (Nat.eqb_spec j (List.length (c_old c))) as [->|N]; [intros H; injection H as <-; auto|auto]. }
        assert (Px : forall j, processed c' j = processed c j ++ if Nat.eqb (index c) j then [data] else []).
        { intros j. unfold processed, c'. cbn [c_done]. rewrite filter_app, map_app. f_equal. cbn. destruct (Nat.eqb (index c) j); reflexivity. }
        constructor; auto.
        -- intros j s H. rewrite Px. apply Sx in H as [[-> ->]|[N H]].
           ++ rewrite Nat.eqb_refl. cbn. rewrite <- app_assoc. cbn. rewrite <- Q. apply (iq0 _ _ (ses_cur c)).
           ++ destruct (Nat.eqb_spec (index c) j); [congruence|]. rewrite app_nil_r. apply iq0, H.
        -- intros j s H. apply Sx in H as [[-> ->]|[N H]]; [apply (io0 _ _ (ses_cur c))|apply io0, H].
        -- cbn. apply Forall_app. split; [exact idn0|]. repeat constructor.
        -- cbn. rewrite map_app. apply ascending_snoc; [exact iad0|]. clear - idn0. induction idn0; constructor; auto.
        -- cbn. rewrite map_app, bytes_app, irx0. cbn. unfold zlen. lia.
        -- intros j s H. apply Sx in H as [[-> ->]|[N H]]; [apply (ill0 _ _ (ses_cur c))|exact (ill0 _ _ H)].
        -- cbn. intros A. destruct (ide0 A) as [X|[X|X]]; congruence.
        -- cbn. congruence.
    + destruct (c_cancel c) eqn:C; [|exact V]. apply inv_reader; [exact V|auto|]. intros A B. pose proof (ice _ V A B). congruence.
  - destruct (c_reader c) eqn:R; try exact V. destruct r.
    + apply inv_reader; [exact V| |]; intros A; rewrite A; auto. intros B. pose proof (ice _ V A B). congruence.
    + apply inv_reader; [apply inv_disable, V|auto|]. unfold disable. destruct (c_enabled c) eqn:E; [discriminate|]. congruence.
    + apply inv_reader; [exact V|auto|]. intros A B. pose proof (ice _ V A B). congruence.
  - destruct (c_reader c) eqn:R; try exact V. destruct (c_enabled c) eqn:E; [exact V|].
    apply inv_reader; [|auto|auto]. rewrite <- put_cur. apply (inv_put c (index c) (c_cur c)); auto; [apply ses_cur|apply (iq _ V _ _ (ses_cur c))|].
    cbn. intros L. rewrite (ill _ V _ _ (ses_cur c) L). reflexivity.
Qed.
Lemma inv_run ops : forall c, Inv c -> Inv (run c ops).
Proof. induction ops as [|o ops IH]; intros c V; [exact V|]. apply IH, inv_step, V. Qed.
Lemma run_app c a b : run c (a ++ b) = run (run c a) b.
Proof. apply fold_left_app. Qed.
