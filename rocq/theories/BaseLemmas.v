(** Lemmas about the dictionaries of [Base]. *)
From Verif Require Import Base.

Section DictLemmas.
  Context {K V : Type} {KD : EqDec K}.
  Implicit Types (d : list (K * V)) (k : K) (v : V).

  Lemma dget_dset_eq k v d : dget k (dset k v d) = Some v.
  Proof.
    induction d as [|[k' v'] d IH]; cbn.
    - destruct (eq_dec k k); congruence.
    - destruct (eq_dec k k') as [->|Hn]; cbn.
      + destruct (eq_dec k' k'); congruence.
      + destruct (eq_dec k k'); [congruence|exact IH].
  Qed.

  Lemma dget_dset_ne k k' v d : k <> k' -> dget k (dset k' v d) = dget k d.
  Proof.
    intros Hne; induction d as [|[k2 v2] d IH]; cbn.
    - destruct (eq_dec k k'); congruence.
    - destruct (eq_dec k' k2) as [->|Hn]; cbn.
      + destruct (eq_dec k k2); congruence.
      + destruct (eq_dec k k2); [reflexivity|exact IH].
  Qed.

  Lemma dget_dset k k' v d :
    dget k (dset k' v d) = if eq_dec k k' then Some v else dget k d.
  Proof.
    destruct (eq_dec k k') as [->|Hn];
      [apply dget_dset_eq|apply dget_dset_ne; exact Hn].
  Qed.

  Lemma dget_app k d d' :
    dget k (d ++ d') = match dget k d with Some v => Some v | None => dget k d' end.
  Proof.
    induction d as [|[k' v'] d IH]; cbn; [reflexivity|].
    destruct (eq_dec k k'); [reflexivity|exact IH].
  Qed.

  Lemma dget_ddel_eq k d : dget k (ddel k d) = None.
  Proof.
    induction d as [|[k' v'] d IH]; cbn; [reflexivity|].
    destruct (eq_dec k k') as [->|Hn]; [exact IH|].
    cbn. destruct (eq_dec k k'); [congruence|exact IH].
  Qed.

  Lemma dget_ddel_ne k k' d : k <> k' -> dget k (ddel k' d) = dget k d.
  Proof.
    intros Hne; induction d as [|[k2 v2] d IH]; cbn; [reflexivity|].
    destruct (eq_dec k' k2) as [->|Hn].
    - rewrite IH. destruct (eq_dec k k2); congruence.
    - cbn. destruct (eq_dec k k2); [reflexivity|exact IH].
  Qed.

  Lemma dget_ddel k k' d :
    dget k (ddel k' d) = if eq_dec k k' then None else dget k d.
  Proof.
    destruct (eq_dec k k') as [->|Hn];
      [apply dget_ddel_eq|apply dget_ddel_ne; exact Hn].
  Qed.

  Lemma dget_In k v d : dget k d = Some v -> In (k, v) d.
  Proof.
    induction d as [|[k' v'] d IH]; cbn; [discriminate|].
    destruct (eq_dec k k') as [->|Hn]; intros H.
    - left; congruence.
    - right; auto.
  Qed.

  Lemma In_dget k v d : NoDup (dkeys d) -> In (k, v) d -> dget k d = Some v.
  Proof.
    induction d as [|[k' v'] d IH]; cbn; [intros _ []|].
    intros Hnd Hin; inversion Hnd as [|? ? Hni Hnd']; subst.
    destruct Hin as [Heq|Hin].
    - injection Heq as -> ->. destruct (eq_dec k k); congruence.
    - destruct (eq_dec k k') as [->|Hn].
      + exfalso; apply Hni. change k' with (fst (k', v)).
        apply in_map; exact Hin.
      + auto.
  Qed.

  Lemma dget_None_notin k d : dget k d = None <-> ~ In k (dkeys d).
  Proof.
    induction d as [|[k' v'] d IH]; cbn; [tauto|].
    destruct (eq_dec k k') as [->|Hn].
    - split; [discriminate|intros H; exfalso; apply H; auto].
    - rewrite IH. split; [intros H [E|E]; [congruence|tauto]|tauto].
  Qed.

  Lemma dget_Some_in k v d : dget k d = Some v -> In k (dkeys d).
  Proof.
    intros H. apply dget_In in H. change k with (fst (k, v)).
    apply in_map; exact H.
  Qed.

  Lemma dset_notin k v d : dget k d = None -> dset k v d = d ++ [(k, v)].
  Proof.
    induction d as [|[k' v'] d IH]; cbn; [reflexivity|].
    destruct (eq_dec k k') as [->|Hn]; [discriminate|].
    intros H; rewrite IH by exact H; reflexivity.
  Qed.

  Lemma dkeys_dset_in k v d w : dget k d = Some w -> dkeys (dset k v d) = dkeys d.
  Proof.
    induction d as [|[k' v'] d IH]; cbn; [discriminate|].
    destruct (eq_dec k k') as [->|Hn]; cbn; [reflexivity|].
    intros H; f_equal; auto.
  Qed.

  Lemma dkeys_app d d' : dkeys (d ++ d') = dkeys d ++ dkeys d'.
  Proof. unfold dkeys; apply map_app. Qed.

  Lemma NoDup_dset k v d : NoDup (dkeys d) -> NoDup (dkeys (dset k v d)).
  Proof.
    intros H. destruct (dget k d) as [w|] eqn:E.
    - rewrite (dkeys_dset_in _ _ _ _ E); exact H.
    - rewrite dset_notin by exact E. rewrite dkeys_app; cbn.
      apply dget_None_notin in E.
      assert (Hr : NoDup ([k] ++ dkeys d)) by (constructor; auto).
      apply NoDup_rev in Hr. rewrite rev_app_distr in Hr.
      rewrite <- (rev_involutive (dkeys d ++ [k])).
      apply NoDup_rev. rewrite rev_app_distr; cbn. constructor.
      + rewrite <- in_rev; exact E.
      + apply NoDup_rev; exact H.
  Qed.

  Lemma dmem_true k d : dmem k d = true <-> exists v, dget k d = Some v.
  Proof.
    unfold dmem; destruct (dget k d) as [v|]; split; intros H;
      try discriminate; eauto; destruct H; discriminate.
  Qed.

  Lemma dmem_false k d : dmem k d = false <-> dget k d = None.
  Proof. unfold dmem; destruct (dget k d); split; congruence. Qed.
End DictLemmas.

Lemma zlen_app {A} (l l' : list A) : zlen (l ++ l') = zlen l + zlen l'.
Proof. unfold zlen; rewrite app_length; lia. Qed.
Lemma zlen_nil {A} : zlen (@nil A) = 0.
Proof. reflexivity. Qed.
Lemma zlen_cons {A} (a : A) l : zlen (a :: l) = 1 + zlen l.
Proof. unfold zlen; cbn [List.length]; lia. Qed.
Lemma zlen_nonneg {A} (l : list A) : 0 <= zlen l.
Proof. unfold zlen; lia. Qed.

Lemma NoDup_app {A} (l1 l2 : list A) :
  NoDup l1 -> NoDup l2 -> (forall x, In x l1 -> In x l2 -> False) -> NoDup (l1 ++ l2).
Proof.
  induction l1 as [|a l1 IH]; cbn; intros H1 H2 Hd; [exact H2|].
  inversion H1 as [|? ? Hn H1']; subst. constructor.
  - rewrite in_app_iff. intros [H|H]; [tauto|eapply Hd; eauto].
  - apply IH; eauto.
Qed.

Lemma NoDup_app_l {A} (l1 l2 : list A) : NoDup (l1 ++ l2) -> NoDup l1.
Proof.
  induction l1 as [|a l1 IH]; cbn; intros H; [constructor|].
  inversion H as [|? ? Hn Hd]; subst. constructor; [|auto].
  intros Hin. apply Hn. apply in_app_iff; auto.
Qed.
Lemma NoDup_app_r {A} (l1 l2 : list A) : NoDup (l1 ++ l2) -> NoDup l2.
Proof.
  induction l1 as [|a l1 IH]; cbn; intros H; [exact H|].
  inversion H; subst; auto.
Qed.

Lemma firstn_In {A} n (l : list A) x : In x (firstn n l) -> In x l.
Proof. intros H. rewrite <- (firstn_skipn n l). apply in_app_iff. auto. Qed.
Lemma skipn_In {A} n (l : list A) x : In x (skipn n l) -> In x l.
Proof. intros H. rewrite <- (firstn_skipn n l). apply in_app_iff. auto. Qed.
Lemma is_bytes_firstn n l : is_bytes l -> is_bytes (firstn n l).
Proof. unfold is_bytes. rewrite !Forall_forall. intros H x Hx. apply H. eapply firstn_In; eauto. Qed.
Lemma is_bytes_skipn n l : is_bytes l -> is_bytes (skipn n l).
Proof. unfold is_bytes. rewrite !Forall_forall. intros H x Hx. apply H. eapply skipn_In; eauto. Qed.
Lemma skipn_skipn_add {A} x y (l : list A) : skipn x (skipn y l) = skipn (y + x) l.
Proof.
  revert l. induction y as [|y IH]; intros l; [reflexivity|].
  destruct l as [|a l]; [rewrite !skipn_nil; reflexivity|]. cbn. apply IH.
Qed.
Lemma zlen_repeat {A} (x : A) n : zlen (repeat x n) = Z.of_nat n.
Proof. unfold zlen. rewrite repeat_length. reflexivity. Qed.
