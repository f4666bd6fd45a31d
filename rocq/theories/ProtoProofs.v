(** Proofs about protocols (C52, C66). *)
From Coq Require Import ZifyBool ZifyNat Lia.
From Verif Require Import Base BaseLemmas PrimModel PrimSpec PrimProofs StringModel ArrayModel
  ArraySpec ArrayProofs ChainModel RegistryModel EnumModel EnumSpec EnumProofs EnumProps FieldModel
  FieldSpec FieldProofs FieldExportProofs FieldProps ProtoModel.

(** ** Lists *)
Lemma upd_length {A} f (l : list A) : forall i, List.length (upd i f l) = List.length l.
Proof. induction l as [|x l IH]; intros [|i]; cbn; auto. Qed.

Lemma upd_nth {A} f (l : list A) : forall i j,
  nth_error (upd i f l) j = if Nat.eq_dec i j then option_map f (nth_error l j) else nth_error l j.
Proof.
  induction l as [|x l IH]; intros i j.
  - destruct i, j; cbn [upd nth_error option_map]; destruct (Nat.eq_dec _ _); reflexivity.
  - destruct i as [|i], j as [|j]; cbn [upd nth_error option_map]; try reflexivity.
    rewrite IH. destruct (Nat.eq_dec i j), (Nat.eq_dec (S i) (S j)); try lia; reflexivity.
Qed.

Lemma set_nth_nth v l : forall e e',
  nth_error (set_nth e v l) e' =
  if Nat.eq_dec e e' then option_map (fun x => p_set x v) (nth_error l e') else nth_error l e'.
Proof.
  induction l as [|x l IH]; intros e e'.
  - destruct e, e'; cbn [set_nth nth_error option_map]; destruct (Nat.eq_dec _ _); reflexivity.
  - destruct e as [|e], e' as [|e']; cbn [set_nth nth_error option_map]; try reflexivity.
    rewrite IH. destruct (Nat.eq_dec e e'), (Nat.eq_dec (S e) (S e')); try lia; reflexivity.
Qed.

(** ** Shapes of chains *)
Definition a_rel (a b : arr) : Prop :=
  a_order a = a_order b /\ a_size a = a_size b /\ a_b2i a = a_b2i b /\ a_i2b a = a_i2b b /\
  a_specs a = a_specs b /\ map p_kind (a_elems a) = map p_kind (a_elems b).
Definition node_rel (n m : node) : Prop :=
  match n, m with
  | NArr a, NArr b => a_rel a b
  | NArr _, _ | _, NArr _ => False
  | _, _ => True
  end.
Definition sh (c d : chain) : Prop := Forall2 node_rel c d.

Lemma a_rel_refl a : a_rel a a.
Proof. repeat split. Qed.
Lemma node_rel_refl n : node_rel n n.
Proof. destruct n; cbn; auto using a_rel_refl. Qed.
Lemma sh_refl c : sh c c.
Proof. induction c; constructor; auto using node_rel_refl. Qed.
Lemma a_rel_trans a b c : a_rel a b -> a_rel b c -> a_rel a c.
Proof. unfold a_rel. intros H1 H2. decompose [and] H1. decompose [and] H2. repeat split; congruence. Qed.
Lemma node_rel_trans a b c : node_rel a b -> node_rel b c -> node_rel a c.
Proof. destruct a, b, c; cbn; try tauto. apply a_rel_trans. Qed.
Lemma sh_trans a b c : sh a b -> sh b c -> sh a c.
Proof.
  intros H. revert c. induction H as [|x y l l' N H IH]; intros d H'; inversion H'; subst; constructor.
  - eapply node_rel_trans; eassumption.
  - apply IH. assumption.
Qed.
Lemma node_rel_sym a b : node_rel a b -> node_rel b a.
Proof. destruct a, b; cbn; try tauto. unfold a_rel. intros H. decompose [and] H. repeat split; congruence. Qed.
Lemma sh_sym a b : sh a b -> sh b a.
Proof. induction 1; constructor; auto using node_rel_sym. Qed.

Lemma sh_length c d : sh c d -> List.length c = List.length d.
Proof. induction 1; cbn; congruence. Qed.
Lemma sh_nth c d : sh c d -> forall i,
  match nth_error c i, nth_error d i with
  | Some n, Some m => node_rel n m | None, None => True | _, _ => False end.
Proof. induction 1; intros [|i]; cbn; auto. apply IHForall2. Qed.

Lemma end_pos_sh c d : sh c d -> end_pos c = end_pos d.
Proof.
  intros H. unfold end_pos. rewrite (sh_length c d H).
  pose proof (sh_nth c d H (pred (List.length d))) as N.
  destruct (nth_error c _) as [[a| |]|], (nth_error d _) as [[b| |]|]; cbn in N; try tauto.
  f_equal. destruct N as (_ & _ & _ & _ & _ & K). rewrite <- (map_length p_kind (a_elems a)), K.
  apply map_length.
Qed.

Definition extra (l : option Z) : nat := match l with Some n => Z.to_nat (n - 1) | None => O end.

Lemma a_add_rel a b p q l m : a_rel a b -> p_kind p = p_kind q -> extra l = extra m ->
  a_rel (a_add a p l) (a_add b q m).
Proof.
  intros (H1 & H2 & H3 & H4 & H5 & H6) K E. unfold a_add. fold (extra l). fold (extra m). rewrite E.
  assert (S0 : ArrayModel.p_size p = ArrayModel.p_size q) by (unfold ArrayModel.p_size; rewrite K; reflexivity).
  assert (M : map p_kind (a_elems a ++ p :: repeat (p_copy p) (extra m)) =
              map p_kind (a_elems b ++ q :: repeat (p_copy q) (extra m))).
  { rewrite !map_app. cbn [map]. rewrite H6, K. f_equal. f_equal. clear - K.
    induction (extra m); cbn; congruence. }
  assert (L : zlen (a_elems a ++ p :: repeat (p_copy p) (extra m)) =
              zlen (a_elems b ++ q :: repeat (p_copy q) (extra m))).
  { unfold zlen. f_equal. rewrite <- (map_length p_kind), M. apply map_length. }
  repeat split; cbn [a_order a_size a_b2i a_i2b a_specs a_elems]; try assumption;
    rewrite ?S0, ?L, ?H2, ?H3, ?H4; reflexivity.
Qed.

Lemma c_add_cons2 bo n x c p l : c_add bo (n :: x :: c) p l = n :: c_add bo (x :: c) p l.
Proof. destruct n; reflexivity. Qed.

Lemma c_add_sh bo c d p q l m : sh c d -> p_kind p = p_kind q -> extra l = extra m ->
  sh (c_add bo c p l) (c_add bo d q m).
Proof.
  intros H K E. induction H as [|n n' c d N H IH]; [constructor|].
  destruct H as [|x y c d N' H].
  - destruct n, n'; cbn in N; try tauto; cbn [c_add]; repeat constructor; cbn [node_rel];
      auto using a_add_rel, a_rel_refl; try (apply a_add_rel; auto using a_rel_refl).
  - rewrite !c_add_cons2. constructor; assumption.
Qed.

Lemma sh_app a b c d : sh a b -> sh c d -> sh (a ++ c) (b ++ d).
Proof. apply Forall2_app. Qed.

(** ** Reading and writing places *)
Lemma end_pos_cons n x c : end_pos (n :: x :: c) = (S (fst (end_pos (x :: c))), snd (end_pos (x :: c))).
Proof.
  unfold end_pos. cbn [List.length pred nth_error]. destruct (nth_error (x :: c) (List.length c)) as [[a| |]|]; reflexivity.
Qed.

Lemma c_get_cons n c i e : c_get (n :: c) (S i, e) = c_get c (i, e).
Proof. reflexivity. Qed.

Lemma c_add_old bo c p l ps x : c_get c ps = Some x -> c_get (c_add bo c p l) ps = Some x.
Proof.
  revert ps. induction c as [|n c IH]; intros [i e] H; [destruct i; discriminate|].
  destruct c as [|m c].
  - destruct i as [|i]; [|destruct i; discriminate]. destruct n as [a|d|d]; try discriminate.
    cbn in *. rewrite nth_error_app1; [exact H|]. apply nth_error_Some. congruence.
  - rewrite c_add_cons2. destruct i as [|i]; [exact H|]. rewrite c_get_cons in *. apply IH. exact H.
Qed.

Lemma c_add_new bo c p l : c <> [] -> c_get (c_add bo c p l) (end_pos c) = Some p.
Proof.
  induction c as [|n c IH]; intros H; [congruence|]. destruct c as [|m c].
  - destruct n as [a|d|d]; cbn.
    + rewrite nth_error_app2, Nat.sub_diag by lia. reflexivity.
    + reflexivity.
    + reflexivity.
  - rewrite c_add_cons2, end_pos_cons, c_get_cons. rewrite <- surjective_pairing. apply IH. discriminate.
Qed.

Lemma c_add_only bo c p l ps x : extra l = O -> c <> [] -> c_get (c_add bo c p l) ps = Some x ->
  ps = end_pos c /\ x = p \/ c_get c ps = Some x.
Proof.
  intros E. revert ps. induction c as [|n c IH]; intros [i e] H G; [congruence|].
  destruct c as [|m c].
  - destruct n as [a|d|d]; cbn in G |- *.
    + destruct i as [|i]; [|destruct i; discriminate]. cbn in G. fold (extra l) in G. rewrite E in G. cbn in G.
      destruct (Nat.lt_ge_cases e (List.length (a_elems a))) as [L|L].
      * rewrite nth_error_app1 in G by lia. auto.
      * rewrite nth_error_app2 in G by lia.
        destruct (e - List.length (a_elems a))%nat as [|q] eqn:D; cbn in G.
        -- left. injection G as <-. split; [f_equal; lia|reflexivity].
        -- destruct q; discriminate.
    + destruct i as [|[|[|i]]]; cbn in G; try discriminate. fold (extra l) in G. rewrite E in G. cbn in G.
      destruct e as [|[|e]]; cbn in G; try discriminate. left. injection G as <-. auto.
    + destruct i as [|[|[|i]]]; cbn in G; try discriminate. fold (extra l) in G. rewrite E in G. cbn in G.
      destruct e as [|[|e]]; cbn in G; try discriminate. left. injection G as <-. auto.
  - rewrite c_add_cons2 in G. destruct i as [|i]; [right; exact G|]. rewrite c_get_cons in G.
    rewrite end_pos_cons. destruct (IH (i, e)) as [(Ep & Ex)|Ho]; [discriminate|exact G| |].
    + left. split; [|exact Ex]. rewrite <- Ep. reflexivity.
    + right. rewrite c_get_cons. exact Ho.
Qed.

Lemma c_add_ne bo c p l : c <> [] -> c_add bo c p l <> [].
Proof. destruct c as [|n [|m c]]; intros H; [congruence| |]; destruct n; discriminate. Qed.

Lemma end_pos_fresh c x : c_get c (end_pos c) = Some x -> False.
Proof.
  unfold end_pos. destruct (nth_error c (pred (List.length c))) as [[a|d|d]|] eqn:E; unfold c_get; cbn [fst snd].
  - rewrite E. intros H. assert (nth_error (a_elems a) (List.length (a_elems a)) <> None) as N by congruence.
    apply nth_error_Some in N. lia.
  - assert (nth_error c (List.length c) = None) as -> by (apply nth_error_None; lia). discriminate.
  - assert (nth_error c (List.length c) = None) as -> by (apply nth_error_None; lia). discriminate.
  - assert (nth_error c (List.length c) = None) as -> by (apply nth_error_None; lia). discriminate.
Qed.

Lemma c_put_sh c ps v : sh c (c_put c ps v).
Proof.
  unfold c_put. destruct ps as [i e]. cbn [fst snd]. revert i.
  induction c as [|n c IH]; intros [|i]; cbn; constructor; auto using node_rel_refl, sh_refl.
  - destruct n; cbn; auto. repeat split; cbn; auto. symmetry. apply set_nth_kinds.
  - apply sh_refl.
  - apply IH.
Qed.

Lemma c_get_put c ps v ps' :
  c_get (c_put c ps v) ps' =
  if (if Nat.eq_dec (fst ps) (fst ps') then if Nat.eq_dec (snd ps) (snd ps') then true else false else false) : bool
  then option_map (fun x => p_set x v) (c_get c ps') else c_get c ps'.
Proof.
  unfold c_get, c_put. rewrite upd_nth. destruct (Nat.eq_dec (fst ps) (fst ps')); [|reflexivity].
  destruct (nth_error c (fst ps')) as [[a|d|d]|]; cbn; try (destruct (Nat.eq_dec _ _); reflexivity).
  rewrite set_nth_nth. destruct (Nat.eq_dec _ _); reflexivity.
Qed.
Lemma c_get_put_eq c ps v : c_get (c_put c ps v) ps = option_map (fun x => p_set x v) (c_get c ps).
Proof.
  rewrite c_get_put. destruct (Nat.eq_dec (fst ps) (fst ps)), (Nat.eq_dec (snd ps) (snd ps)); congruence.
Qed.
Lemma c_get_put_ne c ps v ps' : ps <> ps' -> c_get (c_put c ps v) ps' = c_get c ps'.
Proof.
  intros H. rewrite c_get_put. destruct ps as [i e], ps' as [j f]. cbn [fst snd].
  destruct (Nat.eq_dec i j), (Nat.eq_dec e f); try reflexivity. congruence.
Qed.

(** Same shape and same elements: the same chain of arrays. *)
Lemma sh_get c d : sh c d -> forall ps,
  option_map p_kind (c_get c ps) = option_map p_kind (c_get d ps).
Proof.
  intros H [i e]. unfold c_get. cbn [fst snd]. pose proof (sh_nth c d H i) as N.
  destruct (nth_error c i) as [[a|x|x]|], (nth_error d i) as [[b|y|y]|]; cbn in N; try tauto; try reflexivity.
  destruct N as (_ & _ & _ & _ & _ & K).
  rewrite <- !nth_error_map. rewrite K. reflexivity.
Qed.

Definition all_arrays (c : chain) : Prop := Forall (fun n => exists a, n = NArr a) c.

Lemma sh_eq c d : sh c d -> all_arrays c -> (forall ps, c_get c ps = c_get d ps) -> c = d.
Proof.
  intros H. induction H as [|n m c d N H IH]; intros A G; [reflexivity|].
  inversion A as [|? ? [a ->] A']; subst. destruct m as [b|x|x]; cbn in N; try tauto.
  f_equal.
  - assert (E : a_elems a = a_elems b).
    { assert (Q : forall e, nth_error (a_elems a) e = nth_error (a_elems b) e).
      { intros e. exact (G (O, e)). }
      clear - Q. revert Q. generalize (a_elems a) (a_elems b). intros u v.
      revert v. induction u as [|x u IHu]; intros [|y v] Q; [reflexivity|discriminate (Q O)|discriminate (Q O)|].
      f_equal; [injection (Q O); auto|]. apply IHu. intros e. exact (Q (S e)). }
    destruct N as (H1 & H2 & H3 & H4 & H5 & _). destruct a, b; cbn in *; subst. reflexivity.
  - apply IH; [exact A'|]. intros [i e]. exact (G (S i, e)).
Qed.
