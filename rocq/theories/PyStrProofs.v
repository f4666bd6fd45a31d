(** Lemmas about the string operations. *)
From Coq Require Import ZifyBool ZifyNat.
From Verif Require Import Base BaseLemmas PyStrModel.

Lemma str_eqb_eq a : forall b, str_eqb a b = true <-> a = b.
Proof.
  induction a as [|x a IH]; intros [|y b]; cbn; split; try discriminate; auto.
  - intros H. apply andb_true_iff in H as [H1 H2]. apply Z.eqb_eq in H1 as ->. f_equal. apply IH, H2.
  - intros H; injection H as -> ->. rewrite Z.eqb_refl. apply IH. reflexivity.
Qed.
Lemma str_eqb_refl a : str_eqb a a = true.
Proof. apply str_eqb_eq. reflexivity. Qed.


Lemma split_on_none c s : ~ In c s -> split_on c s = [s].
Proof.
  induction s as [|x s IH]; intros H; [reflexivity|]. cbn.
  destruct (Z.eqb_spec x c) as [->|N]; [destruct H; left; reflexivity|].
  rewrite IH by (intros X; apply H; right; exact X). reflexivity.
Qed.
Lemma split_on_app c a b : ~ In c a -> split_on c (a ++ c :: b) = a :: split_on c b.
Proof.
  induction a as [|x a IH]; intros H; cbn.
  - rewrite Z.eqb_refl. reflexivity.
  - destruct (Z.eqb_spec x c) as [->|N]; [destruct H; left; reflexivity|].
    rewrite IH by (intros X; apply H; right; exact X). reflexivity.
Qed.
Lemma split_once_app c a b : ~ In c a -> split_once c (a ++ c :: b) = Some (a, b).
Proof.
  induction a as [|x a IH]; intros H; cbn.
  - rewrite Z.eqb_refl. reflexivity.
  - destruct (Z.eqb_spec x c) as [->|N]; [destruct H; left; reflexivity|].
    rewrite IH by (intros X; apply H; right; exact X). reflexivity.
Qed.
Lemma split_once_none c a : ~ In c a -> split_once c a = None.
Proof.
  induction a as [|x a IH]; intros H; cbn; [reflexivity|].
  destruct (Z.eqb_spec x c) as [->|N]; [destruct H; left; reflexivity|].
  rewrite IH by (intros X; apply H; right; exact X). reflexivity.
Qed.

(** A string without white space at its ends. *)
Definition stripped (s : str) : Prop := strip s = s.

Lemma lstrip_id s : (forall x s', s = x :: s' -> is_space x = false) -> lstrip s = s.
Proof. destruct s as [|x s]; intros H; [reflexivity|]. cbn. rewrite (H x s eq_refl). reflexivity. Qed.
Lemma strip_id s :
  (forall x s', s = x :: s' -> is_space x = false) ->
  (forall x s', s = s' ++ [x] -> is_space x = false) -> strip s = s.
Proof.
  intros H1 H2. unfold strip. rewrite (lstrip_id s H1).
  rewrite lstrip_id, rev_involutive; [reflexivity|].
  intros x s' E. apply (f_equal (@rev Z)) in E. rewrite rev_involutive in E. cbn in E.
  eapply H2. exact E.
Qed.
Lemma lstrip_suffix s : exists p, s = p ++ lstrip s /\ Forall (fun x => is_space x = true) p.
Proof.
  induction s as [|x s (p & E & F)]; [exists []; auto|]. cbn.
  destruct (is_space x) eqn:S; [|exists []; auto].
  exists (x :: p). split; [cbn; rewrite <- E; reflexivity|constructor; auto].
Qed.
Lemma lstrip_head s x s' : lstrip s = x :: s' -> is_space x = false.
Proof.
  induction s as [|y s IH]; cbn; [discriminate|]. destruct (is_space y) eqn:S; auto.
  intros H; injection H as -> ->. exact S.
Qed.
Lemma lstrip_idem s : lstrip (lstrip s) = lstrip s.
Proof. apply lstrip_id. intros x s' E. eapply lstrip_head. exact E. Qed.
Lemma strip_idem s : stripped (strip s).
Proof.
  unfold stripped, strip.
  destruct (lstrip_suffix (rev (lstrip s))) as (p & E & F).
  assert (G : lstrip (rev (lstrip (rev (lstrip s)))) = rev (lstrip (rev (lstrip s)))).
  { apply lstrip_id. intros x s' Ex.
    apply (f_equal (@rev Z)) in E. rewrite rev_involutive, rev_app_distr, Ex in E.
    cbn in E. eapply lstrip_head. exact E. }
  rewrite G, rev_involutive, lstrip_idem. reflexivity.
Qed.
Lemma strip_space s : strip (32 :: s) = strip s.
Proof. reflexivity. Qed.

Lemma lower_idem s : lower (lower s) = lower s.
Proof.
  unfold lower. rewrite map_map. apply map_ext. intros x. unfold lower1.
  destruct ((65 <=? x) && (x <=? 90)) eqn:E; [|rewrite E; reflexivity].
  destruct ((65 <=? x + 32) && (x + 32 <=? 90)) eqn:E'; [lia|reflexivity].
Qed.

(** ** Decimal numbers *)
Definition is_digit (x : Z) : Prop := 48 <= x <= 57.

Lemma digits_app l : forall acc prev r,
  Forall is_digit l -> l <> [] ->
  digits acc prev (l ++ r) = digits (fold_left (fun a x => 10 * a + (x - 48)) l acc) true r.
Proof.
  induction l as [|x l IH]; intros acc prev r H N; [congruence|].
  inversion H as [|? ? Hx Hl]; subst. cbn [app digits fold_left].
  unfold is_digit in Hx. destruct ((48 <=? x) && (x <=? 57)) eqn:E; [|lia].
  destruct l as [|y l]; [reflexivity|]. apply IH; [exact Hl|discriminate].
Qed.
Lemma digits_all l : Forall is_digit l -> l <> [] ->
  digits 0 false l = Some (fold_left (fun a x => 10 * a + (x - 48)) l 0).
Proof.
  intros H N. rewrite <- (app_nil_r l) at 1. rewrite digits_app by assumption. reflexivity.
Qed.

Lemma dec_pos_spec fuel : forall n acc,
  0 <= n -> n < 2 ^ Z.of_nat fuel ->
  exists l, dec_pos fuel n acc = l ++ acc /\ Forall is_digit l /\
    (fuel <> O -> l <> []) /\ fold_left (fun a x => 10 * a + (x - 48)) l 0 = n.
Proof.
  induction fuel as [|fuel IH]; intros n acc Hn Hl.
  - cbn in Hl. exists []. cbn. split; [reflexivity|]. split; [constructor|]. split; [congruence|lia].
  - cbn [dec_pos]. destruct (Z.ltb_spec n 10) as [L|L].
    + exists [48 + n mod 10]. split; [reflexivity|]. rewrite Z.mod_small by lia.
      split; [constructor; [unfold is_digit; lia|constructor]|]. split; [discriminate|]. cbn [fold_left]. lia.
    + assert (Hq : n / 10 < 2 ^ Z.of_nat fuel).
      { rewrite Nat2Z.inj_succ, Z.pow_succ_r in Hl by lia.
        apply Z.div_lt_upper_bound; lia. }
      destruct (IH (n / 10) ((48 + n mod 10) :: acc) ltac:(apply Z.div_pos; lia) Hq)
        as (l & E & F & Nn & V).
      exists (l ++ [48 + n mod 10]). split; [rewrite E, <- app_assoc; reflexivity|].
      pose proof (Z.mod_pos_bound n 10 ltac:(lia)).
      split; [apply Forall_app; split; [exact F|constructor; [unfold is_digit; lia|constructor]]|].
      split; [intros _; destruct l; discriminate|].
      rewrite fold_left_app, V. cbn [fold_left]. pose proof (Z.div_mod n 10 ltac:(lia)). lia.
Qed.

Lemma dec_nonneg n : 0 <= n ->
  exists l, dec n = l /\ Forall is_digit l /\ l <> [] /\
    fold_left (fun a x => 10 * a + (x - 48)) l 0 = n.
Proof.
  intros Hn. unfold dec. destruct (Z.ltb_spec n 0); [lia|].
  assert (B : n < 2 ^ Z.of_nat (S (Z.to_nat (Z.log2 n)))).
  { rewrite Nat2Z.inj_succ, Z2Nat.id by apply Z.log2_nonneg.
    destruct (Z.eq_dec n 0) as [->|]; [reflexivity|]. apply Z.log2_spec. lia. }
  destruct (dec_pos_spec _ n [] Hn B) as (l & E & F & N & V).
  rewrite app_nil_r in E. exists l. rewrite E. auto.
Qed.

Lemma digit_not_space x : is_digit x -> is_space x = false.
Proof. unfold is_digit, is_space. lia. Qed.

Lemma strip_digits p l : Forall is_digit l -> l <> [] -> is_space p = false ->
  strip l = l /\ strip (p :: l) = p :: l.
Proof.
  intros F N Hp. rewrite Forall_forall in F. split; apply strip_id.
  - intros x s' ->. apply digit_not_space, F. left; reflexivity.
  - intros x s' ->. apply digit_not_space, F. apply in_or_app; right; left; reflexivity.
  - intros x s' E. injection E as <- _. exact Hp.
  - intros x s' E. destruct s' as [|y s']; cbn in E.
    + injection E as -> E. congruence.
    + injection E as _ ->. apply digit_not_space, F. apply in_or_app; right; left; reflexivity.
Qed.

(** int(str(n)) = n *)
Lemma py_int_dec n : py_int (dec n) = Some n.
Proof.
  destruct (Z.lt_ge_cases n 0) as [Hn|Hn].
  - assert (E : dec n = 45 :: dec (- n)).
    { unfold dec. destruct (Z.ltb_spec n 0); [|lia]. destruct (Z.ltb_spec (- n) 0); [lia|reflexivity]. }
    destruct (dec_nonneg (- n) ltac:(lia)) as (l & El & F & N & V).
    rewrite E, El. unfold py_int.
    rewrite (proj2 (strip_digits 45 l F N eq_refl)).
    rewrite (digits_all l F N), V. cbn. f_equal. lia.
  - destruct (dec_nonneg n Hn) as (l & El & F & N & V). rewrite El.
    unfold py_int. rewrite (proj1 (strip_digits 45 l F N eq_refl)).
    destruct l as [|x l]; [congruence|].
    assert (Hx : is_digit x) by (inversion F; assumption).
    pose proof (digits_all (x :: l) F N) as D. rewrite V in D.
    unfold is_digit in Hx.
    destruct x as [|p|p]; try lia.
    do 6 (destruct p as [p|p|]; try lia; try exact D).
Qed.

Lemma dec_chars n x : In x (dec n) -> x = 45 \/ is_digit x.
Proof.
  destruct (Z.lt_ge_cases n 0) as [Hn|Hn].
  - assert (E : dec n = 45 :: dec (- n)).
    { unfold dec. destruct (Z.ltb_spec n 0); [|lia]. destruct (Z.ltb_spec (- n) 0); [lia|reflexivity]. }
    destruct (dec_nonneg (- n) ltac:(lia)) as (l & El & F & _).
    rewrite E, El. intros [<-|H]; [auto|right]. rewrite Forall_forall in F. auto.
  - destruct (dec_nonneg n Hn) as (l & El & F & _). rewrite El.
    intros H. right. rewrite Forall_forall in F. auto.
Qed.
Lemma dec_stripped n : stripped (dec n).
Proof.
  destruct (Z.lt_ge_cases n 0) as [Hn|Hn].
  - assert (E : dec n = 45 :: dec (- n)).
    { unfold dec. destruct (Z.ltb_spec n 0); [|lia]. destruct (Z.ltb_spec (- n) 0); [lia|reflexivity]. }
    destruct (dec_nonneg (- n) ltac:(lia)) as (l & El & F & N & _).
    rewrite E, El. apply (strip_digits 45 l F N eq_refl).
  - destruct (dec_nonneg n Hn) as (l & El & F & N & _). rewrite El.
    apply (strip_digits 45 l F N eq_refl).
Qed.
