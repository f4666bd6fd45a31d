(** C101: Python enumerations as runtime enumerations. *)
From Verif Require Import Base BaseLemmas RegistryModel RegistrySpec RegistryProofs EnumModel EnumSpec EnumProofs EnumProps PyEnumModel PyEnumSpec.
From Coq Require Import Ascii ZifyBool ZifyNat Lia.
Open Scope list_scope.

Lemma smap_ext f g s : (forall c, f c = g c) -> smap f s = smap g s.
Proof. intros H. induction s as [|c s IH]; cbn; [reflexivity|]. rewrite H, IH. reflexivity. Qed.
Lemma smap_smap f g s : smap f (smap g s) = smap (fun c => f (g c)) s.
Proof. induction s as [|c s IH]; cbn; [reflexivity|]. rewrite IH. reflexivity. Qed.
Lemma upper_lower s : py_upper (py_lower s) = py_upper s.
Proof. unfold py_upper, py_lower. rewrite smap_smap. apply smap_ext. intros [[] [] [] [] [] [] [] []]; reflexivity. Qed.
Lemma lower_upper s : py_lower (py_upper s) = py_lower s.
Proof. unfold py_upper, py_lower. rewrite smap_smap. apply smap_ext. intros [[] [] [] [] [] [] [] []]; reflexivity. Qed.

Lemma lower_lower s : py_lower (py_lower s) = py_lower s.
Proof. unfold py_lower. rewrite smap_smap. apply smap_ext. intros [[] [] [] [] [] [] [] []]; reflexivity. Qed.

(** In small letters, in capitals: exactly the letters are changed, each to its own. *)
Lemma smap_get f s i : String.get i (smap f s) = option_map f (String.get i s).
Proof. revert i. induction s as [|c s IH]; intros [|i]; cbn; try reflexivity. apply IH. Qed.
Lemma smap_length f s : String.length (smap f s) = String.length s.
Proof. induction s as [|c s IH]; cbn; [reflexivity|]. rewrite IH. reflexivity. Qed.
Lemma letters_in : forall a b, letter a b <-> In (a, b) (combine (list_ascii_of_string SMALL) (list_ascii_of_string CAPITAL)).
Proof.
  assert (G : forall s t a b, (exists i, String.get i s = Some a /\ String.get i t = Some b) <-> In (a, b) (combine (list_ascii_of_string s) (list_ascii_of_string t))).
  { induction s as [|x s IH]; intros [|y t] a b; cbn [list_ascii_of_string combine In].
    - split; [intros ([|] & H & _); discriminate H|intros []].
    - split; [intros ([|] & H & _); discriminate H|intros []].
    - split; [intros ([|] & _ & H); discriminate H|intros []].
    - rewrite <- IH. split.
      + intros ([|i] & A & B); cbn [String.get] in A, B; [left; congruence|right; exists i; auto].
      + intros [H|(i & A & B)]; [exists O; cbn [String.get]; split; congruence|exists (S i); auto]. }
  intros a b. apply G.
Qed.
Theorem C101_letters : forall s,
  String.length (py_lower s) = String.length s /\ String.length (py_upper s) = String.length s /\
  forall i c, String.get i s = Some c ->
    (forall a b, letter a b -> (c = b -> String.get i (py_lower s) = Some a) /\ (c = a -> String.get i (py_upper s) = Some b)) /\
    ((forall a, ~ letter a c) -> String.get i (py_lower s) = Some c) /\
    ((forall b, ~ letter c b) -> String.get i (py_upper s) = Some c).
Proof.
  intros s. split; [apply smap_length|]. split; [apply smap_length|]. intros i c G. unfold py_lower, py_upper. rewrite !smap_get, G. cbn [option_map]. split; [|split].
  - intros a b L. apply letters_in in L. split; intros ->; f_equal; cbn in L; intuition (match goal with H : (_, _) = (_, _) |- _ => injection H as <- <- end); reflexivity.
  - intros N. f_equal. destruct (ascii_dec (lower_char c) c) as [E|E]; [exact E|]. exfalso. apply (N (lower_char c)). apply letters_in. clear -E.
    destruct c as [[] [] [] [] [] [] [] []]; try (exfalso; apply E; reflexivity); vm_compute; tauto.
  - intros N. f_equal. destruct (ascii_dec (upper_char c) c) as [E|E]; [exact E|]. exfalso. apply (N (upper_char c)). apply letters_in. clear -E.
    destruct c as [[] [] [] [] [] [] [] []]; try (exfalso; apply E; reflexivity); vm_compute; tauto.
Qed.
Print Assumptions C101_letters.

Lemma members_from_iff : forall c seen n v, In (n, v) (members_from seen c) <->
  exists pre post, c = pre ++ (n, v) :: post /\ ~ In v (map snd pre) /\ ~ In v seen.
Proof.
  assert (Seen : forall v seen, existsb (Z.eqb v) seen = true <-> In v seen).
  { intros v seen. rewrite existsb_exists. split; [intros (x & I & E); assert (v = x) by lia; subst; exact I|intros I; exists v; split; [exact I|lia]]. }
  induction c as [|[a w] c IH]; intros seen n v; cbn [members_from].
  - split; [intros []|intros ([|] & post & H & _); discriminate H].
  - destruct (existsb (Z.eqb w) seen) eqn:E.
    + apply Seen in E. rewrite IH. split.
      * intros (pre & post & -> & A & B). exists ((a, w) :: pre), post. split; [reflexivity|]. split; [|exact B]. cbn [map snd]. intros [->|X]; [exact (B E)|exact (A X)].
      * intros (pre & post & H & A & B). destruct pre as [|p pre]; cbn [app] in H; injection H; intros.
        -- subst. contradiction.
        -- subst. exists pre, post. split; [reflexivity|]. split; [|exact B]. intros X. apply A. right. exact X.
    + assert (Ns : ~ In w seen) by (intros X; apply Seen in X; congruence). cbn [In]. rewrite IH. split.
      * intros [H|(pre & post & -> & A & B)].
        -- injection H as <- <-. exists [], c. split; [reflexivity|]. split; [intros []|exact Ns].
        -- exists ((a, w) :: pre), post. split; [reflexivity|]. cbn [map snd In] in *. split; [|tauto]. intros [->|X]; tauto.
      * intros (pre & post & H & A & B). destruct pre as [|p pre]; cbn [app] in H; injection H; intros; subst; [left; reflexivity|].
        right. exists pre, post. split; [reflexivity|]. cbn [map snd In] in *. split; [tauto|]. intros [->|X]; tauto.
Qed.
Lemma members_iff c n v : In (n, v) (members c) <-> is_member c n v.
Proof.
  unfold members, is_member. rewrite members_from_iff. split; intros (pre & post & H); exists pre, post; [tauto|]. destruct H as (A & B). split; [exact A|]. split; [exact B|intros []].
Qed.
Lemma members_values : forall c seen, NoDup (map snd (members_from seen c)).
Proof.
  induction c as [|[a w] c IH]; intros seen; cbn [members_from]; [constructor|]. destruct (existsb (Z.eqb w) seen); [apply IH|].
  cbn [map snd]. constructor; [|apply IH]. intros X. apply in_map_iff in X. destruct X as ([n v] & E & X). cbn [snd] in E. subst. apply members_from_iff in X. destruct X as (? & ? & _ & _ & X). apply X. left. reflexivity.
Qed.
Lemma member_of_value c v : (exists n, is_member c n v) <-> In v (map snd c).
Proof.
  split.
  - intros (n & pre & post & -> & _). rewrite map_app. apply in_or_app. right. left. reflexivity.
  - induction c as [|[a w] c IH]; [intros []|]. cbn [map snd]. intros H. destruct (Z.eq_dec w v) as [->|N].
    + exists a, [], c. split; [reflexivity|intros []].
    + destruct H as [H|H]; [contradiction|]. destruct (IH H) as (n & pre & post & -> & A). exists n, ((a, w) :: pre), post. split; [reflexivity|]. intros [X|X]; tauto.
Qed.
Lemma member_unique c n n' v : is_member c n v -> is_member c n' v -> n = n'.
Proof.
  rewrite <- !members_iff. pose proof (members_values c []) as N. fold (members c) in N. induction (members c) as [|[a w] l IH]; [intros []|].
  cbn [map snd] in N. inversion N as [|? ? N1 N2]; subst. intros [H|H] [H'|H'].
  - congruence.
  - injection H as -> ->. exfalso. apply N1. apply in_map_iff. exists (n', v). auto.
  - injection H' as -> ->. exfalso. apply N1. apply in_map_iff. exists (n, v). auto.
  - apply IH; assumption.
Qed.
Lemma by_value_iff c v n w : by_value c v = Some (n, w) <-> w = v /\ is_member c n v.
Proof.
  unfold by_value. split.
  - intros H. apply find_some in H. destruct H as (I & E). cbn [snd] in E. assert (w = v) by lia. subst. split; [reflexivity|]. apply members_iff. exact I.
  - intros (-> & M). destruct (find (fun m => snd m =? v) (members c)) as [[n' w]|] eqn:F.
    + apply find_some in F. destruct F as (I & E). cbn [snd] in E. assert (w = v) by lia. subst. apply members_iff in I. rewrite (member_unique c n' n v I M). reflexivity.
    + exfalso. apply members_iff in M. apply (find_none _ _ F) in M. cbn [snd] in M. lia.
Qed.
Lemma by_value_none c v : by_value c v = None <-> ~ In v (map snd c).
Proof.
  rewrite <- member_of_value. split.
  - intros H (n & M). assert (X : by_value c v = Some (n, v)) by (apply by_value_iff; auto). congruence.
  - intros H. destruct (by_value c v) as [[n w]|] eqn:E; [|reflexivity]. apply by_value_iff in E. exfalso. apply H. exists n. tauto.
Qed.

(** ** normalize *)
(** A number gives the member with that value, or raises if there is none; so do
    booleans and members of any integer enumeration. *)
Theorem C101_number : forall c v,
  (forall n, normalize c (AInt v) = Member (n, v) <-> is_member c n v) /\
  (normalize c (AInt v) = Raised <-> ~ In v (map snd c)) /\
  normalize c (AMember v) = normalize c (AInt v) /\
  (forall b, normalize c (ABool b) = normalize c (AInt (if b then 1 else 0))).
Proof.
  intros c v. cbn [normalize]. unfold or_raise. split; [|split; [|split; reflexivity]].
  - intros n. destruct (by_value c v) as [[n' w]|] eqn:E.
    + split; [intros H; injection H as -> ->; apply by_value_iff in E; tauto|]. intros M. assert (X : by_value c v = Some (n, v)) by (apply by_value_iff; auto). congruence.
    + split; [discriminate|]. intros M. assert (X : by_value c v = Some (n, v)) by (apply by_value_iff; auto). congruence.
  - rewrite <- by_value_none. destruct (by_value c v) as [m|]; split; intros H; congruence.
Qed.
(** A member of the class gives itself. *)
Theorem C101_itself : forall c n v, is_member c n v -> normalize c (AMember v) = Member (n, v).
Proof. intros c n v M. apply (C101_number c v). exact M. Qed.
(** A text gives the member that the name in capitals stands for, be it its first name
    or another one. *)
Theorem C101_text : forall c s, a_class c ->
  (forall n v, normalize c (AStr s) = Member (n, v) <-> is_member c n v /\ In (py_upper s, v) c) /\
  (normalize c (AStr s) = Raised <-> ~ In (py_upper s) (map fst c)).
Proof.
  intros c s A. cbn [normalize]. unfold by_attr, or_raise. destruct (dget (py_upper s) c) as [w|] eqn:G.
  - assert (I : In (py_upper s, w) c).
    { clear A. revert G. generalize (py_upper s) as k. intros k. induction c as [|[a x] c IH]; cbn [dget]; [discriminate|]. destruct (eq_dec k a) as [->|]; [intros H; injection H as ->; left; reflexivity|]. intros H. right. apply IH. exact H. }
    assert (Iv : In w (map snd c)) by (apply (in_map snd) in I; exact I). destruct (proj2 (member_of_value c w) Iv) as (n0 & M0).
    assert (E : by_value c w = Some (n0, w)) by (apply by_value_iff; auto). rewrite E. split.
    + intros n v. split.
      * intros H. injection H as <- <-. auto.
      * intros (M & I2). assert (w = v). { apply (In_dget _ _ _ A) in I2. congruence. } subst. rewrite (member_unique c n n0 v M M0). reflexivity.
    + split; [discriminate|]. intros H. exfalso. apply H. apply (in_map fst) in I. exact I.
  - apply dget_None_notin in G. split.
    + intros n v. split; [discriminate|]. intros (_ & I). exfalso. apply G. apply (in_map fst) in I. exact I.
    + split; [intros _; exact G|reflexivity].
Qed.
(** So any spelling of a name in capitals finds it. *)
Theorem C101_any_case : forall c n v s, a_class c -> is_member c n v -> py_upper n = n -> same_letters s n -> normalize c (AStr s) = Member (n, v).
Proof.
  intros c n v s A M U L. apply (C101_text c s A). split; [exact M|]. assert (E : py_upper s = n) by (rewrite <- U, <- (upper_lower s), <- (upper_lower n); f_equal; exact L).
  rewrite E. destruct M as (pre & post & -> & _). apply in_or_app. right. left. reflexivity.
Qed.
(** A member whose name has a small letter is not found by its own name, nor by any
    other text unless it has another name in capitals. *)
Theorem C101_small_letters_refuted : forall c n v s, a_class c -> is_member c n v ->
  (forall n', In (n', v) c -> py_upper n' <> n') -> normalize c (AStr s) <> Member (n, v).
Proof.
  intros c n v s A M N H. apply (C101_text c s A) in H. destruct H as (_ & I). apply (N _ I).
  unfold py_upper. rewrite smap_smap. apply smap_ext. intros [[] [] [] [] [] [] [] []]; reflexivity.
Qed.
(** What is neither number nor text is returned as it is. *)
Theorem C101_other_refuted : forall c, normalize c AOther = Unchanged.
Proof. reflexivity. Qed.

(** ** The runtime enumeration *)
Lemma items_get : forall (l d : list (string * Z)) (k : string), dget k (fold_left (fun d m => dset (py_lower (fst m)) (snd m) d) l d) =
  match find (fun m => if eq_dec (py_lower (fst m)) k then true else false) (rev l) with Some m => Some (snd m) | None => dget k d end.
Proof.
  induction l as [|m l IH] using rev_ind; intros d k; [reflexivity|]. rewrite fold_left_app, rev_app_distr. cbn [fold_left rev app find].
  destruct (eq_dec (py_lower (fst m)) k) as [<-|N]; [apply dget_dset_eq|]. rewrite dget_dset_ne by congruence. apply IH.
Qed.
Lemma items_keys : forall (l d : list (string * Z)), NoDup (dkeys d) -> NoDup (dkeys (fold_left (fun d m => dset (py_lower (fst m)) (snd m) d) l d)).
Proof. induction l as [|m l IH]; intros d N; [exact N|]. cbn [fold_left]. apply IH. apply NoDup_dset. exact N. Qed.
Lemma data_keys c : NoDup (dkeys (data_from_enum c)).
Proof. apply items_keys. constructor. Qed.
Lemma find_last {A} (f : A -> bool) l x : find f (rev l) = Some x <-> exists pre post, l = pre ++ x :: post /\ f x = true /\ forall y, In y post -> f y = false.
Proof.
  induction l as [|a l IH] using rev_ind.
  - split; [discriminate|]. intros ([|] & post & H & _); discriminate H.
  - rewrite rev_app_distr. cbn [rev app find]. destruct (f a) eqn:E.
    + split.
      * intros H. injection H as <-. exists l, []. split; [reflexivity|]. split; [exact E|intros ? []].
      * intros (pre & post & H & Fx & Fp). destruct post as [|b post] using rev_ind.
        -- apply app_inj_tail in H. destruct H as (_ & ->). reflexivity.
        -- change (pre ++ x :: post ++ [b]) with (pre ++ (x :: post) ++ [b]) in H. rewrite app_assoc in H. apply app_inj_tail in H. destruct H as (_ & ->). rewrite (Fp b) in E by (apply in_or_app; right; left; reflexivity). discriminate E.
    + rewrite IH. split.
      * intros (pre & post & -> & Fx & Fp). exists pre, (post ++ [a]). split; [rewrite <- app_assoc; reflexivity|]. split; [exact Fx|]. intros y I. apply in_app_or in I. destruct I as [I|[<-|[]]]; [apply Fp; exact I|exact E].
      * intros (pre & post & H & Fx & Fp). destruct post as [|b post _] using rev_ind.
        -- apply app_inj_tail in H. destruct H as (_ & ->). congruence.
        -- change (pre ++ x :: post ++ [b]) with (pre ++ (x :: post) ++ [b]) in H. rewrite app_assoc in H. apply app_inj_tail in H. destruct H as (-> & ->). exists pre, post. split; [reflexivity|]. split; [exact Fx|]. intros y I. apply Fp. apply in_or_app. left. exact I.
Qed.

Lemma data_last c k v : dget k (data_from_enum c) = Some v <-> last_with c k v.
Proof.
  unfold data_from_enum, last_with. rewrite items_get.
  destruct (find _ (rev (members c))) as [[n w]|] eqn:F.
  - apply find_last in F. destruct F as (pre & post & E & Fx & Fp). cbn [fst] in Fx. destruct (eq_dec (py_lower n) k) as [Ek|]; [|discriminate].
    assert (Fp' : forall m, In m post -> py_lower (fst m) <> k) by (intros m I; specialize (Fp m I); cbv beta in Fp; destruct (eq_dec (py_lower (fst m)) k); [discriminate|assumption]).
    cbn [snd]. split.
    + intros H. injection H as ->. exists pre, n, post. auto.
    + intros (pre' & n' & post' & E' & Ek' & Fp''). f_equal.
      assert (F2 : find (fun m => if eq_dec (py_lower (fst m)) k then true else false) (rev (members c)) = Some (n', v)).
      { apply find_last. exists pre', post'. split; [exact E'|]. split; [cbn [fst]; destruct (eq_dec (py_lower n') k); [reflexivity|contradiction]|].
        intros y I. specialize (Fp'' y I). destruct (eq_dec (py_lower (fst y)) k); [contradiction|reflexivity]. }
      assert (F1 : find (fun m => if eq_dec (py_lower (fst m)) k then true else false) (rev (members c)) = Some (n, w)).
      { apply find_last. exists pre, post. split; [exact E|]. split; [cbn [fst]; destruct (eq_dec (py_lower n) k); [reflexivity|contradiction]|]. exact Fp. }
      congruence.
  - cbn [dget]. split; [discriminate|]. intros (pre & n & post & E & Ek & Fp). exfalso.
    assert (I : In (n, v) (rev (members c))) by (rewrite <- in_rev, E; apply in_or_app; right; left; reflexivity).
    apply (find_none _ _ F) in I. cbn [fst] in I. destruct (eq_dec (py_lower n) k); [discriminate|contradiction].
Qed.
Lemma in_get {V} (d : list (string * V)) k v : NoDup (dkeys d) -> (In (k, v) d <-> dget k d = Some v).
Proof.
  intros N. split; [apply In_dget; exact N|]. clear N. induction d as [|[a x] d IH]; cbn [dget]; [discriminate|]. destruct (eq_dec k a) as [->|]; [intros H; injection H as ->; left; reflexivity|]. intros H. right. apply IH. exact H.
Qed.
Lemma data_values c : NoDup (map snd (data_from_enum c)).
Proof.
  assert (G : forall d, NoDup (dkeys d) -> (forall k v, In (k, v) d -> last_with c k v) -> NoDup (map snd d)).
  { induction d as [|[k v] d IH]; cbn [dkeys map fst snd]; intros N L; [constructor|]. inversion N as [|? ? N1 N2]; subst. constructor.
    - intros X. apply in_map_iff in X. destruct X as ([k' v'] & E & X). cbn [snd] in E. subst v'.
      destruct (L k v (or_introl eq_refl)) as (p1 & n1 & q1 & E1 & K1 & _). destruct (L k' v (or_intror X)) as (p2 & n2 & q2 & E2 & K2 & _).
      assert (M1 : is_member c n1 v) by (apply members_iff; rewrite E1; apply in_or_app; right; left; reflexivity).
      assert (M2 : is_member c n2 v) by (apply members_iff; rewrite E2; apply in_or_app; right; left; reflexivity).
      rewrite (member_unique c n1 n2 v M1 M2) in K1. apply N1. apply in_map_iff. exists (k', v). split; [cbn [fst]; congruence|exact X].
    - apply IH; [exact N2|]. intros k' v' I. apply L. right. exact I. }
  apply G; [apply data_keys|]. intros k v I. apply data_last. apply In_dget; [apply data_keys|exact I].
Qed.

(** The members of a class: the first definitions of the values, in order. *)
Theorem C101_members : forall c, (forall n v, In (n, v) (members c) <-> is_member c n v) /\ NoDup (map snd (members c)) /\ in_order c (members c).
Proof.
  intros c. split; [apply members_iff|]. split; [apply members_values|]. unfold members. generalize (@nil Z). induction c as [|[n v] c IH]; intros seen; cbn [members_from]; [exact Logic.I|].
  destruct (existsb (Z.eqb v) seen).
  - specialize (IH seen). destruct (members_from seen c) as [|m l]; [exact Logic.I|]. cbn [in_order] in *. destruct IH as (pre & post & -> & O). exists ((n, v) :: pre), post. split; [reflexivity|exact O].
  - cbn [in_order]. exists [], c. split; [reflexivity|]. apply IH.
Qed.

Section Runtime.
  Context (valid : string -> bool) (int_of : string -> option Z) (bool_of : string -> option bool).
  Lemma make_ok c p : valid_names valid c -> In p integers -> exists r, make valid (data_from_enum c, p) = Some (mkRuntime (EInt r) p) /\
    m_rev (r_map r) = data_from_enum c /\ e_reachable valid (EInt r).
  Proof.
    intros Vn P. unfold make. cbn [fst snd]. assert (X : existsb (String.eqb p) PRIMITIVES = true) by (apply existsb_exists; exists p; split; [exact P|apply String.eqb_refl]). rewrite X.
    unfold e_new_int at 1. rewrite by_key_names, by_name_names. unfold r_new, m_new, m_load_rev. cbn [m_load].
    destruct (m_load_pairs valid (map (fun nk => (snd nk, fst nk)) (data_from_enum c)) m_empty) as (m & E & R).
    - apply MInv_empty.
    - rewrite map_map. apply data_values.
    - rewrite map_map. apply data_keys.
    - intros k n I. apply in_map_iff in I. destruct I as ([n' k'] & E & I). cbn [fst snd] in E. injection E as -> ->. apply in_get in I; [|apply data_keys]. apply data_last in I.
      destruct I as (pre & m & post & E & <- & _). assert (M : In (m, k) (members c)) by (rewrite E; apply in_or_app; right; left; reflexivity). apply members_iff in M. destruct M as (q & q' & -> & _). apply (Vn m k). apply in_or_app. right. left. reflexivity.
    - intros; split; reflexivity.
    - rewrite E. eexists. split; [reflexivity|]. cbn [r_map]. split.
      + rewrite R. cbn [m_empty m_rev app]. rewrite map_map. cbn [fst snd]. rewrite (map_ext _ (fun x => x)); [apply map_id|]. intros []; reflexivity.
      + eexists. exists []. split; [left|reflexivity]. exists (map (fun nk => ByName (fst nk) (snd nk)) (data_from_enum c)).
        unfold e_new_int. rewrite by_key_names, by_name_names. unfold r_new, m_new, m_load_rev. cbn [m_load]. rewrite E. reflexivity.
  Qed.
  (** Making a runtime enumeration of a class, directly or in a registry, gives one whose
      dictionary has, for every name of a member in small letters, the value of the last
      member with it. *)
  Theorem C101_direct : forall c i, valid_names valid c ->
    (i < 1 -> from_enum valid c i = None) /\ (1 <= i -> exists r, from_enum valid c i = Some r /\ rt_primitive r = "uint8"%string /\ made c (rt_enum r) /\ e_reachable valid (rt_enum r)).
  Proof.
    intros c i Vn. unfold from_enum. split; [intros I; replace (i <? 1) with true by lia; reflexivity|]. intros I. replace (i <? 1) with false by lia. destruct (make_ok c DEFAULT_ENUM_PRIMITIVE Vn) as (r & E & R & Re); [cbn; tauto|].
    exists (mkRuntime (EInt r) "uint8"). split; [exact E|]. split; [reflexivity|]. split; [|exact Re]. intros k v. cbn [rt_enum e_pairs]. unfold m_asdict. rewrite R, in_get by apply data_keys. apply data_last.
  Qed.
  Theorem C101_registered : forall p c g name, valid_names valid c -> g_reachable valid (make valid) g -> In p integers ->
    let '(g', o) := register_enum valid p c g name in
    match o with
    | Some it => g_get_name g name = None /\ g_get_name g' name = Some it /\ g_get_id g' (i_id it) = Some it /\
        rt_primitive (i_payload it) = p /\ made c (rt_enum (i_payload it)) /\ e_reachable valid (rt_enum (i_payload it)) /\
        (forall n, n <> name -> g_get_name g' n = g_get_name g n)
    | None => (forall n, g_get_name g' n = g_get_name g n) /\ forall i, g_get_id g' i = g_get_id g i
    end.
  Proof.
    intros p c g name Vn G P. unfold register_enum. pose proof (registry_step_effect valid _ _ (make valid) g (GRegisterDict name (mkIdata None (data_from_enum c, p))) G) as H. cbn [g_step] in H.
    assert (Pay : forall g' it, g_register_dict valid (make valid) g name (mkIdata None (data_from_enum c, p)) = (g', Ret (Some it)) -> Some (i_payload it) = make valid (data_from_enum c, p)).
    { intros g' it. unfold g_register_dict. cbn [d_id d_rest]. destruct (r_register valid (g_names g) name None) as [n' [[i|]| |]]; try discriminate. unfold g_finish, g_kind.
      destruct (make valid (data_from_enum c, p)) as [rt|]; [|discriminate]. destruct (g_register valid _ name (mkItem i rt)) as [g1 [[]| |]]; try discriminate. intros X. injection X as _ <-. reflexivity. }
    destruct (g_register_dict valid (make valid) g name (mkIdata None (data_from_enum c, p))) as [g' [[it|]| |]]; try exact H.
    destruct H as (A & B & C & D). specialize (Pay g' it eq_refl). destruct (make_ok c p Vn P) as (r & E & R & Re). rewrite E in Pay. injection Pay as Pay.
    split; [exact A|]. split; [exact B|]. split; [exact C|]. rewrite Pay. split; [reflexivity|]. split; [|split; [exact Re|exact D]].
    intros k v. cbn [rt_enum e_pairs]. unfold m_asdict. rewrite R, in_get by apply data_keys. apply data_last.
  Qed.
  (** A class can be registered under any name that nothing is registered under. *)
  Theorem C101_register_iff : forall p c g name, valid_names valid c -> g_reachable valid (make valid) g -> In p integers -> valid name = true ->
    ((exists it, snd (register_enum valid p c g name) = Some it) <-> g_get_name g name = None).
  Proof.
    intros p c g name Vn G P Vl. split.
    - intros (it & H). pose proof (C101_registered p c g name Vn G P) as X. destruct (register_enum valid p c g name) as [g' o]. cbn [snd] in H. subst o. tauto.
    - intros H. apply g_reachable_inv in G. rewrite (g_get_name_items runtime g name G) in H. destruct G as (HR & _). destruct (make_ok c p Vn P) as (r & E & _).
      unfold register_enum, g_register_dict. cbn [d_id d_rest]. pose proof (r_register_spec valid (g_names g) name None HR) as S1.
      assert (Fin : forall n i, dget name (m_rev (r_map n)) = Some i ->
        exists it, snd (match g_finish valid _ _ (make valid) (mkRegistry (g_items g) n) name i (data_from_enum c, p) with (g', Ret (Some it)) => (g', Some it) | (g', _) => (g', None) end) = Some it).
      { intros n i D. unfold g_finish, g_kind. rewrite E. unfold g_register. cbn [i_id g_names g_items]. unfold r_register, m_identifier. rewrite D, Z.eqb_refl.
        assert (Dm : dmem name (g_items g) = false) by (unfold dmem; rewrite H; reflexivity). rewrite Dm. eexists. reflexivity. }
      destruct (r_register valid (g_names g) name None) as [n' out]. destruct (dget name (m_rev (r_map (g_names g)))) as [curr|] eqn:D.
      + destruct S1 as (-> & ->). apply Fin. exact D.
      + rewrite Vl in S1. cbn [negb] in S1. destruct S1 as (i & -> & _ & Ms). apply Fin. apply m_set_ok in Ms; [|exact HR]. destruct Ms as (_ & _ & Hg & _). exact Hg.
  Qed.
  (** If no two members have the same letters, every member translates both ways, and a
      class with names in capitals gets its member back from the runtime name. *)
  Theorem C101_translates : forall c e n v, made c e -> e_reachable valid e -> letters_differ c -> is_member c n v ->
    e_get_int int_of bool_of e (VStr (py_lower n)) = Some v /\ e_get_str e (VInt v) = Some (py_lower n) /\
    (a_class c -> py_upper n = n -> normalize c (AStr (py_lower n)) = Member (n, v)).
  Proof.
    intros c e n v Md Re L M.
    assert (I : In (py_lower n, v) (e_pairs e)).
    { apply Md. apply members_iff in M. apply in_split in M. destruct M as (pre & post & E). exists pre, n, post. split; [exact E|]. split; [reflexivity|].
      intros [n' v'] I X. cbn [fst] in X. assert (M' : is_member c n' v') by (apply members_iff; rewrite E; apply in_or_app; right; right; exact I).
      assert (Mn : is_member c n v) by (apply members_iff; rewrite E; apply in_or_app; right; left; reflexivity).
      assert (v' = v) by (apply (L n' v' n v M' Mn X)). subst.
      pose proof (members_values c []) as N. fold (members c) in N. rewrite E, map_app in N. cbn [map snd] in N. apply NoDup_remove_2 in N. apply N. apply in_or_app. right. apply in_map_iff. exists (n', v). auto. }
    destruct (C06_enum_translations_agree valid int_of bool_of e Re _ _ I) as (A & _ & B & _). split; [exact B|]. split; [exact A|].
    intros Ac U. apply C101_any_case; try assumption. apply lower_lower.
  Qed.
  (** Otherwise the value of an earlier member with the same letters is unknown to the
      runtime enumeration. *)
  Theorem C101_case_refuted : forall c e pre n v mid n' v' post, made c e -> e_reachable valid e ->
    members c = pre ++ (n, v) :: mid ++ (n', v') :: post -> same_letters n n' ->
    e_get_str e (VInt v) = None /\ e_get_int int_of bool_of e (VInt v) = None /\ normalize c (AInt v) = Member (n, v).
  Proof.
    intros c e pre n v mid n' v' post Md Re E Sl.
    assert (X : ~ In v (map snd (e_pairs e))).
    { intros I. apply in_map_iff in I. destruct I as ([k w] & Ew & I). cbn [snd] in Ew. subst w. apply Md in I. destruct I as (p & m & q & E2 & <- & Q).
      assert (M1 : is_member c n v) by (apply members_iff; rewrite E; apply in_or_app; right; left; reflexivity).
      assert (M2 : is_member c m v) by (apply members_iff; rewrite E2; apply in_or_app; right; left; reflexivity).
      assert (m = n) by (apply (member_unique c m n v); assumption). subst m.
      assert (Eq : mid ++ (n', v') :: post = q).
      { pose proof (members_values c []) as N. fold (members c) in N. rewrite E, map_app in N. cbn [map snd] in N. rewrite E in E2. clear -N E2.
        revert p E2. induction pre as [|x pre IH]; intros [|y p] E2; cbn [app] in E2.
        - congruence.
        - injection E2 as Ex E2. subst y. exfalso. cbn [map app] in N. inversion N as [|? ? N1 N2]; subst. apply N1. rewrite E2, map_app. apply in_or_app. right. left. reflexivity.
        - injection E2 as Ex E2. subst x. exfalso. cbn [map app snd] in N. inversion N as [|? ? N1 N2]; subst. apply N1. apply in_or_app. right. left. reflexivity.
        - injection E2 as Ex E2. subst y. cbn [map app] in N. inversion N as [|? ? N1 N2]; subst. apply (IH N2 p E2). }
      apply (Q (n', v')); [rewrite <- Eq; apply in_or_app; right; left; reflexivity|]. cbn [fst]. symmetry. exact Sl. }
    destruct (C06_enum_unknown_raises valid int_of bool_of e Re) as (U & _). destruct (U v X) as (A & B). split; [exact A|]. split; [exact B|].
    apply (C101_number c v). apply members_iff. rewrite E. apply in_or_app. right. left. reflexivity.
  Qed.
  (** Another name of a member is known to the class but not to the runtime
      enumeration, unless a member has the same letters. *)
  Theorem C101_alias_refuted : forall c e a v n, made c e -> e_reachable valid e -> a_class c -> In (a, v) c -> py_upper a = a -> is_member c n v ->
    (forall m w, is_member c m w -> ~ same_letters m a) ->
    normalize c (AStr a) = Member (n, v) /\ e_get_str e (VStr (py_lower a)) = None.
  Proof.
    intros c e a v n Md Re Ac Ia U M D. split.
    - apply (C101_text c a Ac). rewrite U. auto.
    - apply (C06_enum_unknown_raises valid int_of bool_of e Re). intros X. apply in_map_iff in X. destruct X as ([k w] & Ek & X). cbn [fst] in Ek. subst k. apply Md in X.
      destruct X as (pre & m & post & E & Em & _). apply (D m w); [|exact Em]. apply members_iff. rewrite E. apply in_or_app. right. left. reflexivity.
  Qed.
End Runtime.

(** Made directly, the numbers always are uint8, whatever the members' values and
    whatever the class says they are. *)
Theorem C101_primitive_refuted : forall valid c n v i, valid_names valid c -> is_member c n v -> ~ fits_uint8 v -> 1 <= i ->
  exists r, from_enum valid c i = Some r /\ rt_primitive r = "uint8"%string /\ (letters_differ c -> e_get_str (rt_enum r) (VInt v) = Some (py_lower n)).
Proof.
  intros valid c n v i Vn M _ I. destruct (proj2 (C101_direct valid c i Vn) I) as (r & A & B & C & D). exists r. split; [exact A|]. split; [exact B|].
  intros L. apply (C101_translates valid (fun _ => None) (fun _ => None) c (rt_enum r) n v C D L M).
Qed.
Print Assumptions C101_primitive_refuted.

(** Examples. *)
Definition color : cls := [("RED", 1); ("GREEN", 300); ("CRIMSON", 1); ("Blue", 3)]%string.
Example color_class : a_class color /\ members color = [("RED", 1); ("GREEN", 300); ("Blue", 3)]%string /\ letters_differ color.
Proof.
  split; [repeat constructor; cbn; intuition discriminate|]. split; [reflexivity|]. intros n v n' v' A B. apply members_iff in A. apply members_iff in B. unfold same_letters.
  cbn in A, B. intuition (repeat match goal with H : (_, _) = (_, _) |- _ => injection H as <- <- end); try reflexivity; discriminate.
Qed.
Example color_normalize : normalize color (AStr "red") = Member ("RED"%string, 1) /\ normalize color (AStr "Crimson") = Member ("RED"%string, 1) /\
  normalize color (AStr "Blue") = Raised /\ normalize color (AInt 3) = Member ("Blue"%string, 3) /\ normalize color (ABool true) = Member ("RED"%string, 1) /\ normalize color (AInt 2) = Raised.
Proof. repeat split. Qed.
Example color_direct : option_map (fun r => (e_pairs (rt_enum r), rt_primitive r)) (from_enum (fun _ => true) color 1) =
  Some ([("red", 1); ("green", 300); ("blue", 3)], "uint8")%string.
Proof. reflexivity. Qed.
Example color_registered :
  match g_new (fun _ => true) (@nil (string * item runtime)) with
  | Some g => let '(g1, a) := register_enum (fun _ => true) "int16" color g "color" in
      let '(g2, b) := register_enum (fun _ => true) "int16" color g1 "color" in
      (option_map (fun it => (i_id it, rt_primitive (i_payload it))) a, match b with None => true | _ => false end) = (Some (1, "int16"%string), true)
  | None => False
  end.
Proof. vm_compute. reflexivity. Qed.
Definition clash : cls := [("On", 1); ("OFF", 0); ("ON", 2)]%string.
Example clash_case : members clash = [] ++ ("On"%string, 1) :: [("OFF"%string, 0)] ++ ("ON"%string, 2) :: [] /\ same_letters "On" "ON" /\
  option_map (fun r => e_pairs (rt_enum r)) (from_enum (fun _ => true) clash 1) = Some [("on", 2); ("off", 0)]%string.
Proof. repeat split. Qed.
Print Assumptions C101_number.
Print Assumptions C101_itself.
Print Assumptions C101_text.
Print Assumptions C101_any_case.
Print Assumptions C101_small_letters_refuted.
Print Assumptions C101_other_refuted.
Print Assumptions C101_members.
Print Assumptions C101_direct.
Print Assumptions C101_registered.
Print Assumptions C101_translates.
Print Assumptions C101_case_refuted.
Print Assumptions C101_alias_refuted.
Print Assumptions C101_register_iff.
