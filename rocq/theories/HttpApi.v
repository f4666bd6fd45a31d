(** C26: which texts the HTTP code takes for numbers (the content-length field, the
    version, the status code, the port of CONNECT), and what becomes of a request
    whose content-length is such a text, or is not. *)
From Verif Require Import Base BaseLemmas PyStrModel PyStrProofs MessageProofs HttpModel HttpSpec HttpProofs HttpProps.
From Coq Require Import ZifyBool ZifyNat Lia.

(** White space: tab, line feed, vertical tab, form feed, carriage return, the four
    separators 28 to 31, the space. *)
Definition white (x : Z) : Prop := In x [9; 10; 11; 12; 13; 28; 29; 30; 31; 32].
(** A group of digits. *)
Definition digit_group (g : str) : Prop := g <> [] /\ Forall (fun x => 48 <= x <= 57) g.
(** The number digits stand for. *)
Definition number (ds : str) : Z := fold_left (fun a x => 10 * a + (x - 48)) ds 0.
(** White space, an optional sign (43 is a plus, 45 a minus), groups of digits with
    an underscore (95) between them, white space. *)
Definition int_text (s : str) (n : Z) : Prop :=
  exists a sign gs b,
    s = a ++ sign ++ join 95 gs ++ b /\ Forall white a /\ Forall white b /\
    gs <> [] /\ Forall digit_group gs /\
    ((sign = [] \/ sign = [43]) /\ n = number (List.concat gs) \/
     sign = [45] /\ n = - number (List.concat gs)).

Lemma white_iff x : is_space x = true <-> white x.
Proof. unfold is_space, white. cbn [In]. lia. Qed.
Lemma join_cons_head x g gs : join 95 ((x :: g) :: gs) = x :: join 95 (g :: gs).
Proof. destruct gs; reflexivity. Qed.
Lemma digits_shape s : forall acc prev n, digits acc prev s = Some n ->
  exists g gs, (prev = false -> g <> []) /\ Forall is_digit g /\ Forall digit_group gs /\
    s = join 95 (g :: gs) /\
    n = fold_left (fun a x => 10 * a + (x - 48)) (g ++ List.concat gs) acc.
Proof.
  induction s as [|x s IH]; intros acc prev n H; cbn [digits] in H.
  - destruct prev; [|discriminate]. injection H as <-. exists [], []. repeat split; auto; discriminate.
  - destruct ((48 <=? x) && (x <=? 57)) eqn:D.
    + apply IH in H as (g & gs & _ & A & B & C & E). exists (x :: g), gs. rewrite join_cons_head, <- C.
      repeat split; auto; try discriminate. constructor; [unfold is_digit; lia|exact A].
    + destruct ((x =? 95) && prev) eqn:U; [|discriminate]. apply andb_true_iff in U as [U ->].
      apply Z.eqb_eq in U as ->. apply IH in H as (g & gs & A0 & A & B & C & E). exists [], (g :: gs).
      repeat split; auto; try discriminate.
      * constructor; [split; [auto|exact A]|exact B].
      * rewrite C. reflexivity.
Qed.
Lemma digits_join gs : forall g acc prev, g <> [] -> Forall is_digit g -> Forall digit_group gs ->
  digits acc prev (join 95 (g :: gs)) =
  Some (fold_left (fun a x => 10 * a + (x - 48)) (g ++ List.concat gs) acc).
Proof.
  induction gs as [|g' gs IH]; intros g acc prev N D G.
  - change (join 95 [g]) with g. cbn [List.concat]. rewrite app_nil_r.
    pose proof (digits_app g acc prev [] D N) as X. rewrite app_nil_r in X. rewrite X. reflexivity.
  - change (join 95 (g :: g' :: gs)) with (g ++ 95 :: join 95 (g' :: gs)).
    rewrite (digits_app _ _ _ _ D N). cbn [digits]. change ((48 <=? 95) && (95 <=? 57)) with false.
    change ((95 =? 95) && true) with true. cbn iota. apply Forall_cons_iff in G as [[N' D'] G].
    rewrite (IH g' _ false N' D' G). cbn [List.concat]. rewrite (fold_left_app _ g). reflexivity.
Qed.
Lemma lstrip_white a t : Forall white a -> lstrip (a ++ t) = lstrip t.
Proof.
  induction a as [|x a IH]; intros F; [reflexivity|]. apply Forall_cons_iff in F as [W F].
  cbn [app lstrip]. rewrite (proj2 (white_iff x) W). auto.
Qed.
Lemma strip_between a t b : Forall white a -> Forall white b -> t <> [] ->
  (forall x r, t = x :: r -> is_space x = false) -> (forall x r, t = r ++ [x] -> is_space x = false) ->
  strip (a ++ t ++ b) = t.
Proof.
  intros A B N H L. unfold strip. rewrite (lstrip_white a _ A).
  rewrite (lstrip_id (t ++ b)).
  2:{ intros x r E. destruct t as [|y t]; [congruence|]. injection E as -> _. exact (H _ _ eq_refl). }
  rewrite rev_app_distr, lstrip_white.
  2:{ apply Forall_forall. intros x X. apply in_rev in X. rewrite Forall_forall in B. auto. }
  rewrite lstrip_id; [apply rev_involutive|]. intros x r E. apply (L x (rev r)).
  rewrite <- (rev_involutive t), E. reflexivity.
Qed.
Lemma strip_parts s : exists a b, s = a ++ strip s ++ b /\ Forall white a /\ Forall white b.
Proof.
  destruct (lstrip_suffix s) as (a & E & A). destruct (lstrip_suffix (rev (lstrip s))) as (b & E' & B).
  exists a, (rev b). unfold strip. split; [|split].
  - rewrite E at 1. f_equal. rewrite <- rev_app_distr, <- E', rev_involutive. reflexivity.
  - eapply Forall_impl; [|exact A]. intros x; apply white_iff.
  - apply Forall_forall. intros x X. apply in_rev in X. rewrite Forall_forall in B. apply white_iff; auto.
Qed.
Lemma group_last g gs : g <> [] -> Forall is_digit g -> Forall digit_group gs ->
  forall x r, join 95 (g :: gs) = r ++ [x] -> is_digit x.
Proof.
  revert g. induction gs as [|g' gs IH]; intros g N D G x r E.
  - change (join 95 [g]) with g in E. rewrite Forall_forall in D. apply D. rewrite E. apply in_elt.
  - apply Forall_cons_iff in G as [[N' D'] G].
    change (join 95 (g :: g' :: gs)) with (g ++ 95 :: join 95 (g' :: gs)) in E.
    destruct (exists_last (l := join 95 (g' :: gs))) as (q & y & Y).
    { destruct g'; [congruence|]. rewrite join_cons_head. discriminate. }
    rewrite Y in E. change (95 :: q ++ [y]) with ((95 :: q) ++ [y]) in E. rewrite app_assoc in E.
    apply app_inj_tail in E as [_ <-]. exact (IH g' N' D' G y q Y).
Qed.
Lemma digit_not_space x : is_digit x -> is_space x = false.
Proof. unfold is_digit, is_space. lia. Qed.
Lemma py_int_unsigned t : (forall r, t <> 45 :: r) -> (forall r, t <> 43 :: r) -> strip t = t ->
  py_int t = digits 0 false t.
Proof.
  intros A B S. unfold py_int. rewrite S. destruct t as [|x t]; [reflexivity|].
  destruct x as [|p|p]; try reflexivity.
  do 6 (destruct p as [p|p|]; try reflexivity); exfalso; first [eapply A; reflexivity|eapply B; reflexivity].
Qed.
Lemma py_int_strip s : py_int s = py_int (strip s).
Proof. unfold py_int. rewrite (strip_idem s). reflexivity. Qed.

(** Exactly these texts are numbers. *)
Theorem C26_int_texts : forall s n, py_int s = Some n <-> int_text s n.
Proof.
  intros s n. split.
  - intros H. destruct (strip_parts s) as (a & b & E & A & B). rewrite py_int_strip in H.
    pose proof (strip_idem s) as I. unfold stripped in I. remember (strip s) as t eqn:T. clear T.
    assert (X : exists sign u, t = sign ++ u /\
      ((sign = [] \/ sign = [43]) /\ digits 0 false u = Some n \/ sign = [45] /\ option_map Z.opp (digits 0 false u) = Some n)).
    { destruct t as [|x t].
      - unfold py_int in H. cbn in H. discriminate.
      - destruct (Z.eq_dec x 45) as [->|N1].
        { exists [45], t. split; [reflexivity|]. right. unfold py_int in H. rewrite I in H. auto. }
        destruct (Z.eq_dec x 43) as [->|N2].
        { exists [43], t. split; [reflexivity|]. left. unfold py_int in H. rewrite I in H. auto. }
        exists [], (x :: t). split; [reflexivity|]. left. rewrite py_int_unsigned in H; auto; congruence. }
    destruct X as (sign & u & -> & X).
    destruct (digits 0 false u) as [m|] eqn:D.
    2:{ destruct X as [(_ & X)|(_ & X)]; discriminate. }
    apply digits_shape in D as (g & gs & N & Dg & G & -> & V). specialize (N eq_refl).
    exists a, sign, (g :: gs), b. rewrite <- app_assoc in E. split; [exact E|]. split; [exact A|]. split; [exact B|].
    split; [discriminate|]. split; [constructor; [split; assumption|exact G]|].
    unfold number. cbn [List.concat]. rewrite <- V.
    destruct X as [(X1 & X)|(X1 & X)]; [left|right]; split; auto; [congruence|cbn in X; congruence].
  - intros (a & sign & gs & b & -> & A & B & N & G & X).
    destruct gs as [|g gs]; [congruence|]. apply Forall_cons_iff in G as [[Ng Dg] G].
    pose proof (digits_join gs g 0 false Ng Dg G) as D.
    assert (Hd : exists x r, join 95 (g :: gs) = x :: r /\ is_digit x).
    { destruct g as [|x g]; [congruence|]. rewrite join_cons_head. exists x, (join 95 (g :: gs)).
      apply Forall_cons_iff in Dg as [? _]. auto. }
    destruct Hd as (x & r & Ej & Hx).
    assert (St : strip (a ++ (sign ++ join 95 (g :: gs)) ++ b) = sign ++ join 95 (g :: gs)).
    { apply strip_between; auto.
      - rewrite Ej. destruct sign; discriminate.
      - intros y q E. destruct X as [([->| ->] & _)|(-> & _)]; cbn [app] in E.
        + rewrite Ej in E. injection E as <- _. apply digit_not_space, Hx.
        + injection E as <- _. reflexivity.
        + injection E as <- _. reflexivity.
      - intros y q E. apply digit_not_space.
        destruct (exists_last (l := join 95 (g :: gs))) as (q' & y' & Y); [rewrite Ej; discriminate|].
        rewrite Y, app_assoc in E. apply app_inj_tail in E as [_ <-]. exact (group_last g gs Ng Dg G y' q' Y). }
    rewrite <- app_assoc in St. rewrite py_int_strip, St.
    assert (J : strip (sign ++ join 95 (g :: gs)) = sign ++ join 95 (g :: gs)).
    { rewrite <- St. apply strip_idem. }
    destruct X as [([->| ->] & ->)|(-> & ->)].
    + cbn [app] in *. rewrite py_int_unsigned; auto; rewrite Ej; unfold is_digit in Hx; intros q E; injection E as -> _; lia.
    + unfold py_int. rewrite J. cbn [app]. exact D.
    + unfold py_int. rewrite J. cbn [app]. rewrite D. reflexivity.
Qed.
Print Assumptions C26_int_texts.

Lemma request_served r rest : well_formed_request r ->
  h_service req_parse [] [] (req_bytes r ++ rest) = SHeader r [] rest.
Proof.
  intros (Hm & Ht & Hs & Hf & Hh). apply target_iff in Hf.
  assert (Hmeth : method_ok (r_method r) = true).
  { unfold method_ok. apply existsb_exists. exists (r_method r). split; [exact Hm|apply str_eqb_refl]. }
  assert (Htm : text (r_method r) /\ ~ In 32 (r_method r)).
  { clear -Hm. cbn [map In] in Hm.
    repeat (destruct Hm as [<-|Hm]; [split; [apply text_lit_ok; reflexivity|vm_compute; intuition discriminate]|]).
    destruct Hm. }
  destruct Htm as [Htm Hsm].
  set (start := join 32 [r_method r; r_target r; ver_str (r_version r)]).
  assert (Tv : text (ver_str (r_version r))).
  { apply Forall_forall. intros x Hx. apply ver_chars in Hx. tauto. }
  assert (Sv : ~ In 32 (ver_str (r_version r))).
  { intros X. apply ver_chars in X. tauto. }
  assert (Ts : text start).
  { unfold start. cbn [join]. rewrite text_app. split; [exact Htm|].
    constructor; [lia|]. rewrite text_app. split; [exact Ht|]. constructor; [lia|exact Tv]. }
  unfold req_bytes. fold start. rewrite <- !app_assoc.
  rewrite service_line; [|exact Ts|unfold start; cbn; destruct (r_method r); discriminate].
  rewrite service_fields.
  2:{ intros k v Hin. destruct Hh as [_ W]. destruct (W k v Hin) as (? & _ & _ & ? & _). auto. }
  cbn [app]. apply service_end. unfold req_parse, start. cbn [join].
  rewrite split_on_app, split_on_app, split_on_none by assumption.
  rewrite Hmeth, Hf, ver_roundtrip.
  rewrite (fields_parse (r_headers r) []).
  + destruct r; reflexivity.
  + cbn. apply Hh.
  + intros k v Hin. destruct Hh as [_ W]. destruct (W k v Hin) as (_ & ? & ? & _ & ?). auto.
Qed.
Lemma req_bytes_nonempty r rest : well_formed_request r -> req_bytes r ++ rest <> [].
Proof. intros W E. pose proof (request_served r rest W) as X. rewrite E in X. discriminate. Qed.
Lemma turn_request r rest : well_formed_request r ->
  h_turn req_parse req_clen (h_add h_init (req_bytes r ++ rest)) = h_payload req_clen r [] [] rest.
Proof.
  intros W. rewrite turn_nonempty; [|cbn; apply req_bytes_nonempty, W].
  cbn [h_add h_init h_cur h_lines h_line h_buf app]. rewrite (request_served r rest W). reflexivity.
Qed.

(** What follows the header of a request is its body according to the text of its
    content-length field and to nothing else: not a number, everything stops; zero or
    less, no body; more than what has arrived, the request waits; else exactly the
    announced bytes, and the rest is the next message. *)
Theorem C26_length_decides :
  forall r chunks t rest, well_formed_request r ->
    dget (lit "content-length") (r_headers r) = Some t ->
    List.concat chunks = req_bytes r ++ rest ->
    let '(got, _, raised) := h_feed req_parse req_clen h_init chunks in
    ((forall n, ~ int_text t n) -> got = [] /\ raised = true) /\
    (forall n, int_text t n -> n > zlen rest -> n > 0 -> got = [] /\ raised = false) /\
    (forall n, int_text t n -> n <= 0 ->
       let '(later, _, raised') := h_feed req_parse req_clen h_init [rest] in
       got = (r, None) :: later /\ raised = raised') /\
    (forall n body more, int_text t n -> n > 0 -> rest = body ++ more -> zlen body = n ->
       let '(later, _, raised') := h_feed req_parse req_clen h_init [more] in
       got = (r, Some body) :: later /\ raised = raised').
Proof.
  intros r chunks t rest W Ht E.
  pose proof (feed_concat req_parse req_clen chunks h_init eq_refl) as A. rewrite E in A.
  assert (L : req_clen r = py_int t).
  { unfold req_clen, hd_length, hd_get. change (lower (lit "content-length")) with (lit "content-length").
    rewrite Ht. reflexivity. }
  pose proof (turn_request r rest W) as T. unfold h_payload in T. rewrite L in T.
  assert (One : forall q, (forall m q', h_turn req_parse req_clen (h_add h_init (req_bytes r ++ rest)) = HYield m q' -> False) ->
    h_ingest req_parse req_clen h_init (req_bytes r ++ rest) = q ->
    q = match h_turn req_parse req_clen (h_add h_init (req_bytes r ++ rest)) with
        | HStop p => ([], p, false) | HRaise p => ([], p, true) | HYield _ p => ([], p, false) end).
  { intros q Ny <-. unfold h_ingest, h_fuel. rewrite Nat.add_comm. cbn [Nat.add h_loop].
    destruct (h_turn _ _ _) eqn:Et; [reflexivity|destruct (Ny _ _ eq_refl)|reflexivity]. }
  assert (Next : forall body more n, py_int t = Some n -> rest = body ++ more ->
    h_turn req_parse req_clen (h_add h_init (req_bytes r ++ rest)) =
      HYield (r, match body with [] => None | _ => Some body end) (mkHproc more [] [] None) ->
    h_ingest req_parse req_clen h_init (req_bytes r ++ rest) =
    let '(ms, q, e) := h_ingest req_parse req_clen h_init more in
    ((r, match body with [] => None | _ => Some body end) :: ms, q, e)).
  { intros body more n _ _ Ty.
    rewrite (ingest_fuel req_parse req_clen h_init (req_bytes r ++ rest) (S (meas (h_add (@h_init request) (req_bytes r ++ rest)))) (Nat.lt_succ_diag_r _)).
    rewrite (ingest_fuel req_parse req_clen h_init more (S (meas (h_add (@h_init request) more))) (Nat.lt_succ_diag_r _)).
    remember (S (meas (h_add h_init more))) as F eqn:EF. cbn [h_loop]. rewrite Ty. subst F.
    pose proof (proj1 (turn_yield _ _ _ _ _ Ty)) as M.
    change (mkHproc more [] [] (@None request)) with (h_add (@h_init request) more) in *.
    rewrite (loop_fuel req_parse req_clen (meas (h_add h_init (req_bytes r ++ rest))) (h_add h_init more) M
              (S (meas (h_add (@h_init request) more))) (Nat.lt_succ_diag_r _)).
    destruct (h_loop _ _ _ (h_add h_init more)) as [[a b] c]. reflexivity. }
  destruct (h_feed req_parse req_clen h_init chunks) as [[got p] raised].
  destruct (h_ingest req_parse req_clen h_init (req_bytes r ++ rest)) as [[got' p'] raised'] eqn:Ei.
  destruct A as (-> & -> & _). split; [|split; [|split]].
  - intros Hno. destruct (py_int t) as [n|] eqn:P; [destruct (Hno n); apply C26_int_texts, P|].
    assert (X := One _ ltac:(intros m q' Y; rewrite T in Y; discriminate) eq_refl).
    rewrite T in X. injection X as -> _ ->. auto.
  - intros n Hn Hlen Hpos. apply C26_int_texts in Hn. rewrite Hn in T.
    destruct ((n =? 0) || (n <=? zlen rest)) eqn:Q; [lia|].
    assert (X := One _ ltac:(intros m q' Y; rewrite T in Y; discriminate) eq_refl).
    rewrite T in X. injection X as -> _ ->. auto.
  - intros n Hn Hneg. apply C26_int_texts in Hn. rewrite Hn in T. pose proof (zlen_nonneg rest).
    destruct ((n =? 0) || (n <=? zlen rest)) eqn:Q; [|lia]. destruct (0 <? n) eqn:Q2; [lia|].
    specialize (Next [] rest n Hn eq_refl T).
    pose proof (feed_concat req_parse req_clen [rest] h_init eq_refl) as B. cbn [List.concat] in B. rewrite app_nil_r in B.
    destruct (h_feed req_parse req_clen h_init [rest]) as [[ms' p0] e'].
    destruct (h_ingest req_parse req_clen h_init rest) as [[m q] x].
    destruct B as (-> & -> & _). injection Next as -> _ ->. auto.
  - intros n body more Hn Hpos Er Hl. apply C26_int_texts in Hn. rewrite Hn in T.
    assert (Lr : zlen rest = n + zlen more) by (rewrite Er, zlen_app; lia). pose proof (zlen_nonneg more).
    destruct ((n =? 0) || (n <=? zlen rest)) eqn:Q; [|lia]. destruct (0 <? n) eqn:Q2; [|lia].
    rewrite Er, (pop_exact n body more Hl) in T. rewrite <- Er in T.
    assert (Nb : body <> []) by (intros ->; unfold zlen in Hl; cbn in Hl; lia).
    assert (Em : match body with [] => None | _ => Some body end = Some body) by (destruct body; congruence).
    rewrite <- Em in T. specialize (Next body more n Hn Er T). rewrite Em in Next.
    pose proof (feed_concat req_parse req_clen [more] h_init eq_refl) as B. cbn [List.concat] in B. rewrite app_nil_r in B.
    destruct (h_feed req_parse req_clen h_init [more]) as [[ms' p0] e'].
    destruct (h_ingest req_parse req_clen h_init more) as [[m q] x].
    destruct B as (-> & -> & _). injection Next as -> _ ->. auto.
Qed.
Print Assumptions C26_length_decides.

Example ex_int_texts : int_text (lit " +1_000 ") 1000.
Proof. apply C26_int_texts. reflexivity. Qed.
Example ex_int_minus : int_text (lit "-7") (0 - 7).
Proof. apply C26_int_texts. reflexivity. Qed.
Example ex_no_int n : ~ int_text (lit "1__0") n /\ ~ int_text (lit "0x10") n /\ ~ int_text [] n.
Proof. split; [|split]; intros H; apply C26_int_texts in H; vm_compute in H; discriminate H. Qed.
Example ex_length_decides :
  exists t, dget (lit "content-length") (r_headers (req_with ex_request [(lit "content-length", lit "+0_3")])) = Some t /\ int_text t 3.
Proof. exists (lit "+0_3"). split; [reflexivity|]. apply C26_int_texts. reflexivity. Qed.
