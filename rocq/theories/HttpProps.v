(** Properties C25 and C26: HTTP messages. *)
From Coq Require Import ZifyBool ZifyNat.
From Verif Require Import Base BaseLemmas PyStrModel PyStrProofs FifoModel
  HttpModel HttpSpec HttpProofs.

(** C25.  For every header class, every byte stream and every two chunkings of
    it: the same messages are produced, processing fails in both cases or in
    neither, and without failure the processor ends in the same state. *)
Theorem C25_chunking_irrelevant :
  forall (H : Type) (parse : list str -> option H) (clen : H -> option Z) chunks chunks',
    List.concat chunks = List.concat chunks' ->
    let '(ms, p, raised) := h_feed parse clen h_init chunks in
    let '(ms', p', raised') := h_feed parse clen h_init chunks' in
    ms = ms' /\ raised = raised' /\ (raised = false -> p = p').
Proof.
  intros H parse clen c c' E.
  pose proof (feed_concat parse clen c h_init eq_refl) as A.
  pose proof (feed_concat parse clen c' h_init eq_refl) as B. rewrite E in A.
  destruct (h_feed parse clen h_init c) as [[ms p] e].
  destruct (h_feed parse clen h_init c') as [[ms' p'] e'].
  destruct (h_ingest parse clen h_init (List.concat c')) as [[m q] x].
  destruct A as (-> & -> & A), B as (-> & -> & B). repeat split; auto.
  intros Hx. destruct (A Hx), (B Hx). congruence.
Qed.
Print Assumptions C25_chunking_irrelevant.

Definition ex_stream : list Z :=
  lit "POST /a?b HTTP/1.1" ++ crlf ++ lit "Content-Length: 3" ++ crlf ++ crlf ++ [1; 10; 200] ++
  lit "GET / HTTP/1.1" ++ crlf ++ crlf ++ lit "GET".
Example C25_case :
  let '(ms, p, raised) :=
    h_feed req_parse req_clen h_init [firstn 25 ex_stream; firstn 20 (skipn 25 ex_stream); skipn 45 ex_stream] in
  List.length ms = 2%nat /\ raised = false /\ h_line p = lit "GET" /\
  map snd ms = [Some [1; 10; 200]; None].
Proof. vm_compute. auto. Qed.

Lemma request_roundtrip r data more :
  well_formed_request r ->
  exists got, request_received (r, data) got /\
    h_ingest req_parse req_clen h_init (send_request r data ++ more) =
    let '(ms, q, e) := h_ingest req_parse req_clen h_init more in (got :: ms, q, e).
Proof.
  intros (Hm & Ht & Hs & Hf & Hh). apply target_iff in Hf.
  set (hs := send_headers (r_headers r) data).
  assert (Hh' : well_formed_fields hs) by (apply wf_send; exact Hh).
  assert (Hmeth : method_ok (r_method r) = true).
  { unfold method_ok. apply existsb_exists. exists (r_method r). split; [exact Hm|apply str_eqb_refl]. }
  assert (Htm : text (r_method r) /\ ~ In 32 (r_method r)).
  { clear -Hm. cbn [map In] in Hm.
    repeat (destruct Hm as [<-|Hm]; [split; [apply text_lit_ok; reflexivity|vm_compute; intuition discriminate]|]).
    destruct Hm. }
  destruct Htm as [Htm Hsm].
  set (start := join 32 [r_method r; r_target r; ver_str (r_version r)]).
  assert (Tv : text (ver_str (r_version r))).
  { apply Forall_forall. intros x Hx. apply ver_chars in Hx. tauto. }
  assert (Sv : ~ In 32 (ver_str (r_version r))).
  { intros X. apply ver_chars in X. tauto. }
  assert (Ts : text start).
  { unfold start. cbn [join]. rewrite text_app. split; [exact Htm|].
    constructor; [lia|]. rewrite text_app. split; [exact Ht|]. constructor; [lia|exact Tv]. }
  assert (P : req_parse (start :: map field_line hs) = Some (req_with r hs)).
  { unfold req_parse, start. cbn [join].
    rewrite split_on_app, split_on_app, split_on_none by assumption.
    rewrite Hmeth, Hf, ver_roundtrip.
    rewrite (fields_parse hs []).
    - reflexivity.
    - cbn. apply Hh'.
    - intros k v Hin. destruct Hh' as [_ W]. destruct (W k v Hin) as (_ & ? & ? & _ & ?). auto. }
  exists (req_with r hs, payload_of data). split.
  - unfold request_received; cbn [fst snd req_with r_method r_target r_form r_version r_headers].
    repeat split; auto. apply get_send.
  - unfold send_request. fold hs. unfold req_bytes. cbn [req_with r_method r_target r_version r_headers].
    fold start. rewrite <- app_assoc.
    rewrite (ingest_message req_parse req_clen start hs (req_with r hs) (send_data data) more
               (length_of data)); auto.
    + destruct (h_ingest req_parse req_clen h_init more) as [[ms q] e].
      destruct data as [[|d0 d]|]; reflexivity.
    + unfold start. cbn. destruct (r_method r); discriminate.
    + intros k v Hin. destruct Hh' as [_ W]. destruct (W k v Hin) as (? & _ & _ & ? & _). auto.
    + unfold req_clen. cbn. apply clen_send.
    + destruct data; reflexivity.
Qed.

Lemma response_roundtrip ok a data more :
  well_formed_response ok a ->
  exists got, response_received (a, data) got /\
    h_ingest (resp_parse ok) resp_clen h_init (send_response a data ++ more) =
    let '(ms, q, e) := h_ingest (resp_parse ok) resp_clen h_init more in (got :: ms, q, e).
Proof.
  intros (Hst & Ht & Hh).
  set (hs := send_headers (a_headers a) data).
  assert (Hh' : well_formed_fields hs) by (apply wf_send; exact Hh).
  set (start := join 32 ([ver_str (a_version a); dec (a_status a)] ++
                         match a_reason a with [] => [] | x => [x] end)).
  assert (Tv : text (ver_str (a_version a))).
  { apply Forall_forall. intros x Hx. apply ver_chars in Hx. tauto. }
  assert (Sv : ~ In 32 (ver_str (a_version a))).
  { intros X. apply ver_chars in X. tauto. }
  assert (Sd : ~ In 32 (dec (a_status a))).
  { apply not_in_dec; [lia|]. unfold is_digit. lia. }
  assert (Ts : text start).
  { unfold start. destruct (a_reason a) as [|x0 rs] eqn:Er; cbn [app join].
    - rewrite text_app. split; [exact Tv|]. constructor; [lia|apply text_dec].
    - rewrite text_app. split; [exact Tv|]. constructor; [lia|]. rewrite text_app.
      split; [apply text_dec|]. constructor; [lia|exact Ht]. }
  assert (P : resp_parse ok (start :: map field_line hs) = Some (resp_with a hs)).
  { unfold resp_parse, start.
    assert (F : hd_parse [] (map field_line hs) = Some hs).
    { rewrite (fields_parse hs []).
      - reflexivity.
      - cbn. apply Hh'.
      - intros k v Hin. destruct Hh' as [_ W]. destruct (W k v Hin) as (_ & ? & ? & _ & ?). auto. }
    destruct (a_reason a) as [|x0 rs] eqn:Er; cbn [app join].
    - rewrite split_once_app by exact Sv. rewrite split_once_none by exact Sd.
      rewrite ver_roundtrip, py_int_dec, Hst, F. unfold resp_with. rewrite Er. reflexivity.
    - rewrite split_once_app by exact Sv. rewrite split_once_app by exact Sd.
      rewrite ver_roundtrip, py_int_dec, Hst, F. unfold resp_with. rewrite Er. reflexivity. }
  exists (resp_with a hs, payload_of data). split.
  - unfold response_received; cbn [fst snd resp_with a_version a_status a_reason a_headers].
    repeat split; auto. apply get_send.
  - unfold send_response. fold hs. unfold resp_bytes. cbn [resp_with a_version a_status a_reason a_headers].
    fold start. rewrite <- app_assoc.
    rewrite (ingest_message (resp_parse ok) resp_clen start hs (resp_with a hs) (send_data data) more
               (length_of data)); auto.
    + destruct (h_ingest (resp_parse ok) resp_clen h_init more) as [[ms q] e].
      destruct data as [[|d0 d]|]; reflexivity.
    + unfold start. destruct (a_reason a); cbn; discriminate.
    + intros k v Hin. destruct Hh' as [_ W]. destruct (W k v Hin) as (? & _ & _ & ? & _). auto.
    + unfold resp_clen. cbn. apply clen_send.
    + destruct data; reflexivity.
Qed.

(** C26.  A list of requests, each sent with its payload, arrives as exactly
    that list however the bytes are chunked: same method, target, version and
    fields (with content-length set), same payload. *)
Theorem C26_requests_roundtrip :
  forall msgs chunks,
    Forall (fun m => well_formed_request (fst m)) msgs ->
    List.concat chunks = List.concat (map (fun m => send_request (fst m) (snd m)) msgs) ->
    exists got p,
      h_feed req_parse req_clen h_init chunks = (got, p, false) /\
      Forall2 request_received msgs got /\ h_buf p = [] /\ h_cur p = None.
Proof.
  intros msgs chunks Hw E.
  pose proof (feed_concat req_parse req_clen chunks h_init eq_refl) as A. rewrite E in A.
  assert (G : exists got, h_ingest req_parse req_clen h_init
      (List.concat (map (fun m => send_request (fst m) (snd m)) msgs)) = (got, h_init, false) /\
      Forall2 request_received msgs got).
  { clear -Hw. induction Hw as [|[r d] msgs Hr Hw IH].
    - exists []. split; [reflexivity|constructor].
    - destruct IH as (got & Eg & Fg). cbn [map List.concat fst snd].
      destruct (request_roundtrip r d
        (List.concat (map (fun m => send_request (fst m) (snd m)) msgs)) Hr) as (g & Rg & Ei).
      rewrite Ei, Eg. exists (g :: got). split; [reflexivity|]. constructor; assumption. }
  destruct G as (got & Eg & Fg).
  destruct (h_feed req_parse req_clen h_init chunks) as [[ms p] e]. rewrite Eg in A.
  destruct A as (-> & -> & A). destruct (A eq_refl) as [-> _].
  exists got, h_init. auto.
Qed.
Print Assumptions C26_requests_roundtrip.

Theorem C26_responses_roundtrip :
  forall status_ok msgs chunks,
    Forall (fun m => well_formed_response status_ok (fst m)) msgs ->
    List.concat chunks = List.concat (map (fun m => send_response (fst m) (snd m)) msgs) ->
    exists got p,
      h_feed (resp_parse status_ok) resp_clen h_init chunks = (got, p, false) /\
      Forall2 response_received msgs got /\ h_buf p = [] /\ h_cur p = None.
Proof.
  intros ok msgs chunks Hw E.
  pose proof (feed_concat (resp_parse ok) resp_clen chunks h_init eq_refl) as A. rewrite E in A.
  assert (G : exists got, h_ingest (resp_parse ok) resp_clen h_init
      (List.concat (map (fun m => send_response (fst m) (snd m)) msgs)) = (got, h_init, false) /\
      Forall2 response_received msgs got).
  { clear -Hw. induction Hw as [|[r d] msgs Hr Hw IH].
    - exists []. split; [reflexivity|constructor].
    - destruct IH as (got & Eg & Fg). cbn [map List.concat fst snd].
      destruct (response_roundtrip ok r d
        (List.concat (map (fun m => send_response (fst m) (snd m)) msgs)) Hr) as (g & Rg & Ei).
      rewrite Ei, Eg. exists (g :: got). split; [reflexivity|]. constructor; assumption. }
  destruct G as (got & Eg & Fg).
  destruct (h_feed (resp_parse ok) resp_clen h_init chunks) as [[ms p] e]. rewrite Eg in A.
  destruct A as (-> & -> & A). destruct (A eq_refl) as [-> _].
  exists got, h_init. auto.
Qed.
Print Assumptions C26_responses_roundtrip.

Definition ex_request : request :=
  mkRequest (lit "POST") (lit "/x?y") (FOrigin (lit "/x") (Some (lit "y"))) (mkVersion 1 1)
    [(lit "user-agent", lit "some agent: 1.0")].
Definition ex_response : response :=
  mkResponse (mkVersion 1 1) 404 (lit "not here") [(lit "content-type", lit "text/html; charset=utf-8")].
Example C26_case :
  well_formed_request ex_request /\ well_formed_response (fun n => n =? 404) ex_response.
Proof.
  assert (W : forall k v, text k -> ~ In 58 k -> lower k = k -> text v -> strip v = v ->
    well_formed_fields [(k, v)]).
  { intros k v H1 H2 H3 H4 H5. split; [constructor; [intros []|constructor]|].
    intros k' v' [E|[]]. injection E as <- <-. auto. }
  split.
  - split; [cbn; tauto|]. split; [apply text_lit_ok; reflexivity|].
    split; [vm_compute; intuition discriminate|]. split; [apply target_iff; reflexivity|].
    apply W; try reflexivity; try (apply text_lit_ok; reflexivity). vm_compute; intuition discriminate.
  - split; [reflexivity|]. split; [apply text_lit_ok; reflexivity|].
    apply W; try reflexivity; try (apply text_lit_ok; reflexivity). vm_compute; intuition discriminate.
Qed.

(** Header text that is not ASCII is accepted by the sender (which writes
    UTF-8) but never by the receiver: whatever the header class, the first byte
    above 127 of a header raises. *)
Theorem C26_non_ascii_refuted :
  forall (H : Type) (parse : list str -> option H) (clen : H -> option Z) t b rest,
    text t -> 128 <= b ->
    let '(ms, _, raised) := h_feed parse clen h_init [t ++ b :: rest] in
    ms = [] /\ raised = true.
Proof.
  intros H parse clen t b rest Ht Hb. cbn [h_feed].
  assert (T : h_turn parse clen (h_add h_init (t ++ b :: rest)) = HRaise (mkHproc rest [] t None)).
  { rewrite turn_nonempty by (cbn; destruct t; discriminate). cbn [h_add h_init h_cur h_lines h_line h_buf].
    cbn [app]. rewrite service_text by exact Ht. cbn [app h_service].
    destruct ((b <? 0) || (127 <? b)) eqn:E; [reflexivity|lia]. }
  unfold h_ingest, h_fuel. rewrite Nat.add_comm. cbn [Nat.add h_loop]. rewrite T. auto.
Qed.
Print Assumptions C26_non_ascii_refuted.

(** A blank line before a request makes the whole connection fail (RFC 9112
    2.2 asks receivers to ignore it). *)
Theorem C25_leading_blank_line_raises :
  forall rest, let '(ms, _, raised) := h_feed req_parse req_clen h_init [crlf ++ rest] in
    ms = [] /\ raised = true.
Proof.
  intros rest. cbn [h_feed].
  assert (T : h_turn req_parse req_clen (h_add h_init (crlf ++ rest)) = HRaise (mkHproc rest [] [] None))
    by reflexivity.
  unfold h_ingest, h_fuel. rewrite Nat.add_comm. cbn [Nat.add h_loop]. rewrite T. auto.
Qed.
Print Assumptions C25_leading_blank_line_raises.

(** A content-length below zero is taken for zero: what follows the header is
    parsed as the next message. *)
Theorem C25_negative_length_is_zero :
  forall n, n < 0 ->
    let header := lit "GET / HTTP/1.1" ++ crlf ++ lit "content-length: " ++ dec n ++ crlf ++ crlf in
    let '(ms, p, raised) := h_feed req_parse req_clen h_init [header] in
    List.length ms = 1%nat /\ map snd ms = [None] /\ raised = false /\ h_buf p = [].
Proof.
  intros n Hn header.
  set (hs := [(lit "content-length", dec n)]).
  set (start := lit "GET / HTTP/1.1").
  assert (E : header = (start ++ crlf ++ hd_write hs ++ crlf) ++ []).
  { unfold header, hs, hd_write. cbn [map List.concat fst snd]. rewrite !app_nil_r, <- !app_assoc.
    reflexivity. }
  set (h := mkRequest (lit "GET") (lit "/") (FOrigin (lit "/") None) (mkVersion 1 1) hs).
  assert (S : h_service req_parse [] [] header = SHeader h [] []).
  { rewrite E, app_nil_r.
    rewrite service_line; [|apply text_lit_ok; reflexivity|discriminate].
    rewrite service_fields.
    2:{ intros k v [X|[]]. injection X as <- <-. split; [apply text_lit_ok; reflexivity|apply text_dec]. }
    cbn [app]. rewrite <- (app_nil_r crlf). apply service_end. unfold req_parse.
    change (split_on 32 start) with [lit "GET"; lit "/"; lit "HTTP/1.1"]. cbv iota beta.
    change (method_ok (lit "GET")) with true. cbv iota.
    change (target_parse (lit "GET") (lit "/")) with (Some (FOrigin (lit "/") None)).
    change (ver_parse (lit "HTTP/1.1")) with (Some (mkVersion 1 1)). cbv iota.
    rewrite (fields_parse hs []); [reflexivity| |].
    - constructor; [intros []|constructor].
    - intros k v [X|[]]. injection X as <- <-. split; [vm_compute; intuition discriminate|].
      split; [reflexivity|apply dec_stripped]. }
  assert (T : h_turn req_parse req_clen (h_add h_init header) = HYield (h, None) (mkHproc [] [] [] None)).
  { rewrite turn_nonempty by discriminate. cbn [h_add h_init h_cur h_lines h_line h_buf].
    cbn [app]. rewrite S. unfold h_payload, req_clen. cbn [r_headers h].
    assert (C : hd_length hs = Some n).
    { unfold hd_length, hd_get, hs. change (lower (lit "content-length")) with (lit "content-length").
      cbn [dget]. destruct (eq_dec _ _) as [_|Ne]; [apply py_int_dec|congruence]. }
    rewrite C. change (zlen (@nil Z)) with 0.
    destruct ((n =? 0) || (n <=? 0)) eqn:E1; [|lia]. destruct (0 <? n) eqn:E2; [lia|reflexivity]. }
  cbn [h_feed]. unfold h_ingest, h_fuel. rewrite Nat.add_comm. cbn [Nat.add h_loop]. rewrite T. cbn. auto.
Qed.
Print Assumptions C25_negative_length_is_zero.

(** Which form a request target has, for every method and text. *)
Theorem C26_target_forms :
  forall method raw form,
    target_parse method raw = Some form <-> target_means method raw form.
Proof. exact target_iff. Qed.
Print Assumptions C26_target_forms.

Example target_forms_case :
  target_means (lit "CONNECT") (lit "host:80") (FAuthority (lit "host") 80) /\
  target_means (lit "GET") (lit "/a?b?c") (FOrigin (lit "/a") (Some (lit "b"))) /\
  target_means (lit "GET") (lit "http://x") (FAbsolute (lit "http://x")) /\
  target_parse (lit "CONNECT") (lit "host") = None.
Proof. rewrite <- !target_iff. vm_compute. auto. Qed.

Lemma request_as_written r data more n :
  well_formed_request r -> hd_length (r_headers r) = Some n -> n = zlen data ->
  h_ingest req_parse req_clen h_init (req_bytes r ++ data ++ more) =
  let '(ms, q, e) := h_ingest req_parse req_clen h_init more in
  ((r, match data with [] => None | _ => Some data end) :: ms, q, e).
Proof.
  intros (Hm & Ht & Hs & Hf & Hh) Hn En. apply target_iff in Hf.
  assert (Hmeth : method_ok (r_method r) = true).
  { unfold method_ok. apply existsb_exists. exists (r_method r). split; [exact Hm|apply str_eqb_refl]. }
  assert (Htm : text (r_method r) /\ ~ In 32 (r_method r)).
  { clear -Hm. cbn [map In] in Hm.
    repeat (destruct Hm as [<-|Hm]; [split; [apply text_lit_ok; reflexivity|vm_compute; intuition discriminate]|]).
    destruct Hm. }
  destruct Htm as [Htm Hsm].
  set (start := join 32 [r_method r; r_target r; ver_str (r_version r)]).
  assert (Tv : text (ver_str (r_version r))).
  { apply Forall_forall. intros x Hx. apply ver_chars in Hx. tauto. }
  assert (Sv : ~ In 32 (ver_str (r_version r))).
  { intros X. apply ver_chars in X. tauto. }
  assert (Ts : text start).
  { unfold start. cbn [join]. rewrite text_app. split; [exact Htm|].
    constructor; [lia|]. rewrite text_app. split; [exact Ht|]. constructor; [lia|exact Tv]. }
  unfold req_bytes. fold start.
  apply (ingest_message req_parse req_clen start (r_headers r) r data more n); auto.
  - unfold start. cbn. destruct (r_method r); discriminate.
  - intros k v Hin. destruct Hh as [_ W]. destruct (W k v Hin) as (? & _ & _ & ? & _). auto.
  - unfold req_parse, start. cbn [join].
    rewrite split_on_app, split_on_app, split_on_none by assumption.
    rewrite Hmeth, Hf, ver_roundtrip.
    rewrite (fields_parse (r_headers r) []).
    + destruct r; reflexivity.
    + cbn. apply Hh.
    + intros k v Hin. destruct Hh as [_ W]. destruct (W k v Hin) as (_ & ? & ? & _ & ?). auto.
Qed.

(** A request that has no content-length field has no body: the bytes after its
    empty line belong to the next request, however they are chunked. *)
Theorem C26_no_length_no_body :
  forall r chunks more,
    well_formed_request r -> dget (lit "content-length") (r_headers r) = None ->
    List.concat chunks = req_bytes r ++ more ->
    let '(got, _, raised) := h_feed req_parse req_clen h_init chunks in
    let '(later, _, raised') := h_feed req_parse req_clen h_init [more] in
    got = (r, None) :: later /\ raised = raised'.
Proof.
  intros r chunks more Hw Hn E.
  pose proof (feed_concat req_parse req_clen chunks h_init eq_refl) as A.
  pose proof (feed_concat req_parse req_clen [more] h_init eq_refl) as B.
  cbn [List.concat] in B. rewrite app_nil_r in B. rewrite E in A.
  assert (L : hd_length (r_headers r) = Some 0).
  { unfold hd_length, hd_get. change (lower (lit "content-length")) with (lit "content-length").
    rewrite Hn. reflexivity. }
  pose proof (request_as_written r [] more 0 Hw L eq_refl) as C. cbn [app] in C. rewrite C in A.
  destruct (h_feed req_parse req_clen h_init chunks) as [[ms p] e].
  destruct (h_feed req_parse req_clen h_init [more]) as [[ms' p'] e'].
  destruct (h_ingest req_parse req_clen h_init more) as [[m q] x].
  destruct A as (-> & -> & _), B as (-> & -> & _). auto.
Qed.
Print Assumptions C26_no_length_no_body.

(** A request whose content-length field is the decimal length of what follows
    has exactly those bytes as its body. *)
Theorem C26_body_is_the_announced_bytes :
  forall r chunks data more,
    well_formed_request r ->
    dget (lit "content-length") (r_headers r) = Some (dec (zlen data)) ->
    List.concat chunks = req_bytes r ++ data ++ more ->
    let '(got, _, raised) := h_feed req_parse req_clen h_init chunks in
    let '(later, _, raised') := h_feed req_parse req_clen h_init [more] in
    got = (r, payload_of (Some data)) :: later /\ raised = raised'.
Proof.
  intros r chunks data more Hw Hn E.
  pose proof (feed_concat req_parse req_clen chunks h_init eq_refl) as A.
  pose proof (feed_concat req_parse req_clen [more] h_init eq_refl) as B.
  cbn [List.concat] in B. rewrite app_nil_r in B. rewrite E in A.
  assert (L : hd_length (r_headers r) = Some (zlen data)).
  { unfold hd_length, hd_get. change (lower (lit "content-length")) with (lit "content-length").
    rewrite Hn. apply py_int_dec. }
  rewrite (request_as_written r data more _ Hw L eq_refl) in A.
  destruct (h_feed req_parse req_clen h_init chunks) as [[ms p] e].
  destruct (h_feed req_parse req_clen h_init [more]) as [[ms' p'] e'].
  destruct (h_ingest req_parse req_clen h_init more) as [[m q] x].
  destruct A as (-> & -> & _), B as (-> & -> & _). destruct data; auto.
Qed.
Print Assumptions C26_body_is_the_announced_bytes.

Example no_length_case :
  dget (lit "content-length") (r_headers ex_request) = None /\
  dget (lit "content-length") (r_headers (req_with ex_request [(lit "content-length", lit "3")])) =
    Some (dec (zlen [1; 10; 200])).
Proof. vm_compute. auto. Qed.
