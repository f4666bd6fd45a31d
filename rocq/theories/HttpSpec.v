(** Specification vocabulary for C25 and C26. *)
From Verif Require Import Base PyStrModel HttpModel.

(** Text that can stand in a header line: ASCII, no CR, no LF. *)
Definition text (s : str) : Prop := Forall (fun x => 0 <= x < 128 /\ x <> 10 /\ x <> 13) s.

(** Header fields as they are stored: distinct lower-case names without a
    colon; values without white space at their ends. *)
Definition well_formed_fields (hs : headers) : Prop :=
  NoDup (map fst hs) /\
  forall k v, In (k, v) hs ->
    text k /\ ~ In 58 k /\ lower k = k /\ text v /\ strip v = v.

(** What a request target says, given the method: "*"; for CONNECT "host:port";
    a path that starts with a slash, with what stands between the first two
    question marks as its query; or anything else, kept as it is.
    58 is a colon, 63 a question mark, 47 a slash. *)
Inductive target_means (method : str) : str -> target_form -> Prop :=
| TM_asterisk : target_means method (lit "*") FAsterisk
| TM_authority host port n :
    method = lit "CONNECT" -> ~ In 58 host -> ~ In 58 port -> py_int port = Some n ->
    target_means method (host ++ 58 :: port) (FAuthority host n)
| TM_path path :
    method <> lit "CONNECT" -> ~ In 63 path ->
    target_means method (47 :: path) (FOrigin (47 :: path) None)
| TM_query path query :
    method <> lit "CONNECT" -> ~ In 63 path -> ~ In 63 query ->
    target_means method (47 :: path ++ 63 :: query) (FOrigin (47 :: path) (Some query))
| TM_cut_query path query rest :
    method <> lit "CONNECT" -> ~ In 63 path -> ~ In 63 query ->
    target_means method (47 :: path ++ 63 :: query ++ 63 :: rest)
      (FOrigin (47 :: path) (Some query))
| TM_absolute raw :
    method <> lit "CONNECT" -> raw <> lit "*" -> (forall s, raw <> 47 :: s) ->
    target_means method raw (FAbsolute raw).

Definition well_formed_request (r : request) : Prop :=
  In (r_method r) (map lit ["CONNECT"; "DELETE"; "GET"; "HEAD"; "OPTIONS"; "PATCH"; "POST"; "PUT"; "TRACE"]) /\
  text (r_target r) /\ ~ In 32 (r_target r) /\
  target_means (r_method r) (r_target r) (r_form r) /\
  well_formed_fields (r_headers r).

Definition well_formed_response (status_ok : Z -> bool) (a : response) : Prop :=
  status_ok (a_status a) = true /\ text (a_reason a) /\
  well_formed_fields (a_headers a).

(** The payload the other side sees: empty payloads are not distinguished from
    absent ones. *)
Definition payload_of (data : option (list Z)) : option (list Z) :=
  match data with Some [] => None | d => d end.
Definition length_of (data : option (list Z)) : Z :=
  match data with Some d => zlen d | None => 0 end.

(** The received fields are the sent ones with content-length set. *)
Definition fields_received (sent received : headers) (n : Z) : Prop :=
  forall k, dget k received =
    if list_eq_dec Z.eq_dec k (lit "content-length") then Some (dec n) else dget k sent.

Definition request_received (sent : request * option (list Z)) (got : msg request) : Prop :=
  r_method (fst got) = r_method (fst sent) /\ r_target (fst got) = r_target (fst sent) /\
  r_form (fst got) = r_form (fst sent) /\ r_version (fst got) = r_version (fst sent) /\
  fields_received (r_headers (fst sent)) (r_headers (fst got)) (length_of (snd sent)) /\
  snd got = payload_of (snd sent).

Definition response_received (sent : response * option (list Z)) (got : msg response) : Prop :=
  a_version (fst got) = a_version (fst sent) /\ a_status (fst got) = a_status (fst sent) /\
  a_reason (fst got) = a_reason (fst sent) /\
  fields_received (a_headers (fst sent)) (a_headers (fst got)) (length_of (snd sent)) /\
  snd got = payload_of (snd sent).
