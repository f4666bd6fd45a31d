(** Model of HTTP message processing: runtimepy/net/http/{__init__,state,
    common,header,request_target,response,version}.py and the sending half of
    net/tcp/http/__init__.py. *)
From Verif Require Import Base PyStrModel FifoModel.

(** ** Splitting a byte stream into messages, for any header class. *)
Section Stream.
  (** The header class: [parse lines] is [kind().from_lines(lines)], None when
      it raises; [clen h] is [h.content_length], None when [int] raises. *)
  Context {H : Type} (parse : list str -> option H) (clen : H -> option Z).

  (** state.py:19-29 and http/__init__.py:22-29. *)
  Record hproc := mkHproc {
    h_buf : list Z; h_lines : list str; h_line : str; h_cur : option H
  }.
  Definition h_init : hproc := mkHproc [] [] [] None.

  Inductive served :=
  | SNone (lines : list str) (line : str)               (** buffer exhausted *)
  | SHeader (h : H) (line : str) (rest : list Z)
  | SRaise (rest : list Z) (lines : list str) (line : str).

  (** state.py:31-60 [service]: one byte at a time; [bytes.decode] of a single
      byte raises for every byte above 127.  [lines] is cleared only after
      [from_lines] succeeded. *)
  Fixpoint h_service (lines : list str) (line : str) (buf : list Z) : served :=
    match buf with
    | [] => SNone lines line
    | b :: rest =>
        if (b <? 0) || (127 <? b) then SRaise rest lines line
        else if b =? 10 then
          match line with
          | [] =>
              match parse lines with
              | Some h => SHeader h [] rest
              | None => SRaise rest lines []
              end
          | _ => h_service (lines ++ [line]) [] rest
          end
        else if b =? 13 then h_service lines line rest
        else h_service lines (line ++ [b]) rest
    end.

  Definition msg : Type := H * option (list Z).

  (** One turn of the loop at http/__init__.py:39-58: it ends the call
      ([HStop]), yields ([HYield], with the state after line 58), or raises. *)
  Inductive hturn :=
  | HStop (p : hproc)
  | HYield (m : msg) (p : hproc)
  | HRaise (p : hproc).

  (** 45-58, for the header [h]. *)
  Definition h_payload (h : H) (lines : list str) (line : str) (buf : list Z) : hturn :=
    match clen h with
    | None => HRaise (mkHproc buf lines line (Some h))
    | Some n =>
        if (n =? 0) || (n <=? zlen buf) then
          if 0 <? n then
            match fifo_pop n buf with
            | Some (d, rest) => HYield (h, Some d) (mkHproc rest lines line None)
            | None => HRaise (mkHproc buf lines line (Some h))
            end
          else HYield (h, None) (mkHproc buf lines line None)
        else HStop (mkHproc buf lines line (Some h))
    end.

  Definition h_turn (p : hproc) : hturn :=
    match h_buf p with
    | [] => HStop p
    | _ =>
        match h_cur p with
        | Some h => h_payload h (h_lines p) (h_line p) (h_buf p)
        | None =>
            match h_service (h_lines p) (h_line p) (h_buf p) with
            | SNone lines line => HStop (mkHproc [] lines line None)
            | SRaise rest lines line => HRaise (mkHproc rest lines line None)
            | SHeader h line rest => h_payload h [] line rest
            end
        end
    end.

  (** 39-58.  The boolean is true when something raised. *)
  Fixpoint h_loop (fuel : nat) (p : hproc) : list msg * hproc * bool :=
    match fuel with
    | O => ([], p, false)
    | S fuel' =>
        match h_turn p with
        | HStop q => ([], q, false)
        | HRaise q => ([], q, true)
        | HYield m q =>
            let '(ms, r, e) := h_loop fuel' q in (m :: ms, r, e)
        end
    end.

  Definition h_add (p : hproc) (data : list Z) : hproc :=
    mkHproc (h_buf p ++ data) (h_lines p) (h_line p) (h_cur p).
  Definition h_fuel (p : hproc) : nat := 2 * List.length (h_buf p) + 2.

  (** 31-58 [ingest]. *)
  Definition h_ingest (p : hproc) (data : list Z) : list msg * hproc * bool :=
    h_loop (h_fuel (h_add p data)) (h_add p data).

  (** Chunk after chunk, until something raises. *)
  Fixpoint h_feed (p : hproc) (chunks : list (list Z)) : list msg * hproc * bool :=
    match chunks with
    | [] => ([], p, false)
    | c :: cs =>
        let '(ms, q, e) := h_ingest p c in
        if e then (ms, q, true)
        else let '(ms', r, e') := h_feed q cs in (ms ++ ms', r, e')
    end.
End Stream.
Arguments hproc : clear implicits.
Arguments msg : clear implicits.

(** ** Header fields: common.py:26-76. *)
Definition headers := list (str * str).

(** 42-44 [__setitem__]. *)
Definition hd_set (key value : str) (hs : headers) : headers :=
  dset (lower key) (strip value) hs.
(** 46-48 [get]. *)
Definition hd_get (key : str) (hs : headers) : option str := dget (lower key) hs.
(** 29-36: None is ValueError (no colon in a line). *)
Fixpoint hd_parse (hs : headers) (lines : list str) : option headers :=
  match lines with
  | [] => Some hs
  | l :: ls =>
      match split_once 58 l with
      | Some (key, value) => hd_parse (hd_set key value hs) ls
      | None => None
      end
  end.
(** 50-53 [content_length]. *)
Definition hd_length (hs : headers) : option Z :=
  py_int (match hd_get (lit "content-length") hs with Some v => v | None => lit "0" end).
Definition crlf : list Z := [13; 10].
(** 55-60 [write_field_lines]. *)
Definition hd_write (hs : headers) : str :=
  List.concat (map (fun kv => fst kv ++ [58; 32] ++ snd kv ++ crlf) hs).

(** ** version.py *)
Record version := mkVersion { v_major : Z; v_minor : Z }.
(** 12-20: None is ValueError or AssertionError. *)
Definition ver_parse (s : str) : option version :=
  match split_on 47 s with
  | [a; b] =>
      if str_eqb a (lit "HTTP") then
        match split_on 46 b with
        | [x; y] =>
            match py_int x, py_int y with
            | Some m, Some n => Some (mkVersion m n)
            | _, _ => None
            end
        | _ => None
        end
      else None
  | _ => None
  end.
(** 28-33, 35-37 [__str__]. *)
Definition ver_str (v : version) : str :=
  lit "HTTP/" ++ dec (v_major v) ++ [46] ++ dec (v_minor v).

(** ** Requests: header.py, request_target.py *)
(** http.HTTPMethod. *)
Definition methods : list str :=
  map lit ["CONNECT"; "DELETE"; "GET"; "HEAD"; "OPTIONS"; "PATCH"; "POST"; "PUT"; "TRACE"].
(** common.py:18-23 [normalize_method]: KeyError when absent. *)
Definition method_ok (m : str) : bool := existsb (str_eqb m) methods.

(** request_target.py:15-52 (the four forms). *)
Inductive target_form :=
| FAsterisk
| FAuthority (host : str) (port : Z)
| FOrigin (path : str) (query : option str)
| FAbsolute (raw : str).
Definition target_parse (m raw : str) : option target_form :=
  if str_eqb raw (lit "*") then Some FAsterisk
  else if str_eqb m (lit "CONNECT") then
    match split_on 58 raw with
    | [host; port] =>
        match py_int port with Some n => Some (FAuthority host n) | None => None end
    | _ => None
    end
  else if starts_with 47 raw then
    match split_on 63 raw with
    | [path] => Some (FOrigin path None)
    | path :: query :: _ => Some (FOrigin path (Some query))
    | [] => None
    end
  else Some (FAbsolute raw).

Record request := mkRequest {
  r_method : str; r_target : str; r_form : target_form; r_version : version; r_headers : headers
}.
(** header.py:45-55 [from_lines]. *)
Definition req_parse (lines : list str) : option request :=
  match lines with
  | [] => None
  | l :: ls =>
      match split_on 32 l with
      | [m; t; v] =>
          if method_ok m then
            match target_parse m t, ver_parse v, hd_parse [] ls with
            | Some f, Some ver, Some hs => Some (mkRequest m t f ver hs)
            | _, _, _ => None
            end
          else None
      | _ => None
      end
  end.
(** 74-88 [request_line], [__str__]; common.py:74-76 [__bytes__] encodes the
    text as UTF-8, which for ASCII text is the text itself. *)
Definition req_bytes (r : request) : list Z :=
  join 32 [r_method r; r_target r; ver_str (r_version r)] ++ crlf ++
  hd_write (r_headers r) ++ crlf.
Definition req_clen (r : request) : option Z := hd_length (r_headers r).
Definition req_with (r : request) (hs : headers) : request :=
  mkRequest (r_method r) (r_target r) (r_form r) (r_version r) hs.

(** ** Responses: response.py *)
Section Response.
  (** http.HTTPStatus(n): ValueError unless valid. *)
  Context (status_ok : Z -> bool).

  Record response := mkResponse {
    a_version : version; a_status : Z; a_reason : str; a_headers : headers
  }.
  (** 41-53 [from_lines] on a fresh instance (reason ""). *)
  Definition resp_parse (lines : list str) : option response :=
    match lines with
    | [] => None
    | l :: ls =>
        let '(v, rest) := match split_once 32 l with Some p => p | None => (l, []) end in
        let '(s, reason) :=
          match split_once 32 rest with Some p => p | None => (rest, []) end in
        match split_once 32 l with
        | None => None  (* status_parts[1]: IndexError *)
        | Some _ =>
            match ver_parse v, py_int s with
            | Some ver, Some n =>
                if status_ok n then
                  match hd_parse [] ls with
                  | Some hs => Some (mkResponse ver n reason hs)
                  | None => None
                  end
                else None
            | _, _ => None
            end
        end
    end.
  (** 55-73 [status_line], [__str__]. *)
  Definition resp_bytes (a : response) : list Z :=
    join 32 ([ver_str (a_version a); dec (a_status a)] ++
             match a_reason a with [] => [] | x => [x] end) ++ crlf ++
    hd_write (a_headers a) ++ crlf.
  Definition resp_clen (a : response) : option Z := hd_length (a_headers a).
  Definition resp_with (a : response) (hs : headers) : response :=
    mkResponse (a_version a) (a_status a) (a_reason a) hs.
End Response.

(** net/tcp/http/__init__.py:156-170 [_send]: content-length, header bytes,
    then the data. *)
Definition send_headers (hs : headers) (data : option (list Z)) : headers :=
  let hs0 := hd_set (lit "content-length") (lit "0") hs in
  match data with
  | None | Some [] => hs0
  | Some d => hd_set (lit "content-length") (dec (zlen d)) hs0
  end.
Definition send_data (data : option (list Z)) : list Z :=
  match data with None => [] | Some d => d end.
Definition send_request (r : request) (data : option (list Z)) : list Z :=
  req_bytes (req_with r (send_headers (r_headers r) data)) ++ send_data data.
Definition send_response (a : response) (data : option (list Z)) : list Z :=
  resp_bytes (resp_with a (send_headers (a_headers a) data)) ++ send_data data.
