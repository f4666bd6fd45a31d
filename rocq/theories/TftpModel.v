(** TFTP: runtimepy/net/udp/tftp/{io,enums,base,endpoint,__init__}.py. *)
From Verif Require Import Base PyStrModel Utf8Model PrimModel.

(** ** io.py 10-31 [tftp_chunks]

    [blocks fuel size data] is the [while] loop of lines 19-27 reading a file
    whose contents are [data]; the fuel (one more than the file length) always
    suffices because every read of [size >= 1] consumes something. *)
Fixpoint blocks (fuel : nat) (size : nat) (data : list Z) : list (list Z) :=
  match fuel with
  | O => []
  | S fuel' =>
      match firstn size data with
      | [] => []
      | d => d :: blocks fuel' size (skipn size data)
      end
  end.

(** Lines 26-31: [prev_length] is the length of the last block, 0 if none. *)
Definition tftp_chunks (size : nat) (data : list Z) : list (list Z) :=
  let bs := blocks (S (List.length data)) size data in
  let prev_length := List.length (last bs []) in
  if ((prev_length =? 0) || (size <=? prev_length))%nat then bs ++ [[]] else bs.

(** ** enums.py 57-79; None is UnicodeEncodeError / UnicodeDecodeError /
    IndexError. *)
Definition encode_filename_mode (filename mode : str) : option (list Z) :=
  match utf8_encode filename, utf8_encode mode with
  | Some f, Some m => Some (f ++ [0] ++ m ++ [0])
  | _, _ => None
  end.
Definition parse_filename_mode (data : list Z) : option (str * str) :=
  match split_on 0 data with
  | f :: m :: _ =>
      match utf8_decode f, utf8_decode m with
      | Some f', Some m' => Some (f', m')
      | _, _ => None
      end
  | _ => None
  end.

(** ** Datagrams *)

(** base.py 187-245, 258-274: what is sent.  [WRQ]/[RRQ] carry the request. *)
Inductive datagram :=
| DRrq (filename mode : str)
| DWrq (filename mode : str)
| DData (block : Z) (data : list Z)
| DAck (block : Z)
| DError (code : Z) (message : str).

(** [Uint16] in network byte order (its default; base.py 70-76, 269). *)
Definition be16 (v : Z) : list Z := [v / 256 mod 256; v mod 256].
Definition u16 (v : Z) : Z := v mod 65536.

(** base.py 187-245: assigning to [block_number.value] stores modulo 2^16
    (ctypes), so out-of-range block numbers wrap silently. *)
Definition send_datagram (d : datagram) : option (list Z) :=
  match d with
  | DRrq f m => option_map (app (be16 1)) (encode_filename_mode f m)
  | DWrq f m => option_map (app (be16 2)) (encode_filename_mode f m)
  | DData b data => Some (be16 3 ++ be16 (u16 b) ++ data)
  | DAck b => Some (be16 4 ++ be16 (u16 b))
  | DError c msg =>
      option_map (fun e => be16 5 ++ be16 (u16 c) ++ e ++ [0]) (utf8_encode msg)
  end.

(** base.py 276-370 [process_datagram] and the handlers' parsing.  None is an
    exception (short datagram: struct.error; bad UTF-8; an error code above 8,
    line 346); [Some None] is an unknown opcode, which is answered with an
    error (lines 365-368). *)
Definition from_be16 (l : list Z) : option (Z * list Z) :=
  match l with
  | a :: b :: r => Some (a * 256 + b, r)
  | _ => None
  end.
Definition receive_datagram (data : list Z) : option (option datagram) :=
  match from_be16 data with
  | None => None
  | Some (op, rest) =>
      if op =? 1 then
        match parse_filename_mode rest with
        | Some (f, m) => Some (Some (DRrq f m)) | None => None end
      else if op =? 2 then
        match parse_filename_mode rest with
        | Some (f, m) => Some (Some (DWrq f m)) | None => None end
      else if op =? 3 then
        match from_be16 rest with
        | Some (b, r) => Some (Some (DData b r)) | None => None end
      else if op =? 4 then
        match from_be16 rest with
        | Some (b, _) => Some (Some (DAck b)) | None => None end
      else if op =? 5 then
        match from_be16 rest with
        | Some (c, r) =>
            if (0 <=? c) && (c <=? 8)
            then match utf8_decode r with
                 | Some s => Some (Some (DError c s)) | None => None end
            else None
        | None => None
        end
      else Some None
  end.

(** ** One transfer between two endpoints

    A transfer of a file over an arbitrary network: the network is the list of
    every datagram ever sent, and any of them may be delivered at any time, any
    number of times (so loss, duplication and reordering are all covered).
    Errors have no effect on a transfer (endpoint.py 147-157 only logs), and
    requests always carry the same name, so datagrams are abbreviated. *)
Inductive msg := MRequest | MData (block : Z) (data : list Z) | MAck (block : Z).

Definition msg_eq_dec (a b : msg) : {a = b} + {a <> b}.
Proof. decide equality; try apply (list_eq_dec Z.eq_dec); apply Z.eq_dec. Defined.

(** Which of the two pairs of programs runs:
    - [KWrite]: [request_write] (__init__.py 137-172) sends to a server running
      [_process_write_request] / [ingest_file] (endpoint.py 159-253);
    - [KRead]: [request_read] (__init__.py 33-135) receives from a server
      running [_process_read_request] / [serve_file] (endpoint.py 255-307). *)
Inductive transfer_kind := KWrite | KRead.

(** The sending program.  [acked] is whether the awaited ack's event is set
    (once it is, the number is no longer in [awaiting_acks]). *)
Inductive sender :=
| SIdle                          (* server, no read request served yet *)
| SAwaitFirst (acked : bool)     (* request_write 161-170, awaiting ack 0 *)
| SServe (idx : Z) (acked : bool)(* serve_file 265-284, awaiting ack idx *)
| SDone (success : bool)
| SRaised.                       (* AssertionError of endpoint.py 268 *)

(** The receiving program.  [RWait (Some d)]: block [idx] is in [blocks] and
    its event is set. *)
Inductive receiver :=
| RIdle                          (* server, no write request served yet *)
| RWait (got : option (list Z))  (* awaiting block idx *)
| RDone (success : bool)
| RRaised.                       (* AssertionError of endpoint.py 190 *)

Record transfer := mkTransfer {
  net : list msg;
  snd_ : sender;
  snd_pending : nat;      (* read requests queued behind the endpoint's lock *)
  rcv : receiver;
  rcv_idx : Z;
  rcv_file : list Z;      (* contents of the file being written *)
  rcv_pos : nat;          (* position of the open descriptor: bytes written *)
  rcv_pending : nat       (* write requests queued behind the lock *)
}.

Inductive op :=
| Deliver (m : msg)       (* a datagram sent earlier arrives *)
| SSend | SResume | STimeout | SStart
| RSend | RResume | RTimeout | RStart.

Definition set_net t n := mkTransfer n (snd_ t) (snd_pending t) (rcv t) (rcv_idx t)
  (rcv_file t) (rcv_pos t) (rcv_pending t).
Definition set_snd t s p := mkTransfer (net t) s p (rcv t) (rcv_idx t)
  (rcv_file t) (rcv_pos t) (rcv_pending t).
Definition set_rcv t r i f p n := mkTransfer (net t) (snd_ t) (snd_pending t) r i f p n.

(** Writing [d] at offset [pos] of a file (a hole is filled with zeros).
    Simplification: writes reach the file at once (no buffering). *)
Definition write_at (file : list Z) (pos : nat) (d : list Z) : list Z :=
  firstn pos file ++ repeat 0 (pos - List.length file) ++ d ++ skipn (pos + List.length d) file.

Section Transfer.
  Context (k : transfer_kind) (max_block : nat) (file : list Z).
  Let chunks := tftp_chunks max_block file.

  Definition chunk (idx : Z) : option (list Z) := nth_error chunks (Z.to_nat (idx - 1)).

  (** serve_file 265-272: the next chunk, if any, and the assertion. *)
  Definition serve (idx : Z) : sender :=
    match chunk idx with
    | None => SDone true
    | Some _ => if idx <? 65536 then SServe idx false else SRaised
    end.

  (** What [repeat_until] repeatedly sends on the sender's side:
      __init__.py 157-159, endpoint.py 85-92, 275. *)
  Definition sender_msg (t : transfer) : option msg :=
    match snd_ t with
    | SAwaitFirst _ => Some MRequest
    | SServe idx _ => option_map (MData (u16 idx)) (chunk idx)
    | _ => None
    end.

  (** What the receiver repeatedly sends: endpoint.py 175 (ack of the previous
      block), 210 (the final ack); __init__.py 56-62, 66-71 (the request),
      51-54, 104-105, 117-118 (acks: [idx - 1] also for the final one, where
      [idx] was not incremented, lines 92-93). *)
  Definition receiver_msg (t : transfer) : option msg :=
    match k, rcv t with
    | KWrite, RWait _ => Some (MAck (u16 (rcv_idx t - 1)))
    | KWrite, RDone true => Some (MAck (u16 (rcv_idx t)))
    | KRead, RWait _ =>
        Some (if rcv_idx t =? 1 then MRequest else MAck (u16 (rcv_idx t - 1)))
    | KRead, RDone true => Some (MAck (u16 (rcv_idx t - 1)))
    | _, _ => None
    end.

  Definition sent (t : transfer) (m : option msg) : transfer :=
    match m with Some m => set_net t (net t ++ [m]) | None => t end.

  (** Reception.  endpoint.py 111-124 [handle_data], 126-138 [handle_ack];
      a write request first opens the file in mode "wb" to check permissions
      (endpoint.py 249-251, 336-339), which truncates it, and queues a task
      (253); a read request queues a task (326). *)
  Definition deliver (t : transfer) (m : msg) : transfer :=
    match m with
    | MRequest =>
        match k with
        | KWrite => set_rcv t (rcv t) (rcv_idx t) [] (rcv_pos t) (S (rcv_pending t))
        | KRead => set_snd t (snd_ t) (S (snd_pending t))
        end
    | MData block d =>
        match rcv t with
        | RWait None =>
            if block =? rcv_idx t
            then set_rcv t (RWait (Some d)) (rcv_idx t) (rcv_file t) (rcv_pos t) (rcv_pending t)
            else t
        | _ => t
        end
    | MAck block =>
        match snd_ t with
        | SAwaitFirst false =>
            if block =? 0 then set_snd t (SAwaitFirst true) (snd_pending t) else t
        | SServe idx false =>
            if block =? idx then set_snd t (SServe idx true) (snd_pending t) else t
        | _ => t
        end
    end.

  (** [ingest_file] 183-204 and 207 / [request_read]'s [write_block] 80-95 and
      100, 110-111, 135, on the block that arrived. *)
  Definition receive_block (t : transfer) (d : list Z) : transfer :=
    let full := (max_block <=? List.length d)%nat in
    let f := write_at (rcv_file t) (rcv_pos t) d in
    let p := (rcv_pos t + List.length d)%nat in
    match k with
    | KWrite =>
        if (max_block <? List.length d)%nat
        then set_rcv t RRaised (rcv_idx t) (rcv_file t) (rcv_pos t) (rcv_pending t)
        else if full
        then set_rcv t (RWait None) (rcv_idx t + 1) f p (rcv_pending t)
        else set_rcv t (RDone (0 <? p)%nat) (rcv_idx t) f p (rcv_pending t)
    | KRead =>
        if full
        then set_rcv t (RWait None) (rcv_idx t + 1) f p (rcv_pending t)
        else set_rcv t (RDone true) (rcv_idx t) f p (rcv_pending t)
    end.

  (** One step.  An operation that is not enabled does nothing.  [STimeout] and
      [RTimeout] are [repeat_until] giving up, which it does only when the
      event is not set (vcorelib, assumed). *)
  Definition step (t : transfer) (o : op) : transfer :=
    match o with
    | Deliver m => if in_dec msg_eq_dec m (net t) then deliver t m else t
    | SSend => sent t (sender_msg t)
    | SResume =>
        match snd_ t with
        | SAwaitFirst true => set_snd t (serve 1) (snd_pending t)
        | SServe idx true => set_snd t (serve (idx + 1)) (snd_pending t)
        | _ => t
        end
    | STimeout =>
        match snd_ t with
        | SAwaitFirst false | SServe _ false => set_snd t (SDone false) (snd_pending t)
        | _ => t
        end
    | SStart =>   (* _process_read_request gets the lock *)
        match k, snd_ t, snd_pending t with
        | KRead, (SIdle | SDone _ | SRaised), S n => set_snd t (serve 1) n
        | _, _, _ => t
        end
    | RSend => sent t (receiver_msg t)
    | RResume =>
        match rcv t with RWait (Some d) => receive_block t d | _ => t end
    | RTimeout =>
        match rcv t with
        | RWait None =>
            set_rcv t (RDone false) (rcv_idx t) (rcv_file t) (rcv_pos t) (rcv_pending t)
        | _ => t
        end
    | RStart =>   (* _process_write_request gets the lock: open "wb", ingest *)
        match k, rcv t, rcv_pending t with
        | KWrite, (RIdle | RDone _ | RRaised), S n => set_rcv t (RWait None) 1 [] 0 n
        | _, _, _ => t
        end
    end.

  (** The client side has just started; [n0] are datagrams still in the network
      from before. *)
  Definition initial_with (n0 : list msg) : transfer :=
    match k with
    | KWrite => mkTransfer n0 (SAwaitFirst false) 0 RIdle 1 [] 0 0
    | KRead => mkTransfer n0 SIdle 0 (RWait None) 1 [] 0 0
    end.
  Definition initial : transfer := initial_with [].

  Definition run (t : transfer) (ops : list op) : transfer := fold_left step ops t.
End Transfer.
