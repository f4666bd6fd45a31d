(** The NP-05B power distribution unit: runtimepy/net/tcp/telnet/np_05b.py. *)
From Verif Require Import Base PyStrModel TaskModel.

(** [str.splitlines]: "\r\n" is one break. *)
Definition is_break (x : Z) : bool :=
  ((10 <=? x) && (x <=? 13)) || ((28 <=? x) && (x <=? 30)) || (x =? 133) || (x =? 8232) || (x =? 8233).
Fixpoint splitlines_go (cr : bool) (cur : str) (s : str) : list str :=
  match s with
  | [] => match cur with [] => [] | _ => [cur] end
  | x :: s' =>
      if cr && (x =? 10) then splitlines_go false [] s'
      else if is_break x then cur :: splitlines_go (x =? 13) [] s'
      else splitlines_go false (cur ++ [x]) s'
  end.
Definition splitlines (s : str) : list str := splitlines_go false [] s.

(** np_05b.py 36-39 [is_command]: starts with "$A". *)
Definition is_command (s : str) : bool :=
  match s with 36 :: 65 :: _ => true | _ => false end.

(** [line.split("$A")] (np_05b.py 224). *)
Fixpoint split_marker (s : str) : list str :=
  match s with
  | [] => [[]]
  | x :: s' =>
      let rest := match split_marker s' with p :: ps => (x :: p) :: ps | [] => [[x]] end in
      if x =? 36 then match s' with
                      | 65 :: s'' => [] :: split_marker s''
                      | _ => rest
                      end
      else rest
  end.

(** np_05b.py 21-34 [Np05bStrings]. *)
Inductive npstr := SetOutlet | OutletStatus | AllOutlets | NpOk | NpFail.
Definition np_value (k : npstr) : str :=
  match k with
  | SetOutlet => lit "$A3" | OutletStatus => lit "$A5" | AllOutlets => lit "$A7"
  | NpOk => lit "$A0" | NpFail => lit "$AF"
  end.
(** [Np05bStrings(s)]; None is ValueError. *)
Definition np_parse (s : str) : option npstr :=
  if str_eqb s (lit "$A3") then Some SetOutlet
  else if str_eqb s (lit "$A5") then Some OutletStatus
  else if str_eqb s (lit "$A7") then Some AllOutlets
  else if str_eqb s (lit "$A0") then Some NpOk
  else if str_eqb s (lit "$AF") then Some NpFail
  else None.

(** The state of the connection (np_05b.py 61-86): [prev_cmd], [outlets_on], the
    boolean channels of the environment, the value of the semaphore. *)
Record np := mkNp { n_prev : str; n_outlets : list (option bool); n_chans : list bool; n_sem : nat }.
Definition np_init (ports : nat) : np := mkNp [] (repeat None ports) (repeat false ports) 0.

(** The exceptions that can leave [process_text]. *)
Inductive nperr := ValueErr | AssertErr | IndexErr.
Inductive npres := NGo (s : np) | NRaise (s : np) (e : nperr).

(** np_05b.py 193-204: the loop over the reversed status string; an index past
    the last outlet raises after the earlier ones were stored. *)
Fixpoint np_bits (idx : nat) (bits : str) (s : np) : npres :=
  match bits with
  | [] => NGo s
  | v :: bits' =>
      match nth_error (n_outlets s) idx with
      | None => NRaise s IndexErr
      | Some _ =>
          let curr := v =? 49 in
          np_bits (S idx) bits'
            (mkNp (n_prev s) (upd idx (Some curr) (n_outlets s)) (upd idx curr (n_chans s)) (n_sem s))
      end
  end.
Definition np_release (s : np) : np := mkNp (n_prev s) (n_outlets s) (n_chans s) (S (n_sem s)).

(** np_05b.py 168-207 [process_response] (logging left out). *)
Definition np_response (cmd : npstr) (response : str) (s : np) : npres :=
  let parts := split_on 44 response in
  match np_parse (hd [] parts) with
  | None => NRaise s ValueErr
  | Some SetOutlet | Some OutletStatus | Some AllOutlets => NRaise s AssertErr
  | Some NpFail => NGo (match cmd with OutletStatus => np_release s | _ => s end)
  | Some NpOk =>
      match cmd with
      | OutletStatus =>
          match parts with
          | _ :: bits :: _ =>
              match np_bits 0 (rev bits) s with
              | NGo s' => NGo (np_release s')
              | r => r
              end
          | _ => NRaise s IndexErr
          end
      | _ => NGo s
      end
  end.

Definition with_prev (p : str) (s : np) : np := mkNp p (n_outlets s) (n_chans s) (n_sem s).

(** np_05b.py 217-219, 229-245: one line with at most one marker. *)
Definition np_line (s : np) (line : str) : npres :=
  match line with
  | [] | [62] => NGo s
  | _ =>
      if is_command line then
        if is_command (n_prev s) then
          match np_parse (firstn 3 (n_prev s)) with
          | None => NRaise s ValueErr
          | Some cmd =>
              match np_response cmd line s with
              | NGo s' => NGo (with_prev [] s')
              | r => r
              end
          end
        else NGo (with_prev line s)
      else NGo s
  end.

(** np_05b.py 224-227: a line with several markers becomes one line per marker.
    The pieces have one marker each (lemma [np_expand_once]), so putting them
    back on the stack and splitting them again changes nothing. *)
Definition np_expand (line : str) : list str :=
  match split_marker line with
  | _ :: p :: q :: ps => map (fun x => 36 :: 65 :: x) (p :: q :: ps)
  | _ => [line]
  end.

(** np_05b.py 214-245, the loop over the line stack. *)
Fixpoint np_lines (s : np) (ls : list str) : npres :=
  match ls with
  | [] => NGo s
  | l :: ls' => match np_line s l with NGo s' => np_lines s' ls' | r => r end
  end.

(** np_05b.py 209-247 [process_text]. *)
Definition np_text (s : np) (data : str) : npres :=
  np_lines s (flat_map np_expand (splitlines data)).

(** np_05b.py 98-119 [handle_command]: what the outlet is asked to become.
    [parsed] is the result of [StrToBool.parse(args.extra[0])] when there is an
    extra argument and it is valid. *)
Definition np_target (toggle : bool) (curr : option bool) (parsed : option bool) : option bool :=
  if toggle then match curr with Some b => Some (negb b) | None => parsed end else parsed.

(** np_05b.py 127-132 [_send_np05b] (the terminating "\r\n" is added here). *)
Definition np_message (k : npstr) (parts : list str) : str := join 32 (np_value k :: parts) ++ [13; 10].

(** The commands [set_outlet_state] sends (np_05b.py 134-162). *)
Definition set_message (idx : Z) (state : bool) : str :=
  np_message SetOutlet [dec idx; if state then lit "1" else lit "0"].
Definition status_message : str := np_message OutletStatus [].

(** np_05b.py 149-166 [set_outlet_state], up to the first suspension. *)
Inductive begun :=
| BFalse                (* returns False at once *)
| BTrue                 (* the outlet is known to be in that state: True at once *)
| BSend (real : nat)    (* goes on to [np05b_command] *)
| BIndex.               (* IndexError at line 159 *)
Definition np_begin (ports : nat) (idx : Z) (state : bool) (s : np) : begun :=
  let real := idx - 1 in
  if (0 <=? real) && (real <=? Z.of_nat ports) then
    match nth_error (n_outlets s) (Z.to_nat real) with
    | None => BIndex
    | Some cur => match cur with
                  | Some b => if Bool.eqb b state then BTrue else BSend (Z.to_nat real)
                  | None => BSend (Z.to_nat real)
                  end
    end
  else BFalse.

(** The connection with its calls and the device at the other end.  The device
    handles commands in order and answers each with an echo line and a response
    line (this is the behaviour the comments of lines 191 and 230 assume; it is
    not part of the repository).  [owner] is ghost state: the number of the call
    a command was sent for. *)
Inductive dcmd := DcSet (owner : nat) (real : nat) (state : bool) | DcStatus (owner : nat).
Inductive dev :=
| DvSet (owner real : nat) (state ok : bool)      (* handled a set command *)
| DvStatus (owner : nat) (bits : list bool)       (* answered a status query *)
| DvPanel (bits : list bool).                     (* someone used the buttons *)

Inductive call :=
| CLock (real : nat) (state : bool)               (* wants the lock (line 137) *)
| CWait (real : nat) (state : bool)               (* waits for the semaphore (147) *)
| CDone (r : option bool).                        (* returned; None: TimeoutError *)

Record pdu := mkPdu {
  p_np : np;
  p_calls : list call;
  p_lock : option nat;          (* the call that holds the lock *)
  p_cmds : list dcmd;           (* sent, not yet handled by the device *)
  p_replies : list (str * str); (* echo and response on their way back *)
  p_dev : list bool;            (* outlets of the device *)
  p_log : list dev;             (* what the device did *)
  p_err : bool }.               (* an exception left [process_text] or a call *)

Definition bit_char (b : bool) : Z := if b then 49 else 48.
(** The status string is sent in reverse order (line 191-192). *)
Definition status_text (bits : list bool) : str := lit "$A0," ++ rev (map bit_char bits).

Definition np_pdu (s : np) (devbits : list bool) : pdu := mkPdu s [] None [] [] devbits [] false.

Inductive pop :=
| PCall (idx : Z) (state : bool)    (* [set_outlet_state] is called *)
| PLock (k : nat)                   (* call k gets the free lock and sends *)
| PDevice (ok : bool)               (* the device handles a command *)
| PPanel (bits : list bool)
| PDeliver                          (* echo and response arrive *)
| PResume (k : nat)                 (* call k goes on: the semaphore is positive *)
| PTimeout (k : nat).               (* five seconds passed (line 139) *)

Section Pdu.
  Context (ports : nat).

  Definition p_set_call (k : nat) (c : call) (p : pdu) : pdu :=
    mkPdu (p_np p) (upd k c (p_calls p)) (p_lock p) (p_cmds p) (p_replies p) (p_dev p) (p_log p) (p_err p).
  Definition p_add_call (c : call) (p : pdu) : pdu :=
    mkPdu (p_np p) (p_calls p ++ [c]) (p_lock p) (p_cmds p) (p_replies p) (p_dev p) (p_log p) (p_err p).

  (** np_05b.py 149-166, 134-147; the device. *)
  Definition p_step (p : pdu) (o : pop) : pdu :=
    match o with
    | PCall idx state =>
        match np_begin ports idx state (p_np p) with
        | BFalse => p_add_call (CDone (Some false)) p
        | BTrue => p_add_call (CDone (Some true)) p
        | BSend real => p_add_call (CLock real state) p
        | BIndex => mkPdu (p_np p) (p_calls p ++ [CDone None]) (p_lock p) (p_cmds p) (p_replies p) (p_dev p) (p_log p) true
        end
    | PLock k =>
        match p_lock p, nth_error (p_calls p) k with
        | None, Some (CLock real state) =>
            mkPdu (p_np p) (upd k (CWait real state) (p_calls p)) (Some k)
                  (p_cmds p ++ [DcSet k real state; DcStatus k]) (p_replies p) (p_dev p) (p_log p) (p_err p)
        | _, _ => p
        end
    | PDevice ok =>
        match p_cmds p with
        | [] => p
        | DcSet k real state :: cmds =>
            mkPdu (p_np p) (p_calls p) (p_lock p) cmds
              (p_replies p ++ [(join 32 [np_value SetOutlet; dec (Z.of_nat real + 1); if state then lit "1" else lit "0"],
                                np_value (if ok then NpOk else NpFail))])
              (if ok then upd real state (p_dev p) else p_dev p) (p_log p ++ [DvSet k real state ok]) (p_err p)
        | DcStatus k :: cmds =>
            mkPdu (p_np p) (p_calls p) (p_lock p) cmds
              (p_replies p ++ [(np_value OutletStatus, status_text (p_dev p))])
              (p_dev p) (p_log p ++ [DvStatus k (p_dev p)]) (p_err p)
        end
    | PPanel bits => mkPdu (p_np p) (p_calls p) (p_lock p) (p_cmds p) (p_replies p) bits (p_log p ++ [DvPanel bits]) (p_err p)
    | PDeliver =>
        match p_replies p with
        | [] => p
        | (echo, resp) :: rs =>
            match np_text (p_np p) (echo ++ [13; 10] ++ resp ++ [13; 10]) with
            | NGo s => mkPdu s (p_calls p) (p_lock p) (p_cmds p) rs (p_dev p) (p_log p) (p_err p)
            | NRaise s _ => mkPdu s (p_calls p) (p_lock p) (p_cmds p) rs (p_dev p) (p_log p) true
            end
        end
    | PResume k =>
        match n_sem (p_np p), nth_error (p_calls p) k with
        | S n, Some (CWait real state) =>
            let s := mkNp (n_prev (p_np p)) (n_outlets (p_np p)) (n_chans (p_np p)) n in
            let r := match nth_error (n_outlets s) real with
                     | Some (Some b) => Bool.eqb b state | _ => false end in
            mkPdu s (upd k (CDone (Some r)) (p_calls p)) None (p_cmds p) (p_replies p) (p_dev p) (p_log p) (p_err p)
        | _, _ => p
        end
    | PTimeout k =>
        match nth_error (p_calls p) k with
        | Some (CWait _ _) =>
            mkPdu (p_np p) (upd k (CDone None) (p_calls p)) None (p_cmds p) (p_replies p) (p_dev p) (p_log p) (p_err p)
        | _ => p
        end
    end.
  Definition p_run (p : pdu) (ops : list pop) : pdu := fold_left p_step ops p.
End Pdu.
