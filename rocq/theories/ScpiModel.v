(** SCPI connections: commands, the lock, the reply queue and the reader. *)
From Verif Require Import Base PyStrModel TaskModel.
Open Scope list_scope.
Open Scope Z_scope.

(** Where a call of send_command is: waiting for the lock, waiting for the reply
    with the lock held, or returned. *)
Inductive cpc := CWait | CReply | CEnd (r : str).
Record call := mkCall { cl_cmd : str; cl_wants : bool; cl_pc : cpc }.
Record scpi := mkScpi {
  sc_calls : list call;               (* in the order of the calls *)
  sc_line : list nat;                 (* asyncio.Lock is fair: the holder or next holder first *)
  sc_sent : list str;                 (* texts given to the transport *)
  sc_queue : option str;              (* message_queue, maxsize=1 *)
  sc_pending : list str;              (* items the reader has still to put *)
  sc_got : list (nat * str)           (* which call took which item *)
}.
Definition sc_new : scpi := mkScpi [] [] [] None [] [].

Definition set_call (k : nat) (pc : cpc) (l : list call) : list call :=
  match nth_error l k with Some c => upd k (mkCall (cl_cmd c) (cl_wants c) pc) l | None => l end.

(** net/tcp/scpi/__init__.py:31-33 with str.splitlines; as empty items are
    skipped, the end of the text and \r\n need no special case. *)
Definition is_break (c : Z) : bool :=
  existsb (Z.eqb c) [10; 11; 12; 13; 28; 29; 30; 133; 8232; 8233].
Fixpoint pieces (cur : str) (s : str) : list str :=
  match s with
  | [] => [cur]
  | c :: s => if is_break c then cur :: pieces [] s else pieces (cur ++ [c]) s
  end.
Definition items (data : str) : list str := filter (fun x => match x with [] => false | _ => true end) (pieces [] data).

(** net/tcp/scpi/__init__.py:53-54: the command as it is sent. *)
Definition command_text (command : str) (query : bool) : str := if query then command ++ lit "?" else command.

(** net/tcp/scpi/__init__.py:56-59: with the lock taken, send; without a reply to
    wait for, return "" at once. *)
Definition sc_start (k : nat) (s : scpi) : scpi :=
  match nth_error (sc_calls s) k with
  | Some c =>
      let sent := sc_sent s ++ [cl_cmd c ++ [10]] in
      if cl_wants c then mkScpi (set_call k CReply (sc_calls s)) (sc_line s) sent (sc_queue s) (sc_pending s) (sc_got s)
      else mkScpi (set_call k (CEnd []) (sc_calls s)) (tl (sc_line s)) sent (sc_queue s) (sc_pending s) (sc_got s)
  | None => s
  end.

Inductive sev :=
| SCall (command : str) (response query : bool)   (* send_command is called *)
| SMove (k : nat)                                 (* call k goes on if it can *)
| STimeout (k : nat)                              (* wait_for gives up *)
| SChunk (data : str)                             (* decoded bytes arrive *)
| SReader.                                        (* the reader puts an item if there is room *)
Definition sc_step (s : scpi) (e : sev) : scpi :=
  match e with
  | SCall command response query =>
      let k := List.length (sc_calls s) in
      let s1 := mkScpi (sc_calls s ++ [mkCall (command_text command query) (response || query) CWait]) (sc_line s ++ [k]) (sc_sent s) (sc_queue s) (sc_pending s) (sc_got s) in
      match sc_line s with [] => sc_start k s1 | _ => s1 end
  | SMove k =>
      match sc_line s with
      | j :: line =>
          if Nat.eqb j k then
            match nth_error (sc_calls s) k with
            | Some c =>
                match cl_pc c, sc_queue s with
                | CWait, _ => sc_start k s
                | CReply, Some x => mkScpi (set_call k (CEnd x) (sc_calls s)) line (sc_sent s) None (sc_pending s) (sc_got s ++ [(k, x)])
                | _, _ => s
                end
            | None => s
            end
          else s
      | [] => s
      end
  | STimeout k =>
      match sc_line s with
      | j :: line =>
          if Nat.eqb j k then
            match nth_error (sc_calls s) k with
            | Some c => match cl_pc c with CReply => mkScpi (set_call k (CEnd []) (sc_calls s)) line (sc_sent s) (sc_queue s) (sc_pending s) (sc_got s) | _ => s end
            | None => s
            end
          else s
      | [] => s
      end
  | SChunk data => mkScpi (sc_calls s) (sc_line s) (sc_sent s) (sc_queue s) (sc_pending s ++ items data) (sc_got s)
  | SReader =>
      match sc_queue s, sc_pending s with
      | None, x :: p => mkScpi (sc_calls s) (sc_line s) (sc_sent s) (Some x) p (sc_got s)
      | _, _ => s
      end
  end.
Definition sc_run (s : scpi) (h : list sev) : scpi := fold_left sc_step h s.
