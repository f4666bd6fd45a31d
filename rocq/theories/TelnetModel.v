(** Telnet reception: runtimepy/net/tcp/telnet/{codes,__init__}.py. *)
From Verif Require Import Base Utf8Model.

(** codes.py 10-67 [TelnetCode]: the members are exactly 240..255. *)
Definition IAC : Z := 255.
Definition is_telnet_code (v : Z) : bool := (240 <=? v) && (v <=? 255).

(** codes.py 69-72 [TelnetCode.is_option_code]: WILL (251) .. DONT (254). *)
Definition is_option_code (v : Z) : bool := (251 <=? v) && (v <=? 254).

(** codes.py 129-132 [TelnetNvt.is_nvt]. *)
Definition is_nvt (v : Z) : bool := (v =? 0) || ((7 <=? v) && (v <=? 13)).

(** codes.py 111-127 [TelnetNvt.to_stream]: CR, LF and HT are forwarded. *)
Definition to_stream (v : Z) : bool := (v =? 13) || (v =? 10) || (v =? 9).

(** What the connection's handlers are called with. *)
Inductive report :=
| RCommand (code : Z)            (* process_command *)
| ROption (code option : Z)      (* process_option *)
| RNvt (action : Z).             (* handle_nvt *)

(** The two flags of the state machine (telnet/__init__.py 77-78) and the
    previous byte needed by [processing_option]. *)
Inductive tmode := MData | MCommand | MOption (code : Z).

(** The state at the end of the loop or the ValueError of [TelnetCode(val)]
    (line 107) on a byte that is no telnet code. *)
Inductive tscan :=
| SDone (m : tmode) (reports : list report) (text : list Z)
| SBadCode (reports : list report).

(** telnet/__init__.py 84-121, the loop of [Telnet.process_binary].  [rs] and
    [text] are accumulated in order.  Simplification: [process_option] is given
    the rest of the stream but reads nothing from it (as [BasicTelnet]'s does),
    and the handlers themselves do not raise. *)
Fixpoint scan (m : tmode) (rs : list report) (text : list Z) (data : list Z) : tscan :=
  match data with
  | [] => SDone m rs text
  | v :: data' =>
      match m with
      | MOption code => scan MData (rs ++ [ROption code v]) text data'
      | MCommand =>
          if is_option_code v then scan (MOption v) rs text data'
          else if v =? IAC then scan MData rs (text ++ [v]) data'
          else if is_telnet_code v then scan MData (rs ++ [RCommand v]) text data'
          else SBadCode rs
      | MData =>
          if v =? IAC then scan MCommand rs text data'
          else if is_nvt v then
            if to_stream v then scan MData rs (text ++ [v]) data'
            else scan MData (rs ++ [RNvt v]) text data'
          else scan MData rs (text ++ [v]) data'
      end
  end.

(** What one call of [process_binary] does: handlers called, then the text it
    hands to [process_text], if any; or an exception. *)
Inductive toutcome :=
| TOk (reports : list report) (text : option (list Z))
| TBadCode (reports : list report)     (* ValueError from TelnetCode(..) *)
| TBadText (reports : list report).    (* UnicodeDecodeError, line 40 *)

(** telnet/__init__.py 68-127 [Telnet.process_binary] with 38-40
    [process_telnet_message]; the flags are locals, so whatever mode the loop
    ended in is forgotten. *)
Definition process_binary (data : list Z) : toutcome :=
  match scan MData [] [] data with
  | SBadCode rs => TBadCode rs
  | SDone _ rs [] => TOk rs None
  | SDone _ rs text =>
      match utf8_decode text with
      | Some s => TOk rs (Some s)
      | None => TBadText rs
      end
  end.

(** telnet/__init__.py 46-56 [send_command], [send_option] (None is the
    assertion of line 55). *)
Definition send_command (code : Z) : list Z := [IAC; code].
Definition send_option (opt code : Z) : option (list Z) :=
  if is_option_code opt then Some [IAC; opt; code] else None.
