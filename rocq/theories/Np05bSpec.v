(** Vocabulary for the statements about the NP-05B connection. *)
From Verif Require Import Base PyStrModel Np05bModel.

(** A command the device echoes, and its possible responses. *)
Inductive pcmd := CmdSet | CmdStatus | CmdAll.
Inductive resp :=
| ROk                          (* "$A0" *)
| RBits (bits : list bool)     (* "$A0," and one digit per outlet, the last outlet first *)
| RFail (detail : str).        (* "$AF" and anything *)

Definition cmd_text (c : pcmd) : str :=
  match c with CmdSet => lit "$A3" | CmdStatus => lit "$A5" | CmdAll => lit "$A7" end.
Definition resp_text (r : resp) : str :=
  match r with
  | ROk => lit "$A0"
  | RBits bits => lit "$A0," ++ rev (map (fun b : bool => if b then 49 else 48) bits)
  | RFail detail => lit "$AF" ++ detail
  end.

(** What the device sends: lines that mean nothing, and echo/response pairs,
    with such lines between them or on one line. *)
Inductive item :=
| Noise (l : str)
| Pair (c : pcmd) (args : str) (between : list str) (r : resp)
| Joined (c : pcmd) (args : str) (r : resp).
Definition item_lines (i : item) : list str :=
  match i with
  | Noise l => [l]
  | Pair c args between r => (cmd_text c ++ args) :: between ++ [resp_text r]
  | Joined c args r => [cmd_text c ++ args ++ resp_text r]
  end.
(** Every line is ended by "\r\n". *)
Definition on_wire (ls : list str) : str := List.concat (map (fun l => l ++ [13; 10]) ls).

(** A text in one line without markers. *)
Definition plain (l : str) : Prop := Forall (fun x => is_break x = false /\ x <> 36) l.
(** The detail of a failure is empty or follows a comma. *)
Definition detail_ok (d : str) : Prop := plain d /\ (d = [] \/ exists d', d = 44 :: d').
Definition answers (ports : nat) (c : pcmd) (r : resp) : Prop :=
  match r with
  | ROk => c <> CmdStatus
  | RBits bits => (List.length bits <= ports)%nat
  | RFail d => detail_ok d
  end.
Definition item_ok (ports : nat) (i : item) : Prop :=
  match i with
  | Noise l => plain l
  | Pair c args between r => plain args /\ Forall plain between /\ answers ports c r
  | Joined c args r => plain args /\ answers ports c r
  end.

(** The response of a status query in an item. *)
Definition status_of (i : item) : option resp :=
  match i with
  | Pair CmdStatus _ _ r | Joined CmdStatus _ r => Some r
  | _ => None
  end.

(** The first outlets show the reported states; the others are left alone. *)
Definition report {A} (f : bool -> A) (bits : list bool) (l : list A) : list A :=
  map f bits ++ skipn (List.length bits) l.
Definition after_item (i : item) (s : np) : np :=
  match status_of i with
  | Some (RBits bits) => mkNp (n_prev s) (report Some bits (n_outlets s)) (report (fun b => b) bits (n_chans s)) (S (n_sem s))
  | Some _ => mkNp (n_prev s) (n_outlets s) (n_chans s) (S (n_sem s))
  | None => s
  end.

(** The state is one of [ports] outlets. *)
Definition sized (ports : nat) (s : np) : Prop :=
  List.length (n_outlets s) = ports /\ List.length (n_chans s) = ports.

(** The calls of [set_outlet_state] in a history. *)
Fixpoint calls_of (ops : list pop) : list (Z * bool) :=
  match ops with
  | [] => []
  | PCall idx state :: ops' => (idx, state) :: calls_of ops'
  | _ :: ops' => calls_of ops'
  end.

Definition no_timeout (o : pop) : Prop := match o with PTimeout _ => False | _ => True end.
Definition panel_ok (ports : nat) (o : pop) : Prop :=
  match o with PPanel bits => List.length bits = ports | _ => True end.
Definition is_panel (d : dev) : Prop := match d with DvPanel _ => True | _ => False end.

(** The states the device reported last. *)
Definition last_status (log : list dev) : option (list bool) :=
  fold_left (fun acc d => match d with DvStatus _ bits => Some bits | _ => acc end) log None.
