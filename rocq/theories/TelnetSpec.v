(** The telnet stream as RFC 854 describes it: a sequence of data bytes,
    escaped 255s, NVT control signals, commands and options. *)
From Verif Require Import Base Utf8Model TelnetModel.

Inductive item :=
| IData (b : Z)
| IEscape
| INvt (b : Z)
| ICommand (c : Z)
| IOption (c o : Z).

Definition item_ok (i : item) : Prop :=
  match i with
  | IData b => 0 <= b < 255 /\ ~ In b [0; 7; 8; 11; 12]
  | IEscape => True
  | INvt b => In b [0; 7; 8; 11; 12]
  | ICommand c => 240 <= c <= 250
  | IOption c o => 251 <= c <= 254 /\ 0 <= o <= 255
  end.

(** The bytes of an item. *)
Definition item_bytes (i : item) : list Z :=
  match i with
  | IData b | INvt b => [b]
  | IEscape => [255; 255]
  | ICommand c => [255; c]
  | IOption c o => [255; c; o]
  end.
Definition bytes_of (l : list item) : list Z := flat_map item_bytes l.

(** What the receiver must do with it. *)
Definition item_text (i : item) : list Z :=
  match i with IData b => [b] | IEscape => [255] | _ => [] end.
Definition text_of (l : list item) : list Z := flat_map item_text l.

Definition item_report (i : item) : list report :=
  match i with
  | INvt b => [RNvt b]
  | ICommand c => [RCommand c]
  | IOption c o => [ROption c o]
  | _ => []
  end.
Definition reports_of (l : list item) : list report := flat_map item_report l.

(** The ways a byte string can end in the middle of an item. *)
Definition unfinished (r : list Z) : Prop :=
  r = [255] \/ exists c, 251 <= c <= 254 /\ r = [255; c].

(** What a receiver sees of a whole stream: handler calls, and the text of all
    deliveries joined. *)
Definition seen (o : toutcome) : option (list report * list Z) :=
  match o with
  | TOk rs t => Some (rs, match t with Some s => s | None => [] end)
  | _ => None
  end.
Fixpoint seen_all (os : list toutcome) : option (list report * list Z) :=
  match os with
  | [] => Some ([], [])
  | o :: os' =>
      match seen o, seen_all os' with
      | Some (r1, t1), Some (r2, t2) => Some (r1 ++ r2, t1 ++ t2)
      | _, _ => None
      end
  end.
