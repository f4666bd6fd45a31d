(** What is said of hosts and of the discovered sizes. *)
From Verif Require Import Base HostModel.
Open Scope list_scope.

(** Two calls have the same arguments. *)
Definition key_dec (a b : key) : {a = b} + {a <> b}.
Proof. repeat decide equality. Defined.
(** The tuple of a host made from some values: fields that are not given are zero. *)
Definition padded (vals : list pv) (f : family) : list pv :=
  vals ++ repeat (PInt 0) (match f with F4 => 2 | F6 => 4 end - List.length vals)%nat.
(** A call that got as far as a result. *)
Definition measured (k : key) (f : fate) : option Z :=
  match f with
  | Probed y _ =>
      match y_probe y with
      | Raises => None
      | _ => Some (match y_mtu y with Some m => if m =? 0 then q_fallback k else m | None => q_fallback k end)
      end
  | _ => None
  end.
(** The first result among calls with these arguments. *)
Fixpoint first_result (k : key) (h : list (key * fate)) : option Z :=
  match h with
  | [] => None
  | (k', f) :: h =>
      if key_dec k' k then match measured k' f with Some v => Some v | None => first_result k h end
      else first_result k h
  end.
(** Sockets that a call leaves open. *)
Definition leaves_open (k : key) (f : fate) : bool :=
  match f with NoSocket => false | NotBound | NotConnected => true | Probed y _ => match y_probe y with Raises => true | _ => false end end.
