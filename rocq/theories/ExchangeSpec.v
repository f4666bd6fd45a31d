(** Specification vocabulary for C82 and C83. *)
From Verif Require Import Base IfaceModel IfaceSpec ExchangeModel.
Open Scope string_scope.
Open Scope list_scope.

(** A message as a Python dictionary: no key twice. *)
Definition dict (d : msg) : Prop := NoDup (dkeys d).

Section Spec.
  Context {X : Type} (load_ok : msg -> bool) (more : string -> option (target X)).

  (** Every value a handler is registered for is acceptable to it, so that the
      handlers of the message run at all. *)
  Definition acceptable (k : string) (j : json) : bool :=
    if eq_dec k "env" then match j with JObj _ => true | _ => false end
    else if eq_dec k "config" then match j with JObj _ => true | _ => false end
    else match more k with
         | None => true
         | Some t => match t_prep t j with Some _ => true | None => false end
         end.
  Definition runs_handlers (d : msg) : bool := forallb (fun kj => acceptable (fst kj) (snd kj)) d.

  (** The environment, respectively configuration, a message brings. *)
  Definition env_in (d : msg) : option msg :=
    if runs_handlers d
    then match dget "env" d with Some (JObj e) => if load_ok e then Some e else None | _ => None end
    else None.
  Definition conf_entry (d : msg) : option json :=
    if runs_handlers d
    then match dget "config" d with Some (JObj o) => dget "config" o | _ => None end
    else None.
  (** JSON null is as good as no configuration. *)
  Definition conf_in (d : msg) : option json :=
    match conf_entry d with Some JNull => None | c => c end.

  (** The first one among messages. *)
  Fixpoint first_of {A} (f : msg -> option A) (l : list msg) : option A :=
    match l with
    | [] => None
    | d :: r => match f d with Some a => Some a | None => first_of f r end
    end.
End Spec.

(** The messages an interface received during a history. *)
Fixpoint received (ops : list op) : list msg :=
  match ops with
  | [] => []
  | ORecv d :: r => d :: received r
  | _ :: r => received r
  end.

Section Two.
  Context {S : Type} (eval : side -> string -> option (target S)).
  (** Everything side [w] put on the wire during a history. *)
  Fixpoint sent_by (w : side) (y : @sys S) (h : list sev) : list msg :=
    match h with
    | [] => []
    | e :: r =>
        (if side_eqb (match e with EvLog v _ | EvWait v _ _ | EvSend v _ _ | EvWake v _ | EvTimeout v _ | EvDeliver v => v end) w
         then emitted eval y e else []) ++ sent_by w (sys_step eval y e) r
    end.
  (** What has been delivered to side [w]. *)
  Fixpoint got (w : side) (y : @sys S) (h : list sev) : list msg :=
    match h with
    | [] => []
    | e :: r =>
        match e with
        | EvDeliver v => if side_eqb v w then firstn 1 (sy_in y w) else []
        | _ => []
        end ++ got w (sys_step eval y e) r
    end.
End Two.

Section Calls.
  Context {S : Type} (eval : side -> string -> option (target S)) (y0 : @sys S).
  Definition calls_of (h : list sev) (w : side) : list request := i_reqs (snd (sy_if (sys_run eval y0 h) w)).
  (** Call number [r] of side [w] sends [d]; [h0] is what happened before. *)
  Definition call_after (h0 h : list sev) (w : side) (r : nat) (d : msg) : Prop :=
    exists h1, h = h0 ++ EvWait w d false :: h1 /\
      List.length (calls_of h0 w) = r /\ List.length (calls_of (h0 ++ [EvWait w d false]) w) = Datatypes.S r.
  (** Call number [r] has returned [m]. *)
  Definition returns (h : list sev) (w : side) (r : nat) (m : msg) : Prop :=
    exists z, nth_error (calls_of h w) r = Some (mkReq z (Done m)).
End Calls.
