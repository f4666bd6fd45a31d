(** Specification vocabulary for C36-C39 and C54. *)
From Coq Require Import QArith Qround.
From Verif Require Import Base IfaceModel.
Open Scope string_scope.
Open Scope list_scope.
Open Scope Z_scope.

(** Two identifier sources drawn from in any order: [true] draws from the
    first. *)
Fixpoint draws (a b : ident) (l : list bool) : list Z :=
  match l with
  | [] => []
  | true :: r => let '(a', z) := id_next a in z :: draws a' b r
  | false :: r => let '(b', z) := id_next b in z :: draws a b' r
  end.

(** Python's equality of a JSON value and an integer: 1 == True == 1.0. *)
Definition equals_int (j : json) (z : Z) : Prop :=
  match j with
  | JInt i => i = z
  | JBool b => z = (if b then 1 else 0)
  | JFlo q => (q == inject_Z z)%Q
  | _ => False
  end.
(** A message carries identifier [z]. *)
Definition carries (d : msg) (z : Z) : Prop := exists j, dget k_id d = Some j /\ equals_int j z.

(** [m] is what remains of the received message [d]: everything outside the
    reserved keys, and no identifier. *)
Definition content_of (m d : msg) : Prop :=
  dget k_id m = None /\ forall k, k <> k_id -> k <> k_log -> dget k m = dget k d.

(** A finished call that returned a message. *)
Definition completed (q : request) : bool := match rq_st q with Done _ => true | _ => false end.
Definition pending (q : request) : bool := match rq_st q with Waiting | Ready => true | _ => false end.

Section Spec.
  Context {S : Type} (evaluate : string -> option (target S)).

  (** Interfaces a user can have. *)
  Definition i_reachable (i : ident) (st : iface) : Prop :=
    exists s s' ops, run evaluate (s, i_new i) ops = (s', st).

  (** Everything sent by a history. *)
  Fixpoint sent (x : S * iface) (ops : list op) : list msg :=
    match ops with
    | [] => []
    | o :: r => snd (fst (step evaluate x o)) ++ sent (step_st evaluate x o) r
    end.
End Spec.

(** ** Two peers connected by reliable, ordered channels *)
Inductive side := SA | SB.
Definition other (w : side) : side := match w with SA => SB | SB => SA end.
Definition side_eqb (a b : side) : bool :=
  match a, b with SA, SA | SB, SB => true | _, _ => false end.
Definition fupd {A} (f : side -> A) (w : side) (a : A) : side -> A :=
  fun v => if side_eqb v w then a else f v.

(** What can happen: either side stages a log entry, makes a request, sends a
    message it expects no answer to, resumes or
    times out a request, or processes the oldest message sent to it. *)
Inductive sev :=
| EvLog (w : side) (x : json)
| EvWait (w : side) (d : msg) (fail : bool)
| EvSend (w : side) (d : msg) (fail : bool)
| EvWake (w : side) (r : nat)
| EvTimeout (w : side) (r : nat)
| EvDeliver (w : side).

Section Sys.
  Context {S : Type} (eval : side -> string -> option (target S)).

  Record sys := mkSys { sy_if : side -> S * iface; sy_in : side -> list msg }.
  (** The first side draws 1, 3, 5, ..., the second 2, 4, 6, ... *)
  Definition sys_new (s : side -> S) : sys :=
    mkSys (fun w => (s w, i_new (match w with SA => id_new | SB => id_offset id_new end))) (fun _ => []).

  Definition local (y : sys) (w : side) (o : op) : sys :=
    let '(x, out, _) := step (eval w) (sy_if y w) o in
    mkSys (fupd (sy_if y) w x) (fupd (sy_in y) (other w) (sy_in y (other w) ++ out)).
  Definition sys_step (y : sys) (e : sev) : sys :=
    match e with
    | EvLog w x => local y w (OLog x)
    | EvWait w d fail => local y w (OWait d fail)
    | EvSend w d fail => local y w (OSend d fail)
    | EvWake w r => local y w (OWake r)
    | EvTimeout w r => local y w (OTimeout r)
    | EvDeliver w =>
        match sy_in y w with
        | [] => y
        | m :: rest => local (mkSys (sy_if y) (fupd (sy_in y) w rest)) w (ORecv m)
        end
    end.
  Definition sys_run (y : sys) (h : list sev) : sys := fold_left sys_step h y.

  (** Messages processed in a history. *)
  Fixpoint deliveries (y : sys) (h : list sev) : nat :=
    match h with
    | [] => O
    | e :: r =>
        (match e with
         | EvDeliver w => match sy_in y w with [] => O | _ => 1%nat end
         | _ => O
         end + deliveries (sys_step y e) r)%nat
    end.
  (** Requests made in a history. *)
  Definition is_wait (e : sev) : bool := match e with EvWait _ _ _ => true | _ => false end.
  Definition waits (h : list sev) : nat := List.length (filter is_wait h).
  (** What an event sends. *)
  Definition emitted (y : sys) (e : sev) : list msg :=
    match e with
    | EvLog w x => snd (fst (step (eval w) (sy_if y w) (OLog x)))
    | EvWait w d fail => snd (fst (step (eval w) (sy_if y w) (OWait d fail)))
    | EvSend w d fail => snd (fst (step (eval w) (sy_if y w) (OSend d fail)))
    | EvWake w r => []
    | EvTimeout w r => []
    | EvDeliver w =>
        match sy_in y w with
        | [] => []
        | m :: _ => snd (fst (step (eval w) (sy_if y w) (ORecv m)))
        end
    end.

  (** [req] is the request with identifier [z] side [w] sent during [h]. *)
  Definition asked (y0 : sys) (h : list sev) (w : side) (z : Z) (req : msg) : Prop :=
    exists h0 d h1, h = h0 ++ EvWait w d false :: h1 /\ emitted (sys_run y0 h0) (EvWait w d false) = [req] /\ dget k_id req = Some (JInt z) /\ (forall k, k <> k_id -> k <> k_log -> dget k req = dget k d).
  (** [rsp] is what the other side sent when it processed that request. *)
  Definition replied (y0 : sys) (h : list sev) (w : side) (z : Z) (rsp : msg) : Prop :=
    exists h1 req h2, h = h1 ++ EvDeliver (other w) :: h2 /\ hd_error (sy_in (sys_run y0 h1) (other w)) = Some req /\ emitted (sys_run y0 h1) (EvDeliver (other w)) = [rsp] /\ asked y0 h1 w z req.
  (** [m] is the content of that reply, delivered to [w]. *)
  Definition returned (y0 : sys) (h : list sev) (w : side) (z : Z) (m : msg) : Prop :=
    exists h2 rsp h3, h = h2 ++ EvDeliver w :: h3 /\ hd_error (sy_in (sys_run y0 h2) w) = Some rsp /\ content_of m rsp /\ replied y0 h2 w z rsp.

  Definition in_flight (y : sys) : nat := (List.length (sy_in y SA) + List.length (sy_in y SB))%nat.
End Sys.

(** No message is sent outside of requests and answers. *)
Definition no_sends (h : list sev) : Prop := forall w d fail, ~ In (EvSend w d fail) h.

(** ** How much a message without an identifier can cause (standard handlers)

    A poll asks for as many echoes as its loopback count. *)
Definition poll_count (j : json) : nat :=
  match j with
  | JObj o =>
      match dget "loopback" o with
      | Some (JInt v) => Z.to_nat v
      | Some (JBool true) => 1
      | Some (JFlo q) => Z.to_nat (Qceiling q)
      | _ => 0
      end
  | _ => 0
  end.
Fixpoint polls (d : msg) : nat :=
  match d with
  | [] => 0
  | (k, j) :: r => Nat.max (if eq_dec k "poll" then poll_count j else 0) (polls r)
  end.
(** Keys no handler is registered for. *)
Definition known (k : string) : bool :=
  reserved k || (if eq_dec k "loopback" then true else false) ||
  (if eq_dec k "meta" then true else false) || (if eq_dec k "poll" then true else false).
Definition unknown (d : msg) : nat := if forallb (fun kj => known (fst kj)) d then 0 else 1.
Definition cost (d : msg) : nat := (1 + polls d + unknown d)%nat.

(** Sends that carry neither an identifier nor a loopback command. *)
Definition plain (d : msg) : Prop := dget k_id d = None /\ dget "loopback" d = None.
Definition plain_sends (h : list sev) : Prop := forall w d fail, In (EvSend w d fail) h -> plain d.
Fixpoint send_cost (h : list sev) : nat :=
  match h with
  | [] => 0
  | EvSend _ d _ :: r => (cost d + send_cost r)%nat
  | _ :: r => send_cost r
  end.

(** The log entries a message carries. *)
Definition logs_in (m : msg) : list json := match dget k_log m with Some (JArr l) => l | _ => [] end.
Fixpoint staged (ops : list op) : list json :=
  match ops with
  | [] => []
  | OLog x :: r => x :: staged r
  | _ :: r => staged r
  end.
(** Histories in which every write succeeds and callers leave the reserved log
    key alone. *)
Definition clean (ops : list op) : Prop :=
  forall d fail, In (OSend d fail) ops \/ In (OWait d fail) ops -> fail = false /\ dget k_log d = None.

(** ** What a peer answers (C55) *)
Definition handled {S} (ev : string -> option (target S)) (k : string) : bool :=
  match ev k with Some _ => true | None => reserved k end.
(** The message is not the response to one of our own requests. *)
Definition not_a_response (st : iface) (d : msg) : Prop := forall z, carries d z -> dget z (i_waiting st) = None.
Definition sorted_strings (l : list string) : Prop :=
  forall l1 a b l2, l = l1 ++ a :: b :: l2 -> String.leb a b = true.
