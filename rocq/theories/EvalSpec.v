(** Specification vocabulary for waiting and sampling: what happened to the
    primitive during a history, and what an observer may be told of it. *)
From Verif Require Import Base PrimModel TaskModel EvalModel.
Open Scope Z_scope.

(** The value after a history that began with [raw]. *)
Fixpoint stored (k : kind) (raw : Z) (ops : list wop) : Z :=
  match ops with
  | [] => raw
  | OSet v _ :: r => stored k (k_store k v) r
  | _ :: r => stored k raw r
  end.
Fixpoint stamped (ts : Z) (ops : list wop) : Z :=
  match ops with
  | [] => ts
  | OSet _ t :: r => stamped t r
  | _ :: r => stamped ts r
  end.

(** A change: the value before, the value assigned, and when. *)
Record change := mkChange { ch_old : Z; ch_new : Z; ch_ts : Z }.

(** The changes of a history: the assignments of a value other than the present one. *)
Fixpoint changes (k : kind) (raw : Z) (ops : list wop) : list change :=
  match ops with
  | [] => []
  | OSet v ts :: r =>
      (if raw =? v then [] else [mkChange raw v ts]) ++ changes k (k_store k v) r
  | _ :: r => changes k raw r
  end.

(** What a wait that saw these changes says at its end: what the last one amounts to. *)
Definition verdict (ev : Z -> Z -> evres) (l : list change) : evres :=
  match rev l with
  | [] => Timeout
  | c :: _ => ev (ch_old c) (ch_new c)
  end.
(** A change meets the condition. *)
Definition meets (ev : Z -> Z -> evres) (c : change) : Prop := ev (ch_old c) (ch_new c) = Success.

(** At most [count] samples, all of them when [count] is not positive. *)
Definition limit {A} (count : Z) (l : list A) : list A :=
  if 0 <? count then firstn (Z.to_nat count) l else l.

(** Assignments of values the primitive can hold. *)
Definition fits (k : kind) (o : wop) : Prop :=
  match o with OSet v _ => k_store k v = v | _ => True end.

(** What the observer with this number shows. *)
Definition returned (w : world) (n : nat) : option evres :=
  match nth_error (w_obs w) n with Some (BReturned r) => Some r | _ => None end.
Definition waits (w : world) (n : nat) : bool :=
  match nth_error (w_obs w) n with Some (BWait _ _ _ _ _) => true | _ => false end.
Definition delivered (w : world) (n : nat) : list (Z * Z) :=
  match nth_error (w_obs w) n with Some (BSampler s) => s_out s | _ => [] end.
Definition exhausted (w : world) (n : nat) : bool :=
  match nth_error (w_obs w) n with
  | Some (BSampler s) => match s_pc s with SEnd => true | _ => false end
  | _ => false
  end.
(** The consumer got a CancelledError in its loop body. *)
Definition interrupted (w : world) (n : nat) : bool :=
  match nth_error (w_obs w) n with
  | Some (BSampler s) => match s_pc s with SStray => true | _ => false end
  | _ => false
  end.
(** Callbacks registered with the primitive. *)
Definition callbacks (w : world) : list Z := map fst (w_cbs w).
(** An observer that needs a callback: a wait, or a sampler that was started and has
    neither had all its samples nor reached its deadline. *)
Definition observing (b : obs) : bool :=
  match b with
  | BWait _ _ _ _ _ => true
  | BReturned _ => false
  | BSampler s => match s_pc s with SGet | SBody | SStray => true | _ => false end
  end.
Definition is_other (o : wop) : bool := match o with OOther => true | _ => false end.

(** Comparison of rational numbers. *)
From Coq Require Import QArith.
Definition q_compare (o : oper) (a b : Q) : Prop :=
  match o with
  | LessThan => (a < b)%Q | LessOrEqual => (a <= b)%Q | Equal => (a == b)%Q
  | NotEqual => ~ (a == b)%Q | GreaterOrEqual => (b <= a)%Q | GreaterThan => (b < a)%Q
  end.
