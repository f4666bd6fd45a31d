(** Model of runtimepy/primitives/evaluation.py: waiting until a primitive meets a
    condition and sampling its changes, with the callbacks of
    runtimepy/primitives/base.py:102-166 they rely on and the callers in
    primitives/int.py and primitives/bool.py.

    One integer or boolean primitive with any number of waits and samplers at the
    same time; the history decides who moves when.  Simplifications: other
    callbacks of the primitive do nothing (in particular do not raise) and stay;
    evaluators are functions of their two arguments and do not raise; a sampler is
    advanced by one consumer task, which may suspend inside its loop body. *)
From Coq Require Import QArith.
From Verif Require Import Base PrimModel ScalingModel TaskModel.
Open Scope Z_scope.

(** evaluation.py:41-52 [EvalResult]. *)
Inductive evres := NotSet | Timeout | Fail | Success.
Definition ev_bool (r : evres) : bool := match r with Success => true | _ => false end.

(** Where a sampler is.  [SNew]: an async generator whose body has not begun;
    [SGet]: suspended in [sample_queue.get()] (157); [SBody]: at the [yield] of
    line 157, the consumer runs its loop body; [SDrain]: at the [yield] of line
    163; [SEnd]: exhausted; [SStray]: the consumer was cancelled in its body. *)
Inductive spc := SNew | SGet | SBody | SDrain | SEnd | SStray.
Record sampler := mkSampler {
  s_count : Z; s_current : bool;                 (** arguments *)
  s_pc : spc;
  s_id : Z;                                      (** callback identifier *)
  s_queue : list (Z * Z);                        (** [sample_queue] *)
  s_keep : bool; s_samples : Z;
  s_timed : bool;                                (** the deadline has passed *)
  s_out : list (Z * Z)                           (** what the consumer was given *)
}.

(** A call of [evaluate] that waits, one that returned, or a sampler. *)
Inductive obs :=
| BWait (ev : Z -> Z -> evres) (id : Z) (flag timed : bool) (res : evres)
| BReturned (r : evres)
| BSampler (s : sampler).

(** primitives/base.py:60-67 and the observers; a callback is known by the
    observer it belongs to, None for one of somebody else. *)
Record world := mkWorld {
  w_kind : kind; w_raw : Z; w_ts : Z; w_next : Z;
  w_cbs : list (Z * option nat);
  w_obs : list obs
}.
Definition w_new (k : kind) (v ts : Z) : world := mkWorld k (k_store k v) ts 0 [] [].

Definition set_obs (k : nat) (b : obs) (w : world) : world :=
  mkWorld (w_kind w) (w_raw w) (w_ts w) (w_next w) (w_cbs w) (upd k b (w_obs w)).
Definition add_obs (b : obs) (w : world) : world :=
  mkWorld (w_kind w) (w_raw w) (w_ts w) (w_next w) (w_cbs w) (w_obs w ++ [b]).

(** base.py:102-110 [register_callback]. *)
Definition w_register (o : option nat) (w : world) : world * Z :=
  (mkWorld (w_kind w) (w_raw w) (w_ts w) (w_next w + 1)
     (dset (w_next w) o (w_cbs w)) (w_obs w), w_next w).
(** base.py:112-118 [remove_callback]. *)
Definition w_remove (i : Z) (w : world) : world :=
  mkWorld (w_kind w) (w_raw w) (w_ts w) (w_next w) (ddel i (w_cbs w)) (w_obs w).

(** evaluation.py:127-138 [poll_sample_event]. *)
Definition s_poll (s : sampler) : sampler :=
  let n := s_samples s + 1 in
  let result := (s_count s <=? n) && (0 <? s_count s) in
  mkSampler (s_count s) (s_current s) (s_pc s) (s_id s) (s_queue s)
    (if result then false else s_keep s) n (s_timed s) (s_out s).
Definition s_put (x : Z * Z) (s : sampler) : sampler :=
  mkSampler (s_count s) (s_current s) (s_pc s) (s_id s) (s_queue s ++ [x])
    (s_keep s) (s_samples s) (s_timed s) (s_out s).

(** What the callback of an observer does: evaluation.py:72-79 [change_callback],
    145-150 [sample]. *)
Definition b_notify (curr new ts : Z) (b : obs) : obs :=
  match b with
  | BWait ev id flag timed _ =>
      let r := ev curr new in BWait ev id (flag || ev_bool r) timed r
  | BSampler s => if s_keep s then BSampler (s_poll (s_put (new, ts) s)) else b
  | BReturned _ => b
  end.

Definition w_call (curr new : Z) (w : world) (e : Z * option nat) : world :=
  match snd e with
  | None => w
  | Some k =>
      match nth_error (w_obs w) k with
      | Some b => set_obs k (b_notify curr new (w_ts w) b) w
      | None => w
      end
  end.

(** base.py:142-154 [_check_callbacks], 156-166 [set_value]. *)
Definition w_set (v ts : Z) (w : world) : world :=
  let curr := w_raw w in
  let w1 := mkWorld (w_kind w) (k_store (w_kind w) v) ts (w_next w) (w_cbs w) (w_obs w) in
  if curr =? v then w1 else fold_left (w_call curr v) (w_cbs w) w1.

(** evaluation.py:58-82 [evaluate] up to the wait. *)
Definition w_evaluate (ev : Z -> Z -> evres) (w : world) : world :=
  if ev_bool (ev (w_raw w) (w_raw w)) then add_obs (BReturned Success) w
  else
    let '(w1, id) := w_register (Some (List.length (w_obs w))) w in
    add_obs (BWait ev id false false Timeout) w1.

Definition s_goto (pc : spc) (s : sampler) : sampler :=
  mkSampler (s_count s) (s_current s) pc (s_id s) (s_queue s) (s_keep s) (s_samples s)
    (s_timed s) (s_out s).
(** [sample_queue.get] with something in it, then [yield]. *)
Definition s_take (pc : spc) (s : sampler) : sampler :=
  match s_queue s with
  | x :: q => mkSampler (s_count s) (s_current s) pc (s_id s) q (s_keep s) (s_samples s)
                (s_timed s) (s_out s ++ [x])
  | [] => s
  end.
(** evaluation.py:161-163: drain the queue. *)
Definition s_drain (s : sampler) : sampler :=
  match s_queue s with [] => s_goto SEnd s | _ => s_take SDrain s end.

(** evaluation.py:156-157: the loop; true when it has been left. *)
Definition s_iterate (s : sampler) : sampler * bool :=
  if s_keep s then
    match s_queue s with [] => (s_goto SGet s, false) | _ => (s_take SBody s, false) end
  else (s, true).
(** The loop, and what follows it: leaving the contexts of lines 153 and 155
    removes the callback. *)
Definition w_loop (k : nat) (s : sampler) (w : world) : world :=
  let '(s1, over) := s_iterate s in
  if over then set_obs k (BSampler (s_drain s1)) (w_remove (s_id s1) w)
  else set_obs k (BSampler s1) w.

(** evaluation.py:123-155: the body of the generator up to the loop. *)
Definition w_begin (k : nat) (s : sampler) (w : world) : world :=
  let s0 := mkSampler (s_count s) (s_current s) (s_pc s) (s_id s) [] true 0 false (s_out s) in
  let s1 := if s_current s then s_poll (s_put (w_raw w, w_ts w) s0) else s0 in
  let '(w1, id) := w_register (Some k) w in
  w_loop k (mkSampler (s_count s1) (s_current s1) (s_pc s1) id (s_queue s1) (s_keep s1)
              (s_samples s1) (s_timed s1) (s_out s1)) w1.

Inductive wop :=
| OSet (v ts : Z)                                (** somebody assigns the value *)
| OOther                                         (** somebody registers a callback *)
| OEvaluate (ev : Z -> Z -> evres)               (** somebody calls [evaluate] *)
| OSample (count : Z) (current : bool)           (** somebody calls [sample_for] *)
| ODeadline (k : nat)                            (** the timeout of [k] passes *)
| OResume (k : nat)                              (** the event loop resumes [k] *)
| ONext (k : nat).                               (** the consumer asks for the next sample *)

(** A step; one that is not possible in the present state does nothing.

    [ODeadline]: [wait_for] and [timeout] cancel the task that entered them; for a
    sampler that is the consumer's task, wherever it is suspended.  [OResume] of a
    wait: the event is set or the deadline has passed (either way line 88 follows).
    [OResume] of a sampler in [get]: after the deadline the cancellation arrives
    (the queue keeps its items), before it something is in the queue. *)
Definition w_step (w : world) (o : wop) : world :=
  match o with
  | OSet v ts => w_set v ts w
  | OOther => fst (w_register None w)
  | OEvaluate ev => w_evaluate ev w
  | OSample count current =>
      add_obs (BSampler (mkSampler count current SNew 0 [] true 0 false [])) w
  | ODeadline k =>
      match nth_error (w_obs w) k with
      | Some (BWait ev id flag _ res) => set_obs k (BWait ev id flag true res) w
      | Some (BSampler s) =>
          match s_pc s with
          | SGet => set_obs k (BSampler (mkSampler (s_count s) (s_current s) SGet (s_id s) (s_queue s)
                                 (s_keep s) (s_samples s) true (s_out s))) w
          | SBody => set_obs k (BSampler (s_goto SStray s)) w
          | _ => w
          end
      | _ => w
      end
  | OResume k =>
      match nth_error (w_obs w) k with
      | Some (BWait _ id flag timed res) =>
          if flag || timed then set_obs k (BReturned res) (w_remove id w) else w
      | Some (BSampler s) =>
          match s_pc s with
          | SGet =>
              if s_timed s then set_obs k (BSampler (s_drain s)) (w_remove (s_id s) w)
              else match s_queue s with [] => w | _ => set_obs k (BSampler (s_take SBody s)) w end
          | _ => w
          end
      | _ => w
      end
  | ONext k =>
      match nth_error (w_obs w) k with
      | Some (BSampler s) =>
          match s_pc s with
          | SNew => w_begin k s w
          | SBody => w_loop k s w
          | SDrain => set_obs k (BSampler (s_drain s)) w
          | _ => w
          end
      | _ => w
      end
  end.

Definition w_run (w : world) (ops : list wop) : world := fold_left w_step ops w.

(** evaluation.py:18-38. *)
Inductive oper := LessThan | LessOrEqual | Equal | NotEqual | GreaterOrEqual | GreaterThan.
Definition op_map (o : oper) (a b : Z) : bool :=
  match o with
  | LessThan => a <? b | LessOrEqual => a <=? b | Equal => a =? b
  | NotEqual => negb (a =? b) | GreaterOrEqual => b <=? a | GreaterThan => b <? a
  end.

(** The evaluators of [compare_latest] (evaluation.py:103-109) and of
    [wait_for_state] (bool.py:36-40). *)
Definition ev_compare (o : oper) (lhs : Z) : Z -> Z -> evres :=
  fun _ new => if op_map o lhs new then Success else Fail.
Definition ev_state (state : Z) : Z -> Z -> evres :=
  fun _ new => if new =? state then Success else Fail.

(** int.py:43-61 [wait_for_value]: the evaluator, None when [invert] raises. *)
Definition ev_value (scaling : list Q) (value : Q) (o : oper) : option (Z -> Z -> evres) :=
  match s_invert value scaling with
  | Some q => Some (ev_compare o (py_round q))
  | None => None
  end.
