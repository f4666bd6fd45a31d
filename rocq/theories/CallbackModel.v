(** Model of primitive change callbacks, runtimepy/primitives/base.py:102-166.

    A callback is a tag (who it is) plus what it does when called: nothing
    visible, raise, remove some registration, or register another callback on
    the same primitive.  Assigning the same primitive from inside a callback is
    not modelled.  The log records the calls made. *)
From Verif Require Import Base PrimModel.

Inductive act :=
| APass
| ARaise
| ARemove (ident : Z)
| ARegister (tag : Z) (once : bool).

Record cbk := mkCbk { cb_tag : Z; cb_act : act }.

(** primitives/base.py:60-67; [v_ts] is [last_updated_ns]. *)
Record cprim := mkCprim {
  v_kind : kind;
  v_raw : Z;
  v_next : Z;                              (** [curr_callback] *)
  v_cbs : list (Z * (cbk * bool));         (** [callbacks] *)
  v_ts : Z
}.

(** One call: identifier under which the callback was registered, its tag,
    and the two arguments. *)
Record call := mkCall { c_id : Z; c_tag : Z; c_old : Z; c_new : Z }.

Definition v_init (k : kind) (v ts : Z) : cprim :=
  mkCprim k (k_store k v) 0 [] ts.

Definition with_cbs (p : cprim) (cbs : list (Z * (cbk * bool))) : cprim :=
  mkCprim (v_kind p) (v_raw p) (v_next p) cbs (v_ts p).

(** base.py:102-110 [register_callback]. *)
Definition v_register (p : cprim) (c : cbk) (once : bool) : cprim * Z :=
  (mkCprim (v_kind p) (v_raw p) (v_next p + 1)
     (dset (v_next p) (c, once) (v_cbs p)) (v_ts p),
   v_next p).

(** base.py:112-118 [remove_callback]. *)
Definition v_remove (p : cprim) (i : Z) : cprim * bool :=
  if dmem i (v_cbs p) then (with_cbs p (ddel i (v_cbs p)), true) else (p, false).

(** The effect of a callback body; false means it raised. *)
Definition v_act (p : cprim) (a : act) : cprim * bool :=
  match a with
  | APass => (p, true)
  | ARaise => (p, false)
  | ARemove i => (fst (v_remove p i), true)
  | ARegister t once => (fst (v_register p (mkCbk t APass) once), true)
  end.

(** base.py:147-150: iteration over [self.callbacks.items()].  CPython raises
    RuntimeError at the next iteration (including the one that would have ended
    the loop) when the dictionary's size changed.  Every modelled body either
    keeps the dictionary or changes its size. *)
Fixpoint v_dispatch (p : cprim) (size : nat) (todo : list (Z * (cbk * bool)))
    (curr new : Z) (rm : list Z) : cprim * list call * option (list Z) :=
  match todo with
  | [] => (p, [], Some rm)
  | (i, (c, once)) :: rest =>
      let '(p1, ok) := v_act p (cb_act c) in
      let this := mkCall i (cb_tag c) curr new in
      if negb ok then (p1, [this], None)
      else if negb (Nat.eqb (List.length (v_cbs p1)) size) then (p1, [this], None)
      else
        let '(p2, log, r) :=
          v_dispatch p1 size rest curr new (if once then rm ++ [i] else rm) in
        (p2, this :: log, r)
  end.

(** base.py:142-154 [_check_callbacks] (integer and boolean primitives);
    the boolean is false when an exception propagates. *)
Definition v_check (p : cprim) (curr new : Z) : cprim * list call * bool :=
  match v_cbs p with
  | [] => (p, [], true)
  | _ =>
      if curr =? new then (p, [], true)
      else
        match v_dispatch p (List.length (v_cbs p)) (v_cbs p) curr new [] with
        | (p1, log, Some rm) => (fold_left (fun q i => fst (v_remove q i)) rm p1, log, true)
        | (p1, log, None) => (p1, log, false)
        end
  end.

(** base.py:156-166 [set_value]. *)
Definition v_set (p : cprim) (value ts : Z) : cprim * list call * bool :=
  let curr := v_raw p in
  v_check (mkCprim (v_kind p) (k_store (v_kind p) value) (v_next p) (v_cbs p) ts) curr value.

(** Histories. *)
Inductive vop :=
| VRegister (c : cbk) (once : bool)
| VRemove (i : Z)
| VSet (value ts : Z).

(** What one operation shows: the calls made, the identifier handed out (if
    any), and whether it returned normally. *)
Record vout := mkVout { o_calls : list call; o_ident : option Z; o_ok : bool }.

Definition v_step (p : cprim) (o : vop) : cprim * vout :=
  match o with
  | VRegister c once =>
      let '(p', i) := v_register p c once in (p', mkVout [] (Some i) true)
  | VRemove i => (fst (v_remove p i), mkVout [] None true)
  | VSet v ts => let '(p', log, ok) := v_set p v ts in (p', mkVout log None ok)
  end.

Fixpoint v_run (p : cprim) (ops : list vop) : cprim * list vout :=
  match ops with
  | [] => (p, [])
  | o :: rest =>
      let '(p1, out) := v_step p o in
      let '(p2, outs) := v_run p1 rest in
      (p2, out :: outs)
  end.
