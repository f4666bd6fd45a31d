(** Model of channel scaling: runtimepy/primitives/scaling.py and the scaled
    accessors of primitives/base.py:168-192.

    Python floats are idealised as rationals (no rounding error, no overflow,
    no NaN); [round] is Python's round-half-to-even. *)
From Coq Require Import QArith Qround.
From Verif Require Import Base PrimModel.

(** [round(x)] of a float. *)
Definition py_round (q : Q) : Z :=
  let f := Qfloor q in
  let d := Qminus q (inject_Z f) in
  match Qcompare d (1 # 2) with
  | Lt => f
  | Gt => f + 1
  | Eq => if Z.even f then f else f + 1
  end.

(** scaling.py:12-34 [invert] up to the rounding: None is an AssertionError
    (more than two terms) or ZeroDivisionError. *)
Definition s_invert (value : Q) (scaling : list Q) : option Q :=
  match scaling with
  | [] => Some value
  | [offset] => Some (Qdiv (Qminus value offset) 1)
  | [offset; scale] =>
      if Qeq_bool scale 0 then None else Some (Qdiv (Qminus value offset) scale)
  | _ => None
  end.

(** scaling.py:44-48: the accumulation loop. *)
Fixpoint s_loop (scaling : list Q) (value result power : Q) : Q :=
  match scaling with
  | [] => result
  | c :: rest =>
      s_loop rest value (Qplus result (Qmult c power)) (Qmult power value)
  end.

(** scaling.py:37-51 [apply]. *)
Definition s_apply (value : Q) (scaling : list Q) : Q :=
  match scaling with
  | [] => value
  | _ => s_loop scaling value 0 1
  end.

(** base.py:182-192 [Primitive.invert] for integer kinds: round, then clamp to
    [int_bounds]. *)
Definition p_invert_int (k : kind) (scaling : list Q) (value : Q) : option Z :=
  match s_invert value scaling with
  | None => None
  | Some q =>
      let r := py_round q in
      Some (match k_bounds k with Some b => b_clamp b r | None => r end)
  end.

(** base.py:173-176 [scaled] setter: the raw value afterwards. *)
Definition p_set_scaled (k : kind) (scaling : list Q) (value : Q) : option Z :=
  match p_invert_int k scaling value with
  | Some v => Some (k_store k v)
  | None => None
  end.

(** base.py:168-171, 178-180 [scaled] getter. *)
Definition p_get_scaled (raw : Z) (scaling : list Q) : Q :=
  s_apply (inject_Z raw) scaling.
