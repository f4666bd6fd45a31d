(** Exponential back-off and the loops that use it to connect.

    Durations are exact rationals; the code uses floats (simplification: no
    rounding, no infinities). *)
From Coq Require Import QArith.
From Verif Require Import Base.
Open Scope list_scope.
Open Scope Z_scope.

(** net/backoff.py:12-26. *)
Record backoff := mkBackoff {
  bo_interval : Q; bo_max_sleep : Q; bo_max_tries : Z;
  bo_wait : Q; bo_attempt : Z
}.

(** net/backoff.py:28-32 [reset]. *)
Definition bo_reset (b : backoff) : backoff :=
  mkBackoff (bo_interval b) (bo_max_sleep b) (bo_max_tries b) 0%Q 0.

(** net/backoff.py:15-26 [__init__]. *)
Definition bo_new (interval max_sleep : Q) (max_tries : Z) : backoff :=
  bo_reset (mkBackoff interval max_sleep max_tries 0%Q 0).

(** net/backoff.py:17-19: the default parameters. *)
Definition bo_default : backoff := bo_new (1 # 10) 10 20.

(** net/backoff.py:34-39 [give_up]. *)
Definition bo_give_up (b : backoff) : bool := bo_attempt b >=? bo_max_tries b.

(** Python [min(a, b)]: the first unless the second is smaller. *)
Definition py_min (a b : Q) : Q := if Qle_bool a b then a else b.

(** net/backoff.py:41-46 [sleep]: how long it sleeps, and the new state.
    Python's [^] on integers is exclusive or. *)
Definition bo_sleep (b : backoff) : Q * backoff :=
  (bo_wait b,
   mkBackoff (bo_interval b) (bo_max_sleep b) (bo_max_tries b)
     (py_min (inject_Z (Z.lxor 2 (bo_attempt b)) * bo_interval b) (bo_max_sleep b))
     (bo_attempt b + 1)).

Inductive outcome := Connected | GaveUp | Pending.

(** tcp/create.py:56-74 and udp/create.py:59-78: one attempt after each sleep,
    until one succeeds or the back-off gives up (then the assertion raises).
    [tries] are the results of the successive connection attempts; [Pending]
    when the list runs out first.  Returns the times slept, one for each
    attempt made. *)
Fixpoint bo_connect (b : backoff) (tries : list bool) : list Q * outcome * backoff :=
  if bo_give_up b then ([], GaveUp, b)
  else
    match tries with
    | [] => ([], Pending, b)
    | ok :: tries' =>
        let '(t, b') := bo_sleep b in
        if ok then ([t], Connected, b')
        else let '(ts, o, b'') := bo_connect b' tries' in (t :: ts, o, b'')
    end.
