(** vcorelib's [ByteFifo] (io/types: not in /repo, assumed): [ingest] appends,
    [pop n] returns the first [n] bytes when at least [n] are buffered and
    None, without changing the buffer, otherwise.  A fifo is its buffer. *)
From Verif Require Import Base.

Definition fifo_pop (n : Z) (buf : list Z) : option (list Z * list Z) :=
  if n <=? zlen buf
  then Some (firstn (Z.to_nat n) buf, skipn (Z.to_nat n) buf)
  else None.
