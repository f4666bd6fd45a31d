(** Specification vocabulary for C22. *)
From Verif Require Import Base PrimModel.

(** A frame: the length of the message as a 32-bit big-endian number, then the
    message. *)
Definition frame (m : list Z) : list Z :=
  [zlen m / 16777216 mod 256; zlen m / 65536 mod 256; zlen m / 256 mod 256; zlen m mod 256]
  ++ m.

(** The byte stream of a list of messages. *)
Definition wire (ms : list (list Z)) : list Z := List.concat (map frame ms).

(** The messages completely contained in the first [n] bytes of a stream. *)
Fixpoint complete_in (n : Z) (ms : list (list Z)) : list (list Z) :=
  match ms with
  | [] => []
  | m :: ms' =>
      if 4 + zlen m <=? n then m :: complete_in (n - 4 - zlen m) ms' else []
  end.
