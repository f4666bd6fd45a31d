(** What TFTP (RFC 1350) promises. *)
From Verif Require Import Base TftpModel.

(** [bs] is the block sequence of [file]: all but the last block are full, the
    last is not, and together they are the file. *)
Definition block_sequence (size : nat) (file : list Z) (bs : list (list Z)) : Prop :=
  List.concat bs = file /\
  exists init final, bs = init ++ [final] /\
    Forall (fun b => List.length b = size) init /\ (List.length final < size)%nat.

Definition is_prefix (a b : list Z) : Prop := exists c, b = a ++ c.

(** How often a request is delivered in a schedule. *)
Fixpoint requests (ops : list op) : nat :=
  match ops with
  | [] => 0
  | Deliver MRequest :: ops' => S (requests ops')
  | _ :: ops' => requests ops'
  end.

(** The undisturbed schedules: every datagram sent is delivered once, at once.
    One exchange of block [i]. *)
Definition exchange (i : Z) (d : list Z) : list op :=
  [SSend; Deliver (MData i d); RResume; RSend; Deliver (MAck i); SResume].
Fixpoint exchanges (i : Z) (ds : list (list Z)) : list op :=
  match ds with
  | [] => []
  | d :: ds' => exchange i d ++ exchanges (i + 1) ds'
  end.
Definition write_schedule (chunks : list (list Z)) : list op :=
  [SSend; Deliver MRequest; RStart; RSend; Deliver (MAck 0); SResume] ++ exchanges 1 chunks.
Definition read_schedule (chunks : list (list Z)) : list op :=
  [RSend; Deliver MRequest; SStart] ++ exchanges 1 chunks.
