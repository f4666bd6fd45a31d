(** What is said of the text user interface. *)
From Verif Require Import Base PyStrModel TuiModel.

(** The text [s] is on the screen from line [r], column [c] on. *)
Definition shows (g : grid) (r c : nat) (s : str) : Prop :=
  forall k, (k < List.length s)%nat -> g_cell g r (c + k) = nth k s 0.
(** Between two columns there is nothing. *)
Definition empty_between (g : grid) (r from to_ : nat) : Prop :=
  forall c, (from <= c < to_)%nat -> g_cell g r c = 32.
(** The character a reader finds in column [k] when the texts were written one over the
    other in this order: that of the last text which was long enough. *)
Definition over (texts : list str) (k : nat) : Z :=
  fold_left (fun seen t => if Nat.ltb k (List.length t) then nth k t 0 else seen) texts 32.
(** The column of the values: two after the longest name. *)
Definition longest (names : list str) : nat := fold_right Nat.max 0%nat (map (@List.length Z) names).
Definition value_column (names : list str) : nat := (longest names + 2)%nat.
(** A terminal of [h] lines and [w] columns has room for these channels: ten lines are
    for the frames, the title and the header. *)
Definition room (h : nat) (names : list str) : Prop := (List.length names + 10 <= h)%nat.
(** Every text fits between the column of the values and the frame. *)
Definition fits (w : nat) (names : list str) (texts : list str) : Prop :=
  Forall (fun t => (value_column names + List.length t + 3 <= w)%nat) texts.
(** A cursor that is inside its window. *)
Definition inside (c : cursor) : Prop := 0 <= cu_y c < cu_h c /\ 0 <= cu_x c < cu_w c.
