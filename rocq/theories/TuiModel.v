(** Model of the text user interface for channels: runtimepy/tui/{cursor,mixin}.py and
    tui/channels/__init__.py.

    Simplifications: of the three windows only the body, where the channels are, and of
    the curses library what its documentation says of [addstr]: it starts at a
    position inside the window or raises, goes on at the beginning of the next line
    when a line is full, and raises after the last character when the end of the window
    is reached.  [subwin] raises when there is no line or no column for the body.  The
    title is assumed to fit.  How a float is written is a function [ftext]. *)
From Verif Require Import Base PyStrModel.

(** ** tui/cursor.py: the position and the size are [Uint32]s. *)
Definition u32 (v : Z) : Z := v mod 2 ^ 32.
Record cursor := mkCursor { cu_y : Z; cu_x : Z; cu_h : Z; cu_w : Z }.
(** lines 29-43 [move]; the window's own [move] does not raise for what passes the
    test of line 37 (mock.py:33-39). *)
Definition cu_move (ny nx : option Z) (c : cursor) : cursor * bool :=
  let y := match ny with Some v => v | None => cu_y c end in
  let x := match nx with Some v => v | None => cu_x c end in
  if (y <? cu_h c) && (x <? cu_w c) then (mkCursor (u32 y) (u32 x) (cu_h c) (cu_w c), true) else (c, false).
(** lines 45-58 [poll_max], for a window of [h] lines and [w] columns. *)
Definition cu_poll (h w : Z) (c : cursor) : cursor * bool :=
  (mkCursor (cu_y c) (cu_x c) (u32 h) (u32 w), negb (cu_w c =? u32 w) || negb (cu_h c =? u32 h)).
(** lines 70-76 [reset]; None is the AssertionError. *)
Definition cu_reset (h w : Z) (c : cursor) : option cursor :=
  let c1 := fst (cu_poll h w (mkCursor 0 0 (cu_h c) (cu_w c))) in
  let '(c2, ok) := cu_move None None c1 in
  if ok then Some c2 else None.
(** lines 78-85 [inc_x], [inc_y]. *)
Definition cu_inc_x (n : Z) (c : cursor) : cursor * bool := cu_move None (Some (cu_x c + n)) c.
Definition cu_inc_y (n : Z) (c : cursor) : cursor * bool := cu_move (Some (cu_y c + n)) None c.

(** ** A window: [g_cell r c] is the character in line [r], column [c]. *)
Record grid := mkGrid { g_rows : nat; g_cols : nat; g_cell : nat -> nat -> Z }.
Definition border : Z := -1.
(** [clear] and [box]. *)
Definition fresh (rows cols : nat) : grid :=
  mkGrid rows cols (fun r c =>
    if (Nat.eqb r 0 || Nat.eqb r (rows - 1) || Nat.eqb c 0 || Nat.eqb c (cols - 1))%bool then border else 32).
(** [addstr(y, x, s)]; the flag says whether it raised. *)
Definition addstr (y x : nat) (s : str) (g : grid) : grid * bool :=
  if (Nat.leb (g_rows g) y || Nat.leb (g_cols g) x)%bool then (g, true)
  else
    let at_ r c := ((r - y) * g_cols g + c - x)%nat in
    (mkGrid (g_rows g) (g_cols g) (fun r c =>
       if (Nat.leb y r && Nat.ltb c (g_cols g) && Nat.leb x ((r - y) * g_cols g + c) && Nat.ltb (at_ r c) (List.length s))%bool
       then nth (at_ r c) s 0 else g_cell g r c),
     (negb (Nat.eqb (List.length s) 0) && Nat.leb ((g_rows g - y) * g_cols g) (x + List.length s))%bool).

Section Tui.
(** What the values of channels are (channel/environment/base.py:153-172): integers
    (and booleans), floats, the names of members of enumerations. *)
Context {F : Type} (ftext : F -> str).
Inductive value := VInt (z : Z) | VFloat (f : F) | VName (s : string).

(** channels/__init__.py:133-137: [f"{val:<5d}"] is at least five characters wide. *)
Definition val_str (v : value) : str :=
  match v with
  | VInt z => dec z ++ repeat 32 (5 - List.length (dec z))
  | VFloat f => ftext f
  | VName _ => []
  end.

(** [tu_window]: the window was set (mixin.py:37); [tu_body] is [None] until
    [update_dimensions] made one. *)
Record tui := mkTui {
  tu_window : bool; tu_body : option grid; tu_names : list str; tu_col : nat
}.
Definition tui_new : tui := mkTui false None [] 0.

(** 76-103 [update_dimensions] for a window of [h] lines and [w] columns: the body has
    [h - 8] lines and [w - 2] columns. *)
Definition update_dimensions (h w : nat) (t : tui) : tui * bool :=
  if (Nat.ltb 8 h && Nat.ltb 2 w)%bool
  then (mkTui (tu_window t) (Some (fresh (h - 8) (w - 2))) (tu_names t) (tu_col t), false)
  else (t, true).

(** 69-71. *)
Fixpoint draw_names (i : nat) (names : list str) (g : grid) (col : nat) : grid * nat * bool :=
  match names with
  | [] => (g, col, false)
  | n :: ns =>
      let '(g1, raised) := addstr (1 + i) 1 n g in
      if raised then (g1, col, true) else draw_names (S i) ns g1 (Nat.max col (List.length n))
  end.

(** 53-74 [init] with mixin.py:30-52: the outcome is the value returned or an
    exception.  [names] are the sorted names of the environment, the two of the window
    among them. *)
Inductive outcome := Returned (b : bool) | Raised.
Definition init (h w : nat) (names : list str) (t : tui) : tui * outcome :=
  if tu_window t then (t, Returned false)
  else
    let '(t1, raised) := update_dimensions h w (mkTui true (tu_body t) (tu_names t) (tu_col t)) in
    if raised then (t1, Raised)
    else match tu_body t1 with
    | None => (t1, Raised)
    | Some g =>
        let '(g1, col, raised) := draw_names 0 names g (tu_col t1) in
        if raised then (mkTui true (Some g1) names col, Raised)
        else (mkTui true (Some g1) names (col + 2)%nat, Returned true)
    end.

(** 125-141 [update_body]. *)
Fixpoint draw_values (i : nat) (vals : list value) (col : nat) (g : grid) : grid * bool :=
  match vals with
  | [] => (g, false)
  | v :: vs =>
      let '(g1, raised) := addstr (1 + i) col (val_str v) g in
      if raised then (g1, true) else draw_values (S i) vs col g1
  end.
(** 143-153 [dispatch]; [env] gives the values. *)
Definition dispatch (env : str -> value) (t : tui) : tui * outcome :=
  match tu_body t with
  | None => (t, Raised)
  | Some g =>
      let '(g1, raised) := draw_values 0 (map env (tu_names t)) (tu_col t) g in
      (mkTui (tu_window t) (Some g1) (tu_names t) (tu_col t), if raised then Raised else Returned true)
  end.

(** The interface is set up, told that the terminal has a new size (mixin.py:79-81), or
    draws. *)
Inductive op := OInit (h w : nat) (names : list str) | OResize (h w : nat) | ODispatch (env : str -> value).
Definition step (t : tui) (o : op) : tui * outcome :=
  match o with
  | OInit h w names => init h w names t
  | OResize h w => let '(t1, raised) := update_dimensions h w t in (t1, if raised then Raised else Returned true)
  | ODispatch env => dispatch env t
  end.
Definition run (ops : list op) (t : tui) : tui := fold_left (fun t o => fst (step t o)) ops t.
End Tui.
Arguments value : clear implicits.
Arguments op : clear implicits.
