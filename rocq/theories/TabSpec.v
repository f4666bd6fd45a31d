(** Specification vocabulary for C48, C63 and C64: what the interface's tabs observe. *)
From Verif Require Import Base PrimModel TabModel.

Definition owner_eqb (a b : nat * nat * Z) : bool :=
  Nat.eqb (fst (fst a)) (fst (fst b)) && Nat.eqb (snd (fst a)) (snd (fst b)) && (snd a =? snd b).

(** The number of callbacks registered on primitive [p] that report name [n] to tab
    [t] of connection [c]. *)
Definition held (w : world) (p : nat) (c t : nat) (n : Z) : nat :=
  List.length (filter (owner_eqb (c, t, n)) (map snd (tp_cbs (w_prims w p)))).

(** Where a history leaves tab [t] of connection [c]: whether the connection is open,
    whether the tab is shown, and how many showings were never paired with a hiding
    (a hiding or the closing of the connection ends one showing, if the tab is
    shown). *)
Record vis := mkVis { vs_open : bool; vs_shown : bool; vs_unpaired : nat }.

Definition vis_step (c t : nat) (v : vis) (e : tev) : vis :=
  if negb (vs_open v) then v
  else
    let ended := if vs_shown v then Nat.pred (vs_unpaired v) else vs_unpaired v in
    match e with
    | EShown c' t' => if Nat.eqb c' c && Nat.eqb t' t then mkVis true true (S (vs_unpaired v)) else v
    | EHidden c' t' => if Nat.eqb c' c && Nat.eqb t' t then mkVis true false ended else v
    | EClose c' => if Nat.eqb c' c then mkVis false false ended else v
    | _ => v
    end.

Definition vis_of (c t : nat) (h : list tev) : vis := fold_left (vis_step c t) h (mkVis true false 0).

(** The tab is never shown while it is shown. *)
Definition alternating (c t : nat) (h : list tev) : Prop :=
  forall h1 h2, h = h1 ++ EShown c t :: h2 -> vs_open (vis_of c t h1) = true -> vs_shown (vis_of c t h1) = false.

(** What a message tells about name [n]: values, oldest first. *)
Definition tells (n : Z) (m : tmsg) : list Z :=
  match m with
  | MValues d => match dget n d with Some v => [v] | None => [] end
  | MPoints d => match dget n d with Some l => map fst l | None => [] end
  end.

(** Everything tab [t] of connection [c] was told about [n]. *)
Definition told (c t : nat) (n : Z) (out : list (nat * nat * tmsg)) : list Z :=
  flat_map (fun m => if Nat.eqb (fst (fst m)) c && Nat.eqb (snd (fst m)) t then tells n (snd m) else []) out.

(** The value the tab displays for [n]: the last one it was told. *)
Definition displays (c t : nat) (n : Z) (out : list (nat * nat * tmsg)) (v : Z) : Prop :=
  exists before, told c t n out = before ++ [v].

(** The points (value and time) sent to a tab for [n]. *)
Definition points (c t : nat) (n : Z) (out : list (nat * nat * tmsg)) : list (Z * Z) :=
  flat_map (fun m =>
    if Nat.eqb (fst (fst m)) c && Nat.eqb (snd (fst m)) t then
      match snd m with
      | MPoints d => match dget n d with Some l => l | None => [] end
      | MValues _ => []
      end
    else []) out.

(** The changes that assignments to primitive [p] (of kind [k], with value [raw]
    before) make: what is stored, and when.  An assignment of the present value is
    not a change. *)
Fixpoint changes (k : kind) (raw : Z) (p : nat) (h : list tev) : list (Z * Z) :=
  match h with
  | [] => []
  | ESet q v ts :: h =>
      if Nat.eqb q p
      then (if raw =? v then [] else [(k_store k v, ts)]) ++ changes k (k_store k v) p h
      else changes k raw p h
  | _ :: h => changes k raw p h
  end.

(** Neither a frame, nor the closing, of connection [c], nor a showing or hiding of
    its tab [t]. *)
Definition quiet (c t : nat) (e : tev) : bool :=
  match e with
  | EShown c' t' | EHidden c' t' => negb (Nat.eqb c' c && Nat.eqb t' t)
  | EFrame c' | EClose c' => negb (Nat.eqb c' c)
  | _ => true
  end.

(** A tidy history: the tab is only shown when hidden, only hidden when shown, and
    between its last frame (or its showing) and its hiding nothing was assigned. *)
Inductive mood := Hid | Fresh | Stale | Gone | Untidy.

Definition mood_step (c t : nat) (m : mood) (e : tev) : mood :=
  match m with
  | Untidy => Untidy
  | Gone => Gone
  | _ =>
      match e with
      | EShown c' t' => if Nat.eqb c' c && Nat.eqb t' t then match m with Hid => Fresh | _ => Untidy end else m
      | EHidden c' t' => if Nat.eqb c' c && Nat.eqb t' t then match m with Fresh => Hid | _ => Untidy end else m
      | EFrame c' => if Nat.eqb c' c then match m with Stale => Fresh | _ => m end else m
      | EClose c' => if Nat.eqb c' c then Gone else m
      | ESet _ _ _ => match m with Fresh => Stale | _ => m end
      | EInit _ _ => m
      end
  end.

Definition mood_of (c t : nat) (h : list tev) : mood := fold_left (mood_step c t) h Hid.

(** Whether connection [c] is open after a history, and whether its tab [t] was
    initialized before it closed. *)
Definition log_step (c t : nat) (v : bool * bool) (e : tev) : bool * bool :=
  if negb (fst v) then v
  else
    match e with
    | EInit c' t' => if Nat.eqb c' c && Nat.eqb t' t then (true, true) else v
    | EClose c' => if Nat.eqb c' c then (false, false) else v
    | _ => v
    end.
Definition logging (c t : nat) (h : list tev) : bool := snd (fold_left (log_step c t) h (true, false)).
