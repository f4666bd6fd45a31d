(** Model of runtimepy/primitives/field/__init__.py and field/fields.py: bit
    fields and the registers that allocate them.

    Python integers are [Z]; [&], [|], [~], [<<], [>>] are [Z.land], [Z.lor],
    [Z.lnot], [Z.shiftl], [Z.shiftr] (two's complement of unbounded width). *)
From Coq Require Import Ascii.
From Verif Require Import Base PrimModel.

(** field/__init__.py:37-40: [mask] and [shifted_mask]. *)
Definition bf_mask (width : Z) : Z := 2 ^ width - 1.
Definition bf_shifted (index width : Z) : Z := Z.shiftl (bf_mask width) index.

(** field/__init__.py:58-78 [__call__] with a value: the new raw value and the
    returned one.  Assigning the raw primitive wraps ([k_store]). *)
Definition bf_write (k : kind) (raw index width val : Z) : Z * Z :=
  let result := Z.land val (bf_mask width) in
  (k_store k (Z.lor (Z.land raw (Z.lnot (bf_shifted index width))) (Z.shiftl result index)),
   result).

(** field/__init__.py:73-78 [__call__] without one. *)
Definition bf_read (raw index width : Z) : Z :=
  Z.shiftr (Z.land raw (bf_shifted index width)) index.

(** field/__init__.py:80-82 [invert]. *)
Definition bf_invert (k : kind) (raw index width : Z) : Z * Z :=
  bf_write k raw index width (Z.lnot (bf_read raw index width)).

(** field/__init__.py:42-56 [where_str]: one mark per bit, low bit first. *)
Definition bf_where (k : kind) (index width : Z) : list bool :=
  map (fun i => negb (Z.land (Z.shiftl 1 (Z.of_nat i)) (bf_shifted index width) =? 0))
      (seq 0 (8 * k_size k)).

(** mixins/regex.py:15: CHANNEL_PATTERN "[a-zA-Z0-9_.-]+". *)
Definition in_range (lo hi : nat) (c : Ascii.ascii) : bool :=
  let n := Ascii.nat_of_ascii c in Nat.leb lo n && Nat.leb n hi.
Definition lower_name_char (c : Ascii.ascii) : bool :=
  in_range 97 122 c || in_range 48 57 c || existsb (Ascii.eqb c) ["_"; "."; "-"]%char.
Definition name_char (c : Ascii.ascii) : bool := lower_name_char c || in_range 65 90 c.
Fixpoint all_chars (f : Ascii.ascii -> bool) (s : string) : bool :=
  match s with EmptyString => true | String c r => f c && all_chars f r end.
Definition nonempty (s : string) : bool := match s with EmptyString => false | _ => true end.
Definition valid_name (s : string) : bool := nonempty s && all_chars name_char s.

(** field/__init__.py:85-119 [BitField] (a [BitFlag] has width 1,
    field/__init__.py:137-160).  The enum is a name or an identifier. *)
Record field := mkField {
  fl_name : string; fl_index : Z; fl_width : Z;
  fl_enum : option (string + Z); fl_cmd : bool; fl_desc : option string
}.

(** field/__init__.py:22-40, 102-119: does the constructor return?  A negative
    width makes the mask a float and a negative index an invalid shift. *)
Definition base_ok (index width : Z) : bool := (0 <=? index) && (0 <=? width).
Definition field_ok (k : kind) (name : string) (index width : Z) : bool :=
  base_ok index width && k_is_int k && (index <? k_bits k) && (width <=? k_bits k)
  && valid_name name.

(** fields.py:46: an entry is a field or a padding tuple (width, val). *)
Inductive item := IField (f : field) | IPad (width val : Z).

(** fields.py:35-49.  [bits_available] as a list. *)
Record regs := mkRegs {
  r_kind : kind; r_raw : Z; r_curr : Z; r_avail : list Z;
  r_fields : list (string * field); r_byidx : list (Z * item); r_final : bool
}.

Definition zseq (start : Z) (n : nat) : list Z := map (fun i => start + Z.of_nat i) (seq 0 n).
Definition zmem (x : Z) (l : list Z) : bool := existsb (Z.eqb x) l.

(** fields.py:35-49 and 227-233 [init] / [new]. *)
Definition r_new (k : kind) : regs :=
  mkRegs k 0 0 (zseq 0 (Z.to_nat (k_bits k))) [] [] false.

(** fields.py:159-181 [_claim_bits]: None is AssertionError. *)
Definition r_claim (s : regs) (width : Z) (index : option Z) : option (regs * Z) :=
  if r_final s then None
  else
    let index := match index with Some i => i | None => r_curr s end in
    let bits := zseq index (Z.to_nat width) in
    if forallb (fun b => zmem b (r_avail s)) bits then
      Some (mkRegs (r_kind s) (r_raw s)
              (if r_curr s <=? index then index + width else r_curr s)
              (filter (fun b => negb (zmem b bits)) (r_avail s))
              (r_fields s) (r_byidx s) (r_final s), index)
    else None.

Definition with_maps (s : regs) (fs : list (string * field)) (bi : list (Z * item)) : regs :=
  mkRegs (r_kind s) (r_raw s) (r_curr s) (r_avail s) fs bi (r_final s).
Definition with_raw (s : regs) (raw : Z) : regs :=
  mkRegs (r_kind s) raw (r_curr s) (r_avail s) (r_fields s) (r_byidx s) (r_final s).

(** The state after a call, and the returned index (None when it raised).  A
    call that raises after claiming keeps the claim. *)
(** fields.py:139-157 [flag]. *)
Definition r_flag (s : regs) (name : string) (index : option Z)
  (enum : option (string + Z)) (cmd : bool) (desc : option string) : regs * option Z :=
  match r_claim s 1 index with
  | None => (s, None)
  | Some (s, i) =>
      if field_ok (r_kind s) name i 1 then
        let f := mkField name i 1 enum cmd desc in
        (with_maps s (dset name f (r_fields s)) (dset i (IField f) (r_byidx s)), Some i)
      else (s, None)
  end.

(** fields.py:194-225 [claim_field], [field]. *)
Definition r_field (s : regs) (name : string) (width : Z) (index : option Z)
  (enum : option (string + Z)) (cmd : bool) (desc : option string) : regs * option Z :=
  if width =? 1 then (s, None)
  else
    match r_claim s width index with
    | None => (s, None)
    | Some (s, i) =>
        if field_ok (r_kind s) name i width then
          if dmem name (r_fields s) then (s, None)
          else
            let f := mkField name i width enum cmd desc in
            (with_maps s (dset name f (r_fields s)) (dset i (IField f) (r_byidx s)), Some i)
        else (s, None)
    end.

(** fields.py:183-192 [pad]. *)
Definition r_pad (s : regs) (width : Z) (index : option Z) (val : Z) : regs * option Z :=
  match r_claim s width index with
  | None => (s, None)
  | Some (s, i) =>
      if base_ok i width then
        let raw := fst (bf_write (r_kind s) (r_raw s) i width val) in
        (with_maps (with_raw s raw) (r_fields s) (dset i (IPad width val) (r_byidx s)), Some i)
      else (s, None)
  end.

(** fields.py:97-99. *)
Definition r_finalize (s : regs) : regs :=
  mkRegs (r_kind s) (r_raw s) (r_curr s) (r_avail s) (r_fields s) (r_byidx s) true.

(** Writing through a stored field. *)
Definition r_write (s : regs) (f : field) (v : Z) : regs :=
  with_raw s (fst (bf_write (r_kind s) (r_raw s) (fl_index f) (fl_width f) v)).

(** ** Export and import *)
(** One exported dictionary (field/__init__.py:121-134, fields.py:107-113). *)
Record jitem := mkJ {
  j_name : option string; j_index : option Z; j_width : Z; j_value : Z;
  j_cmd : bool; j_enum : option (string + Z); j_desc : option string
}.
Record jregs := mkJR { jr_kind : kind; jr_items : list jitem; jr_final : bool }.

(** fields.py:101-119 [asdict]. *)
Definition item_dict (raw : Z) (e : Z * item) : jitem :=
  match snd e with
  | IPad w v => mkJ None (Some (fst e)) w v false None None
  | IField f => mkJ (Some (fl_name f)) (Some (fl_index f)) (fl_width f)
                  (bf_read raw (fl_index f) (fl_width f)) (fl_cmd f) (fl_enum f) None
  end.
Definition r_asdict (s : regs) : jregs :=
  mkJR (r_kind s) (map (item_dict (r_raw s)) (r_byidx s)) (r_final s).

(** data/schemas/BitFields.yaml: what the schema check accepts.  [word] is the
    regular-expression class \w on the enum name. *)
Section Import.
  Context (word : string -> bool).

  Definition schema_item (j : jitem) : bool :=
    match j_name j with
    | Some n => nonempty n && all_chars lower_name_char n | None => true end
    && match j_index j with Some i => 0 <=? i | None => true end
    && (1 <=? j_width j) && (0 <=? j_value j)
    && match j_enum j with
       | Some (inl n) => word n | Some (inr i) => 1 <=? i | None => true end.
  Definition schema_kind (k : kind) : bool :=
    match k with U8 | U16 | U32 | U64 => true | _ => false end.
  Definition schema_ok (d : jregs) : bool :=
    schema_kind (jr_kind d) && forallb schema_item (jr_items d).

  (** fields.py:52-88: one loop iteration; None when it raises. *)
  Definition load_item (s : regs) (j : jitem) : option regs :=
    match j_name j with
    | None | Some EmptyString =>
        if j_value j =? 0 then
          match j_enum j with
          | Some _ => None
          | None =>
              match r_pad s (j_width j) (j_index j) 0 with
              | (s, Some _) => Some s | (_, None) => None end
          end
        else None
    | Some name =>
        let '(s, r) :=
          if j_width j =? 1
          then r_flag s name (j_index j) (j_enum j) (j_cmd j) (j_desc j)
          else r_field s name (j_width j) (j_index j) (j_enum j) (j_cmd j) (j_desc j) in
        match r, dget name (r_fields s) with
        | Some _, Some f => Some (r_write s f (j_value j))
        | _, _ => None
        end
    end.
  Fixpoint load_items (s : regs) (l : list jitem) : option regs :=
    match l with
    | [] => Some s
    | j :: r => match load_item s j with Some s => load_items s r | None => None end
    end.

  (** fields.py:35-90 [init] behind the schema check. *)
  Definition r_import (d : jregs) : option regs :=
    if schema_ok d then
      match load_items (r_new (jr_kind d)) (jr_items d) with
      | Some s => Some (mkRegs (r_kind s) (r_raw s) (r_curr s) (r_avail s)
                          (r_fields s) (r_byidx s) (jr_final d))
      | None => None
      end
    else None.
End Import.

(** ** Histories of one register *)
Inductive rop :=
| OFlag (name : string) (index : option Z) (enum : option (string + Z)) (cmd : bool)
        (desc : option string)
| OField (name : string) (width : Z) (index : option Z) (enum : option (string + Z))
         (cmd : bool) (desc : option string)
| OPad (width : Z) (index : option Z) (val : Z)
| OWrite (name : string) (v : Z)     (** self[name](v) *)
| ORaw (v : Z)                       (** raw.value = v *)
| OFinalize.

Definition r_step (s : regs) (o : rop) : regs * option (Z * Z) :=
  match o with
  | OFlag n i e c d =>
      let '(s', r) := r_flag s n i e c d in (s', option_map (fun i => (i, 1)) r)
  | OField n w i e c d =>
      let '(s', r) := r_field s n w i e c d in (s', option_map (fun i => (i, w)) r)
  | OPad w i v =>
      let '(s', r) := r_pad s w i v in (s', option_map (fun i => (i, w)) r)
  | OWrite n v =>
      (match dget n (r_fields s) with Some f => r_write s f v | None => s end, None)
  | ORaw v => (with_raw s (k_store (r_kind s) v), None)
  | OFinalize => (r_finalize s, None)
  end.

(** The state and the successful allocations (index, width), newest first. *)
Fixpoint r_run (s : regs) (al : list (Z * Z)) (ops : list rop) : regs * list (Z * Z) :=
  match ops with
  | [] => (s, al)
  | o :: r =>
      let '(s', a) := r_step s o in
      r_run s' (match a with Some x => x :: al | None => al end) r
  end.
