(** Specification vocabulary for C14-C16 and C51. *)
From Verif Require Import Base PrimModel PrimSpec FieldModel.

(** Bit [j] of a register value. *)
Definition bit (raw j : Z) : bool := Z.testbit raw j.

(** The bits [index, index+width). *)
Definition covers (a : Z * Z) (j : Z) : Prop := fst a <= j < fst a + snd a.
Definition disjoint (a b : Z * Z) : Prop := forall j, ~ (covers a j /\ covers b j).
Definition inside (bits : Z) (a : Z * Z) : Prop :=
  0 <= snd a /\ (1 <= snd a -> 0 <= fst a /\ fst a + snd a <= bits).

(** Is this operation an allocation, and did it return? *)
Definition op_alloc (o : rop) : bool :=
  match o with OFlag _ _ _ _ _ | OField _ _ _ _ _ _ | OPad _ _ _ => true | _ => false end.
Fixpoint all_returned (s : regs) (ops : list rop) : Prop :=
  match ops with
  | [] => True
  | o :: r => (op_alloc o = true -> snd (r_step s o) <> None) /\
              all_returned (fst (r_step s o)) r
  end.

(** Requested widths. *)
Definition op_width_ge (n : Z) (o : rop) : Prop :=
  match o with OField _ w _ _ _ _ | OPad w _ _ => n <= w | _ => True end.

(** The range of an entry of the register. *)
Definition entry_range (e : Z * item) : Z * Z :=
  match snd e with
  | IField f => (fl_index f, fl_width f)
  | IPad w _ => (fst e, w)
  end.
(** Bit [j] belongs to a named field of the register. *)
Definition in_field (s : regs) (j : Z) : Prop :=
  exists i f, In (i, IField f) (r_byidx s) /\ covers (fl_index f, fl_width f) j.

(** A field without its description (which is not exported). *)
Definition strip (f : field) : field :=
  mkField (fl_name f) (fl_index f) (fl_width f) (fl_enum f) (fl_cmd f) None.
Definition strip_item (e : Z * item) : Z * item :=
  match snd e with IField f => (fst e, IField (strip f)) | IPad _ _ => e end.

(** The characters of names: of channels and fields, and of those that the
    exported form accepts. *)
Definition lower_alphabet : string := "abcdefghijklmnopqrstuvwxyz0123456789_.-".
Definition name_alphabet : string :=
  "ABCDEFGHIJKLMNOPQRSTUVWXYZabcdefghijklmnopqrstuvwxyz0123456789_.-".
Definition made_of (alphabet s : string) : Prop :=
  forall c, In c (list_ascii_of_string s) -> In c (list_ascii_of_string alphabet).

(** What an exported entry must satisfy to be loaded again. *)
Definition loadable (word : string -> bool) (e : Z * item) : Prop :=
  match snd e with
  | IPad _ v => v = 0
  | IField f =>
      made_of lower_alphabet (fl_name f) /\
      match fl_enum f with
      | Some (inl n) => word n = true | Some (inr i) => 1 <= i | None => True end
  end.
