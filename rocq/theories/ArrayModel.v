(** Model of runtimepy/primitives/array/__init__.py (PrimitiveArray).

    Simplifications: the primitive objects of one array are distinct objects
    (adding the same object twice is not modelled); fragments share the array's
    primitives, so a fragment is represented by its index range; chaining is in
    ChainModel; timestamps and callbacks of the elements are not modelled. *)
From Verif Require Import Base PrimModel.

Section Host.
  Context (native_le : bool).

  (** array/__init__.py:23-29 [ArrayFragmentSpec]. *)
  Record fspec := mkSpec { fs_i0 : Z; fs_i1 : Z; fs_b0 : Z; fs_b1 : Z }.

  (** array/__init__.py:35-69. *)
  Record arr := mkArr {
    a_elems : list prim;              (** [_primitives] *)
    a_order : byte_order;
    a_size : Z;
    a_b2i : list (Z * Z);             (** [_bytes_to_index] *)
    a_i2b : list (Z * Z);             (** [_index_to_bytes] *)
    a_specs : list fspec              (** [_fragment_specs] / [_fragments] *)
  }.

  (** array/__init__.py:71-80 [reset], and the state [__init__] starts from. *)
  Definition a_empty (bo : byte_order) : arr := mkArr [] bo 0 [(0, 0)] [(0, 0)] [].

  Definition p_size (p : prim) : Z := Z.of_nat (k_size (p_kind p)).

  (** array/__init__.py:187-210 [add] for an array that is its own chain end.
      [array_length] None or at most 1 adds one element. *)
  Definition a_add (a : arr) (p : prim) (array_length : option Z) : arr :=
    let extra := match array_length with Some n => Z.to_nat (n - 1) | None => O end in
    let elems := a_elems a ++ p :: repeat (p_copy p) extra in
    let size := a_size a + p_size p + Z.of_nat extra * p_size p in
    let idx := zlen elems in
    mkArr elems (a_order a) size (dset size idx (a_b2i a)) (dset idx size (a_i2b a))
          (a_specs a).

  (** [struct] layout: with "@" every item is aligned to its size. *)
  Definition pad_len (bo : byte_order) (off : Z) (k : kind) : nat :=
    match bo with
    | Native => Z.to_nat ((Z.of_nat (k_size k) - off mod Z.of_nat (k_size k))
                          mod Z.of_nat (k_size k))
    | _ => O
    end.

  (** [struct.pack]: None is struct.error. *)
  Fixpoint pack (bo : byte_order) (off : Z) (l : list prim) : option (list Z) :=
    match l with
    | [] => Some []
    | p :: l' =>
        let n := pad_len bo off (p_kind p) in
        match k_encode native_le (p_kind p) bo (p_val p),
              pack bo (off + Z.of_nat n + p_size p) l' with
        | Some a, Some b => Some (repeat 0 n ++ a ++ b)
        | _, _ => None
        end
    end.

  (** [struct.unpack]: None is struct.error (length mismatch). *)
  Fixpoint unpack (bo : byte_order) (off : Z) (l : list prim) (data : list Z)
    : option (list Z) :=
    match l with
    | [] => match data with [] => Some [] | _ => None end
    | p :: l' =>
        let n := pad_len bo off (p_kind p) in
        let d := skipn n data in
        let s := k_size (p_kind p) in
        if Nat.ltb (List.length data) (n + s) then None
        else
          match k_decode native_le (p_kind p) bo (firstn s d),
                unpack bo (off + Z.of_nat n + p_size p) l' (skipn s d) with
          | Some v, Some vs => Some (v :: vs)
          | _, _ => None
          end
    end.

  (** array/__init__.py:236-239: assign the unpacked values in order. *)
  Fixpoint assign (l : list prim) (vs : list Z) : list prim :=
    match l, vs with
    | p :: l', v :: vs' => p_set p v :: assign l' vs'
    | _, _ => l
    end.

  (** array/__init__.py:224-227 [__bytes__]. *)
  Definition a_bytes (a : arr) : option (list Z) := pack (a_order a) 0 (a_elems a).

  Definition with_elems (a : arr) (l : list prim) : arr :=
    mkArr l (a_order a) (a_size a) (a_b2i a) (a_i2b a) (a_specs a).

  (** array/__init__.py:233-241 [update]. *)
  Definition a_update (a : arr) (data : list Z) : option arr :=
    match unpack (a_order a) 0 (a_elems a) data with
    | Some vs => Some (with_elems a (assign (a_elems a) vs))
    | None => None
    end.

  (** array/__init__.py:156-166: None is KeyError. *)
  Definition byte_at_index (a : arr) (i : Z) : option Z := dget i (a_i2b a).
  Definition index_at_byte (a : arr) (b : Z) : option Z := dget b (a_b2i a).

  (** array/__init__.py:99-113 [_index_fragment_spec]. *)
  Definition index_spec (a : arr) (start stop : Z) : option fspec :=
    let stop := if stop =? -1 then zlen (a_elems a) else stop in
    if stop >? start then
      match byte_at_index a start, byte_at_index a stop with
      | Some b0, Some b1 => Some (mkSpec start stop b0 b1)
      | _, _ => None
      end
    else None.

  (** array/__init__.py:115-129 [_byte_fragment_spec]. *)
  Definition byte_spec (a : arr) (start stop : Z) : option fspec :=
    match (if stop =? -1 then byte_at_index a (zlen (a_elems a)) else Some stop) with
    | None => None
    | Some stop =>
        if stop >? start then
          match index_at_byte a start, index_at_byte a stop with
          | Some i0, Some i1 => Some (mkSpec i0 i1 start stop)
          | _, _ => None
          end
        else None
    end.

  (** array/__init__.py:131-154: the array with the fragment, and its index. *)
  Definition add_spec (a : arr) (s : fspec) : arr * Z :=
    (mkArr (a_elems a) (a_order a) (a_size a) (a_b2i a) (a_i2b a) (a_specs a ++ [s]),
     zlen (a_specs a)).
  Definition fragment_from_indices (a : arr) (start stop : Z) : option (arr * Z) :=
    option_map (add_spec a) (index_spec a start stop).
  Definition fragment_from_bytes (a : arr) (start stop : Z) : option (arr * Z) :=
    option_map (add_spec a) (byte_spec a start stop).

  (** The elements of a fragment (array/__init__.py:91-97); the fragment's own
      array is fresh, so its offsets start at 0. *)
  Definition slice {A} (i j : Z) (l : list A) : list A :=
    firstn (Z.to_nat j - Z.to_nat i) (skipn (Z.to_nat i) l).

  (** array/__init__.py:229-231 [fragment_bytes]; None is IndexError or
      struct.error. *)
  Definition fragment_bytes (a : arr) (n : nat) : option (list Z) :=
    match nth_error (a_specs a) n with
    | Some s => pack (a_order a) 0 (slice (fs_i0 s) (fs_i1 s) (a_elems a))
    | None => None
    end.

  (** array/__init__.py:243-247 [update_fragment]. *)
  Definition update_fragment (a : arr) (n : nat) (data : list Z) : option arr :=
    match nth_error (a_specs a) n with
    | Some s =>
        let part := slice (fs_i0 s) (fs_i1 s) (a_elems a) in
        match unpack (a_order a) 0 part data with
        | Some vs =>
            Some (with_elems a (firstn (Z.to_nat (fs_i0 s)) (a_elems a)
                                ++ assign part vs
                                ++ skipn (Z.to_nat (fs_i1 s)) (a_elems a)))
        | None => None
        end
    | None => None
    end.

  (** array/__init__.py:168-175 [_copy_impl]: copies are re-added one by one. *)
  Definition a_copy (a : arr) : arr :=
    let b := fold_left (fun x p => a_add x (p_copy p) None) (a_elems a) (a_empty (a_order a)) in
    mkArr (a_elems b) (a_order b) (a_size b) (a_b2i b) (a_i2b b) (a_specs a).

  (** Histories: everything a user can do to an array. *)
  Inductive aop :=
  | AAdd (p : prim) (array_length : option Z)
  | AFragI (start stop : Z)
  | AFragB (start stop : Z)
  | AUpdate (data : list Z)
  | AUpdateFrag (n : nat) (data : list Z)
  | ASet (n : nat) (v : Z)            (** assign element [n] *)
  | AReset
  | ACopy.

  Fixpoint set_nth (n : nat) (v : Z) (l : list prim) : list prim :=
    match n, l with
    | _, [] => []
    | O, p :: l' => p_set p v :: l'
    | S n', p :: l' => p :: set_nth n' v l'
    end.

  Definition or_same (a : arr) (r : option arr) : arr :=
    match r with Some b => b | None => a end.

  Definition a_step (a : arr) (o : aop) : arr :=
    match o with
    | AAdd p n => a_add a p n
    | AFragI i j => or_same a (option_map fst (fragment_from_indices a i j))
    | AFragB i j => or_same a (option_map fst (fragment_from_bytes a i j))
    | AUpdate d => or_same a (a_update a d)
    | AUpdateFrag n d => or_same a (update_fragment a n d)
    | ASet n v => with_elems a (set_nth n v (a_elems a))
    | AReset => a_empty (a_order a)
    | ACopy => a_copy a
    end.
  Definition a_run (a : arr) (ops : list aop) : arr := fold_left a_step ops a.
End Host.
