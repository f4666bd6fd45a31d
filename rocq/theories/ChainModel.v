(** Model of runtimepy/primitives/serializable/{base,fixed,prefixed,framer}.py:
    chains of serializables and the framer.

    A chain is the list of its members from some head on.  Simplifications: a
    member belongs to one chain (no sharing of tails, no cycles), and the
    members are the three concrete classes of the package. *)
From Verif Require Import Base PrimModel StringModel ArrayModel.

Inductive node :=
| NArr (a : arr)                      (** primitives/array/__init__.py *)
| NFix (data : list Z)                (** serializable/fixed.py:15-20 *)
| NPre (c : pchunk).                  (** serializable/prefixed.py:25-41 *)

(** base.py:28-39: a non-empty chain, head first. *)
Definition chain := list node.

(** The [size] attribute: array/__init__.py:195-204, fixed.py:20/40,
    prefixed.py:58. *)
Definition n_size (n : node) : Z :=
  match n with NArr a => a_size a | NFix d => zlen d | NPre c => pc_size c end.

(** base.py:41-47 [length]. *)
Fixpoint c_length (c : chain) : Z :=
  match c with [] => 0 | n :: r => n_size n + c_length r end.

(** base.py:70-76 [copy_without_chain] with the three [_copy_impl]s
    (array/__init__.py:168-175, fixed.py:26-28, prefixed.py:61-67). *)
Definition n_copy (n : node) : node :=
  match n with
  | NArr a => NArr (a_copy a)
  | NFix d => NFix d
  | NPre c =>
      NPre (mkPc (pc_kind c) (k_store (pc_kind c) (pc_prefix c)) (pc_data c) (pc_order c)
              (Z.of_nat (k_size (pc_kind c)) + k_store (pc_kind c) (pc_prefix c)))
  end.

(** base.py:78-90 [__copy__]/[copy]. *)
Definition c_copy (c : chain) : chain := map n_copy c.

(** base.py:133-161 [assign] and [add_to_end]: the new chain and the returned
    size ([assign] returns the size of the first member added). *)
Definition head_size (c : chain) : Z := match c with [] => 0 | n :: _ => n_size n end.
Fixpoint n_times {A} (n : nat) (l : list A) : list A :=
  match n with O => [] | S n' => l ++ n_times n' l end.
Definition c_add_to_end (c o : chain) (array_length : option Z) : chain * Z :=
  let extra := match array_length with Some n => Z.to_nat (n - 1) | None => O end in
  (c ++ o ++ n_times extra (c_copy (c_copy o)),
   head_size o + Z.of_nat extra * head_size (c_copy (c_copy o))).

(** array/__init__.py:187-222 [add] called on the head of a chain whose head is
    an array with byte order [bo]: a new array is chained when the end is not
    an array. *)
Fixpoint c_add (bo : byte_order) (c : chain) (p : prim) (array_length : option Z) : chain :=
  match c with
  | [] => []
  | [n] =>
      match n with
      | NArr a => [NArr (a_add a p array_length)]
      | _ => [n; NArr (a_add (a_empty bo) p array_length)]
      end
  | n :: r => n :: c_add bo r p array_length
  end.

Section Host.
  Context (native_le : bool).

  (** The three [__bytes__]; None when [struct.pack] raises. *)
  Definition n_bytes (n : node) : option (list Z) :=
    match n with
    | NArr a => a_bytes native_le a
    | NFix d => Some d
    | NPre c => pc_bytes native_le c
    end.

  (** base.py:96-105 [to_stream]: the bytes written and the returned count. *)
  Fixpoint c_to_stream (c : chain) : option (list Z * Z) :=
    match c with
    | [] => Some ([], 0)
    | n :: r =>
        match n_bytes n, c_to_stream r with
        | Some a, Some (b, k) => Some (a ++ b, n_size n + k)
        | _, _ => None
        end
    end.

  (** Result of reading: the rest of the stream and the returned count, or
      struct.error, or AssertionError. *)
  Inductive rd := ROk (rest : list Z) (count : Z) | RStruct | RAssert.

  (** base.py:118-121 and prefixed.py:76-85 [_from_stream]; the node as it is
      afterwards. *)
  Definition n_from_stream (n : node) (l : list Z) : node * rd :=
    match n with
    | NArr a =>
        let '(data, rest) := stream_read (a_size a) l in
        match a_update native_le a data with
        | Some a' => (NArr a', ROk rest (a_size a))
        | None => (n, RStruct)
        end
    | NFix d =>
        let '(data, rest) := stream_read (zlen d) l in
        (NFix data, ROk rest (zlen data))
    | NPre c =>
        match pc_from_stream native_le c l with
        | Some (c', true, rest) => (NPre c', ROk rest (pc_size c'))
        | Some (c', false, _) => (NPre c', RAssert)
        | None => (n, RStruct)
        end
    end.

  (** base.py:123-131 [from_stream]: members read so far keep their values
      when a later one raises. *)
  Fixpoint c_from_stream (c : chain) (l : list Z) : chain * rd :=
    match c with
    | [] => ([], ROk l 0)
    | n :: r =>
        match n_from_stream n l with
        | (n', ROk rest k) =>
            match c_from_stream r rest with
            | (r', ROk rest' k') => (n' :: r', ROk rest' (k + k'))
            | (r', e) => (n' :: r', e)
            end
        | (n', e) => (n' :: r, e)
        end
    end.
End Host.

(** serializable/framer.py:15-25 [SerializableFramer]. *)
Record framer := mkFr { f_length : Z; f_elements : Z; f_raw : list Z }.

(** framer.py:27-49 [set_mtu] (and [__init__]): None is AssertionError. *)
Definition f_set_mtu (raw_length mtu overhead : Z) : option framer :=
  if raw_length >? 0 then
    let n := (mtu - overhead) / raw_length in
    if n >? 0 then Some (mkFr n 0 []) else None
  else None.

(** framer.py:57-73 [capture]; [bytes] is [bytes(self.instance)] at this call. *)
Definition f_capture (f : framer) (bytes : list Z) (sample flush : bool)
  : framer * option (list Z) :=
  let f := if sample then mkFr (f_length f) (f_elements f + 1) (f_raw f ++ bytes) else f in
  match f_raw f with
  | [] => (f, None)
  | _ => if flush || (f_elements f =? f_length f)
         then (mkFr (f_length f) 0 [], Some (f_raw f)) else (f, None)
  end.

(** A history of captures: contents of the instance at each call. *)
Record cap := mkCap { cp_bytes : list Z; cp_sample : bool; cp_flush : bool }.
Fixpoint f_run (f : framer) (cs : list cap) : framer * list (list Z) :=
  match cs with
  | [] => (f, [])
  | c :: r =>
      let '(f1, o) := f_capture f (cp_bytes c) (cp_sample c) (cp_flush c) in
      let '(f2, out) := f_run f1 r in
      (f2, match o with Some x => x :: out | None => out end)
  end.
