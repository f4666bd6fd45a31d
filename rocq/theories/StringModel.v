(** Model of runtimepy/primitives/string.py (StringPrimitive) and
    primitives/serializable/{fixed,prefixed}.py.

    A stream is the list of bytes still to be read / written so far. *)
From Verif Require Import Base PrimModel Utf8Model.

(** [stream.read(n)] on an in-memory stream: a negative count reads all. *)
Definition stream_read (n : Z) (l : list Z) : list Z * list Z :=
  if n <? 0 then (l, []) else (firstn (Z.to_nat n) l, skipn (Z.to_nat n) l).

Section Host.
  Context (native_le : bool).

  (** primitives/base.py:252-257 [from_stream]: the new value and the rest of
      the stream; None is struct.error on a short read. *)
  Definition prim_from_stream (k : kind) (bo : byte_order) (l : list Z)
    : option (Z * list Z) :=
    let '(data, rest) := stream_read (Z.of_nat (k_size k)) l in
    match k_decode native_le k bo data with
    | Some v => Some (k_store k v, rest)
    | None => None
    end.

  (** string.py:17-31; the value is a list of code points. *)
  Record strprim := mkStr {
    sp_kind : kind; sp_value : list Z; sp_size : Z; sp_order : byte_order
  }.

  (** string.py:20-31 [__init__]: None is the AssertionError. *)
  Definition sp_new (k : kind) (bo : byte_order) (value : list Z) : option strprim :=
    if k_is_int k then Some (mkStr k value (k_store k (zlen value)) bo) else None.

  (** string.py:62-65 [set]. *)
  Definition sp_set (s : strprim) (value : list Z) : strprim :=
    mkStr (sp_kind s) value (k_store (sp_kind s) (zlen value)) (sp_order s).

  (** string.py:67-70 [size]. *)
  Definition sp_total (s : strprim) : Z := sp_size s + Z.of_nat (k_size (sp_kind s)).

  (** string.py:72-75 [write]: the bytes appended; None when [encode] or the
      prefix encoding raises. *)
  Definition sp_write (s : strprim) : option (list Z) :=
    match k_encode native_le (sp_kind s) (sp_order s) (sp_size s),
          utf8_encode (sp_value s) with
    | Some a, Some b => Some (a ++ b)
    | _, _ => None
    end.

  (** string.py:77-82 [read]: the updated primitive and the rest of the
      stream. *)
  Definition sp_read (s : strprim) (l : list Z) : option (strprim * list Z) :=
    match prim_from_stream (sp_kind s) (sp_order s) l with
    | None => None
    | Some (n, rest) =>
        let '(data, rest') := stream_read n rest in
        match utf8_decode data with
        | Some v => Some (mkStr (sp_kind s) v n (sp_order s), rest')
        | None => None
        end
    end.

  (** string.py:45-55 [from_stream]. *)
  Definition sp_from_stream (k : kind) (bo : byte_order) (l : list Z)
    : option (strprim * list Z) :=
    match sp_new k bo [] with
    | Some s => sp_read s l
    | None => None
    end.

  (** serializable/prefixed.py:25-41: prefix kind and value, chunk data.  The
      chunk's size (fixed.py:19-20, 39-40) is always [len(data)]. *)
  Record pchunk := mkPc {
    pc_kind : kind; pc_prefix : Z; pc_data : list Z; pc_order : byte_order; pc_size : Z
  }.

  (** prefixed.py:54-59 [_update_size]: false is AssertionError. *)
  Definition pc_update_size (c : pchunk) : pchunk * bool :=
    if pc_prefix c =? zlen (pc_data c)
    then (mkPc (pc_kind c) (pc_prefix c) (pc_data c) (pc_order c)
            (Z.of_nat (k_size (pc_kind c)) + pc_prefix c), true)
    else (c, false).

  (** prefixed.py:25-41 [__init__] with a prefix holding [v]:
      [bytes(v)] is v zero bytes. *)
  Definition pc_new (k : kind) (bo : byte_order) (v : Z) : option pchunk :=
    if k_is_int k && negb (k_signed k) then
      let p := k_store k v in
      Some (fst (pc_update_size (mkPc k p (repeat 0 (Z.to_nat p)) bo 0)))
    else None.

  (** prefixed.py:47-52 [update]. *)
  Definition pc_update (c : pchunk) (data : list Z) : pchunk * bool :=
    pc_update_size
      (mkPc (pc_kind c) (k_store (pc_kind c) (zlen data)) data (pc_order c) (pc_size c)).

  (** prefixed.py:69-74 [__bytes__]. *)
  Definition pc_bytes (c : pchunk) : option (list Z) :=
    match k_encode native_le (pc_kind c) (pc_order c) (pc_prefix c) with
    | Some a => Some (a ++ pc_data c)
    | None => None
    end.

  (** prefixed.py:76-85 [_from_stream]: None is struct.error; the boolean is
      false on AssertionError. *)
  Definition pc_from_stream (c : pchunk) (l : list Z) : option (pchunk * bool * list Z) :=
    match prim_from_stream (pc_kind c) (pc_order c) l with
    | None => None
    | Some (n, rest) =>
        let '(data, rest') := stream_read n rest in
        let '(c', ok) :=
          pc_update_size (mkPc (pc_kind c) n data (pc_order c) (pc_size c)) in
        Some (c', ok, rest')
    end.
End Host.
