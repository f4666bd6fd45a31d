(** Specification vocabulary for C50 (struct telemetry) and C65 (arrays of an
    environment). *)
From Verif Require Import Base PrimModel PrimSpec ArrayModel ArraySpec ChainModel StructModel.

(** ** C65 *)

(** Fields of the same bit-fields object occur next to each other. *)
Definition together (find : Z -> option entry) (names : list Z) : Prop :=
  forall i j k a b c g, (i < j < k)%nat ->
    nth_error names i = Some a -> nth_error names j = Some b -> nth_error names k = Some c ->
    find a = Some (EField g) -> find c = Some (EField g) -> find b = Some (EField g).

(** The field names of the bit-fields objects are the names that find them. *)
Definition env_ok (find : Z -> option entry) (g_names : nat -> list Z) : Prop :=
  forall n g, In n (g_names g) <-> find n = Some (EField g).

(** The primitive behind a name. *)
Definition raw_of (g_raw : nat -> nat) (e : entry) : nat :=
  match e with EChan r => r | EField g => g_raw g end.

(** ** C50 *)

(** A struct: its primitives hold values of their kinds, the array refers to
    them, the timestamp is first and the sequence number second. *)
Record struct_ok (objs : list prim) (refs : list nat) : Prop := {
  so_vals : Forall p_ok objs;
  so_refs : Forall (fun r => (r < List.length objs)%nat) refs;
  so_head : exists r, refs = O :: r;
  so_time : option_map p_kind (nth_error objs 0) = Some U64;
  so_seq : option_map p_kind (nth_error objs 1) = Some U16
}.

(** Values written are values of the primitive's kind. *)
Definition top_ok (objs : list prim) (o : top) : Prop :=
  match o with
  | TSet i v => exists p, nth_error objs i = Some p /\ k_value (p_kind p) v
  | TOrder _ => False
  | TCapture _ _ _ => True
  end.

(** The values of all primitives after an operation: a write puts the value in
    place; sampling puts the time and the next sequence number in place. *)
Fixpoint put (i : nat) (v : Z) (l : list Z) : list Z :=
  match l, i with
  | [], _ => []
  | _ :: l', O => v :: l'
  | y :: l', S i' => y :: put i' v l'
  end.
Definition after (vals : list Z) (o : top) : list Z :=
  match o with
  | TSet i v => put i v vals
  | TCapture now true _ =>
      put 1 ((nth 1 vals 0 + 1) mod 65536) (put 0 (now mod 18446744073709551616) vals)
  | _ => vals
  end.

(** The captured samples of a history, in order: the array's values. *)
Fixpoint captured (refs : list nat) (vals : list Z) (ops : list top) : list (list Z) :=
  match ops with
  | [] => []
  | o :: r =>
      let vals' := after vals o in
      match o with
      | TCapture _ true _ => map (fun i => nth i vals' 0) refs :: captured refs vals' r
      | _ => captured refs vals' r
      end
  end.

(** A receiver of the same struct: same primitives kinds, array and byte order;
    any values. *)
Definition receives (x : rx) (objs : list prim) (refs : list nat) (bo : byte_order) : Prop :=
  map (fun o => p_kind (r_prim o)) (x_objs x) = map p_kind objs /\
  x_refs x = refs /\ x_order x = bo.

(** What a handler is given: the timestamp, and in the struct the values of the
    array and the times of these values. *)
Definition seen (o : Z * rx) : Z * list Z * list Z :=
  (fst o,
   map (fun r => p_val (r_prim (nth r (x_objs (snd o)) no_robj))) (x_refs (snd o)),
   map (fun r => r_time (nth r (x_objs (snd o)) no_robj)) (x_refs (snd o))).

(** What it should be given for a sample: its timestamp, its values, and that
    timestamp as the time of every value. *)
Definition expected (sample : list Z) : Z * list Z * list Z :=
  (hd 0 sample, sample, map (fun _ => hd 0 sample) sample).

(** A datagram yields some samples at a receiver, whatever it received before. *)
Definition yields (native_le : bool) (objs : list prim) (refs : list nat) (bo : byte_order)
    (d : list Z) (ss : list (list Z)) : Prop :=
  forall x, receives x objs refs bo ->
    exists obs x', process_datagram native_le x d = (obs, x', true) /\
      map seen obs = map expected ss /\ receives x' objs refs bo.
