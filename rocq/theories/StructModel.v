(** Model of runtimepy/channel/environment/array.py (which primitives make up
    the array of an environment) and of runtimepy/net/arbiter/struct/__init__.py
    (structs sent and received as UDP telemetry), with net/arbiter/info.py:77-90.

    Simplifications: names and registry keys are only compared, so they are
    numbers; primitives are objects, so an array is a list of references into
    the struct's objects and the same object may occur twice; change callbacks
    of the primitives are not modelled; the application searches
    (struct/__init__.py:136-148, 161-173) only pick the instance. *)
From Verif Require Import Base PrimModel ArrayModel ChainModel.

(** ** channel/environment/array.py *)

(** What a registered name refers to: a channel with its primitive, or a field
    of some bit-fields object (array.py:72, 98). *)
Inductive entry := EChan (raw : nat) | EField (group : nat).

Section Env.
  (** [channels.names.name(key)] (array.py:62), the lookups [self.get(name)] and
      [self.fields.get_fields(name)] (array.py:72, 98), and of each bit-fields
      object its primitive and its field names (array.py:100-101). *)
  Context (name_of : Z -> option Z) (find : Z -> option entry)
          (g_raw : nat -> nat) (g_names : nat -> list Z).

  (** The local variables of [array]; [curr_fields] is None throughout, as no
      statement assigns anything else to it (array.py:51, 80, 88, 97). *)
  Record astate := mkA {
    as_names : list Z;        (** [names] and [result.names] *)
    as_refs : list nat;       (** [result.array], as objects *)
    as_invalid : list Z;      (** [invalid_field_names] *)
    as_avail : list Z         (** [available_field_names] *)
  }.

  Definition zmem (n : Z) (l : list Z) : bool := existsb (Z.eqb n) l.

  (** array.py:60-105: one key; None is AssertionError or KeyError. *)
  Definition a_step (s : astate) (key : Z) : option astate :=
    match name_of key with
    | None => None
    | Some name =>
        if zmem name (as_names s) then None
        else
          let names := as_names s ++ [name] in
          match find name with
          | Some (EChan raw) =>
              Some (mkA names (as_refs s ++ [raw]) (as_invalid s ++ as_avail s) [])
          | other =>
              let '(invalid, avail) :=
                if zmem name (as_avail s) then (as_invalid s, as_avail s)
                else (as_invalid s ++ as_avail s, []) in
              if zmem name invalid then None
              else
                match other with
                | Some (EField g) =>
                    if zmem name (g_names g)
                    then Some (mkA names (as_refs s ++ [g_raw g]) invalid
                                 (filter (fun n => negb (n =? name)) (g_names g)))
                    else None
                | _ => None
                end
          end
    end.

  Fixpoint a_steps (s : astate) (keys : list Z) : option astate :=
    match keys with
    | [] => Some s
    | k :: r => match a_step s k with Some s' => a_steps s' r | None => None end
    end.

  (** array.py:42-107 [array]: the names and the primitives in order. *)
  Definition env_array (keys : list Z) : option (list Z * list nat) :=
    option_map (fun s => (as_names s, as_refs s)) (a_steps (mkA [] [] [] []) keys).
End Env.

(** ** net/arbiter/struct/__init__.py *)

(** net/mtu.py:33-36. *)
Definition UDP_HEADER_SIZE : Z := 60 + 8.
Definition UDP_DEFAULT_MTU : Z := 1500 - UDP_HEADER_SIZE.

Definition no_prim : prim := mkPrim U8 0.

Section Host.
  Context (native_le : bool).

  (** The elements of [self.array] (info.py:90) among the struct's primitives. *)
  Definition elems (objs : list prim) (refs : list nat) : list prim :=
    map (fun r => nth r objs no_prim) refs.

  Fixpoint set_obj {A} (i : nat) (x : A) (l : list A) : list A :=
    match l, i with
    | [], _ => []
    | _ :: l', O => x :: l'
    | y :: l', S i' => y :: set_obj i' x l'
    end.

  (** A connection with an assigned transmit struct (struct/__init__.py:99-101).
      The struct's current array and the array the framer holds
      (struct/__init__.py:116-118) have the same elements and maybe different
      byte orders (info.py:87-90). *)
  Record tx := mkTx {
    t_objs : list prim;
    t_refs : list nat;
    t_order : byte_order;         (** of [struct_tx.array] *)
    t_inst : byte_order;          (** of [framer_tx.instance] *)
    t_fr : framer
  }.

  (** struct/__init__.py:83-87 [poll]; the timestamp is object 0 and the sequence
      object 1 (struct/__init__.py:41-56). *)
  Definition poll (objs : list prim) (now : Z) : list prim :=
    let objs := set_obj 0 (p_set (nth 0 objs no_prim) now) objs in
    set_obj 1 (fst (p_increment (nth 1 objs no_prim) 1)) objs.

  (** struct/__init__.py:125-127: capture until a frame results; every round adds
      an element, so [f_length] rounds are enough. *)
  Fixpoint probe_loop (fuel : nat) (f : framer) (d : list Z) : option (list Z) :=
    match fuel with
    | O => None
    | S n =>
        match f_capture f d true false with
        | (_, Some r) => Some r
        | (f', None) => probe_loop n f' d
        end
    end.

  (** struct/__init__.py:120-127 [get_payload]: the probe datagram. *)
  Definition get_payload (size : Z) (d : list Z) (probe : Z) : option (list Z) :=
    match f_set_mtu size probe 0 with
    | Some f => probe_loop (Z.to_nat (f_length f)) f d
    | None => None
    end.

  (** struct/__init__.py:106-134 [assign_tx] on a fresh connection, with the
      discovered [mtu] (net/mixin.py:54-76, probe size 1432): the connection and
      the datagram the probe sent; None is an exception. *)
  Definition assign_tx (objs : list prim) (refs : list nat) (bo : byte_order) (mtu : Z)
    : option (tx * list Z) :=
    let size := fold_right Z.add 0 (map p_size (elems objs refs)) in
    match f_set_mtu size UDP_DEFAULT_MTU 0, pack native_le bo 0 (elems objs refs) with
    | Some _, Some d =>
        match get_payload size d UDP_DEFAULT_MTU, f_set_mtu size mtu UDP_HEADER_SIZE with
        | Some p, Some f => Some (mkTx objs refs bo bo f, p)
        | _, _ => None
        end
    | _, _ => None
    end.

  (** What the program does with the struct and the connection. *)
  Inductive top :=
  | TSet (i : nat) (v : Z)                        (** a primitive gets a value *)
  | TOrder (bo : byte_order)                      (** info.py:87-90 [update_byte_order] *)
  | TCapture (now : Z) (sample flush : bool).     (** [capture] at time [now] *)

  (** struct/__init__.py:175-185 [capture]: the datagram sent, if any.  A packing
      error would leave the framer as it was. *)
  Definition capture (t : tx) (now : Z) (sample flush : bool) : tx * list (list Z) :=
    let objs := if sample then poll (t_objs t) now else t_objs t in
    match pack native_le (t_inst t) 0 (elems objs (t_refs t)) with
    | None => (mkTx objs (t_refs t) (t_order t) (t_inst t) (t_fr t), [])
    | Some d =>
        let '(f, r) := f_capture (t_fr t) d sample flush in
        (mkTx objs (t_refs t) (t_order t) (t_inst t) f,
         match r with Some x => [x] | None => [] end)
    end.

  Definition t_step (t : tx) (o : top) : tx * list (list Z) :=
    match o with
    | TSet i v =>
        (mkTx (set_obj i (p_set (nth i (t_objs t) no_prim) v) (t_objs t)) (t_refs t)
              (t_order t) (t_inst t) (t_fr t), [])
    | TOrder bo => (mkTx (t_objs t) (t_refs t) bo (t_inst t) (t_fr t), [])
    | TCapture now sample flush => capture t now sample flush
    end.

  Fixpoint t_run (t : tx) (ops : list top) : tx * list (list Z) :=
    match ops with
    | [] => (t, [])
    | o :: r =>
        let '(t1, a) := t_step t o in
        let '(t2, b) := t_run t1 r in
        (t2, a ++ b)
    end.

  (** ** The receiving struct: primitives with [last_updated_ns]. *)
  Record robj := mkR { r_prim : prim; r_time : Z }.
  Definition no_robj : robj := mkR no_prim 0.
  Record rx := mkRx { x_objs : list robj; x_refs : list nat; x_order : byte_order }.

  Definition x_elems (x : rx) : list prim := elems (map r_prim (x_objs x)) (x_refs x).

  (** array/__init__.py:236-239 with primitives/base.py:156-166: the elements get
      the values in order, all with the same time. *)
  Fixpoint assign_all (objs : list robj) (refs : list nat) (vs : list Z) (ts : Z)
    : list robj :=
    match refs, vs with
    | r :: refs', v :: vs' =>
        assign_all (set_obj r (mkR (p_set (r_prim (nth r objs no_robj)) v) ts) objs)
                   refs' vs' ts
    | _, _ => objs
    end.

  (** struct/__init__.py:58-68 [update_single]; None is struct.error. *)
  Definition update_single (x : rx) (data : list Z) : option (rx * Z) :=
    match k_decode native_le U64 (x_order x) (firstn (k_size U64) data) with
    | None => None
    | Some ts =>
        match unpack native_le (x_order x) 0 (x_elems x) data with
        | None => None
        | Some vs => Some (mkRx (assign_all (x_objs x) (x_refs x) vs ts)
                                (x_refs x) (x_order x), ts)
        end
    end.

  (** struct/__init__.py:79-81 and 199-200: what [handle_update] is called with,
      the receiver afterwards and whether no exception was raised. *)
  Fixpoint rx_loop (n : nat) (size : Z) (x : rx) (data : list Z)
    : list (Z * rx) * rx * bool :=
    match n with
    | O => ([], x, true)
    | S n' =>
        match update_single x (firstn (Z.to_nat size) data) with
        | None => ([], x, false)
        | Some (x1, ts) =>
            let '(obs, x2, ok) := rx_loop n' size x1 (skipn (Z.to_nat size) data) in
            ((ts, x1) :: obs, x2, ok)
        end
    end.

  (** struct/__init__.py:70-81 and 192-202 [process_datagram]. *)
  Definition process_datagram (x : rx) (data : list Z) : list (Z * rx) * rx * bool :=
    let size := fold_right Z.add 0 (map p_size (x_elems x)) in
    if (0 <? size) && (zlen data mod size =? 0)
    then rx_loop (Z.to_nat (zlen data / size)) size x data
    else ([], x, false).

  (** A sequence of arriving datagrams; a failing one does not stop the next. *)
  Fixpoint rx_run (x : rx) (ds : list (list Z)) : list (Z * rx) * rx :=
    match ds with
    | [] => ([], x)
    | d :: r =>
        let '(o1, x1, _) := process_datagram x d in
        let '(o2, x2) := rx_run x1 r in
        (o1 ++ o2, x2)
    end.
End Host.
