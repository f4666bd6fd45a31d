(** Specification vocabulary for C79. *)
From Coq Require Import QArith.
From Verif Require Import Base PrimModel PrimSpec ScalingModel RegistryModel RegistrySpec EnumModel EnumSpec
  FieldModel FieldSpec EnvModel ExportModel.
Open Scope Z_scope.

Section Spec.
  Context (valid validE word : string -> bool).
  Context (int_of : string -> option Z) (float_of : string -> option flo)
    (bool_of : string -> option bool) (fround : kind -> flo -> flo).
  Context {C : Type} (cdefault : C -> option num).

  (** An enumeration registry a user can have: any history of registrations,
      after which the enumerations themselves may have grown; identifiers
      start at 1 (RuntimeEnum.yaml). *)
  Definition ereg_ok (g : ereg) : Prop :=
    exists g0 : ereg, g_reachable validE (@Some epay) g0 /\ g_names g = g_names g0 /\
      Forall2 (fun a b => fst a = fst b /\ i_id (snd a) = i_id (snd b) /\
                 fst (i_payload (snd a)) = fst (i_payload (snd b))) (g_items g0) (g_items g) /\
      Forall (fun ni => 1 <= i_id (snd ni) /\ e_reachable validE (snd (i_payload (snd ni)))) (g_items g).

  (** Environments a user can have with it. *)
  Definition x_reachable (g : ereg) (x : xenv C) : Prop :=
    exists ops, x_run valid word int_of float_of bool_of fround cdefault (x_new g) ops = x.

  (** What the exported form can carry. *)
  Record portable (x : xenv C) (re : bool) : Prop := {
    (** names are lower case *)
    p_lower : forall n, In n (m_names (r_map (e_names (x_env x)))) ->
      n <> EmptyString /\ made_of lower_alphabet n;
    (** no channel has the name of a bit field *)
    p_apart : forall n ch, dget n (e_chans (x_env x)) = Some ch -> dget n (e_lookup (x_env x)) = None;
    (** channels are not scaled and do not hold NaN *)
    p_plain : forall n ch c, dget n (e_chans (x_env x)) = Some ch ->
      e_cell (x_env x) (ch_ref ch) = Some c -> c_scaling c = [] /\ c_raw c <> RF FNan;
    (** enumerations exist *)
    p_enum : forall n m k, dget n (x_meta x) = Some m -> cm_enum m = Some k ->
      enums_of (x_enums x) k <> None;
    (** and suit the channel, if names are exported instead of numbers *)
    p_suit : re = true -> forall n ch c en, dget n (e_chans (x_env x)) = Some ch ->
      e_cell (x_env x) (ch_ref ch) = Some c -> ch_enum ch = Some en ->
      ~ float_kind (c_kind c) /\ (c_kind c = KBool -> exists m, en = EBool m);
    (** registers are unsigned, their fields inside and disjoint *)
    p_regs : forall b bf c, In b (e_mgr (x_env x)) -> nth_error (e_bfs (x_env x)) b = Some bf ->
      e_cell (x_env x) (bf_ref bf) = Some c ->
      (exists bits, int_kind (c_kind c) bits false) /\
      (forall n f, In (n, f) (bf_fields bf) ->
         1 <= fl_width f /\ fl_index f + fl_width f <= k_bits (c_kind c) /\
         enum_schema word (fl_enum f) = true) /\
      (forall n f n' f', In (n, f) (bf_fields bf) -> In (n', f') (bf_fields bf) -> n <> n' ->
         disjoint (fl_index f, fl_width f) (fl_index f', fl_width f'))
  }.

  (** ** What a user can see of an environment *)

  (** A channel: identifier, type, whether it takes commands, the key of its
      enumeration, description, controls and default value. *)
  Definition channel_view (x : xenv C) (k : key)
    : option (Z * kind * bool * option (string + Z) * option string * option C * option num) :=
    match e_name (x_env x) k with
    | None => None
    | Some n =>
        match dget n (e_chans (x_env x)), dget n (x_meta x) with
        | Some ch, Some m =>
            match e_cell (x_env x) (ch_ref ch) with
            | Some c => Some (cm_id m, c_kind c, ch_cmd ch, cm_enum m, cm_desc m, cm_ctl m, cm_default m)
            | None => None
            end
        | _, _ => None
        end
    end.
  (** A bit field, without its description. *)
  Definition field_view (x : xenv C) (k : key) : option field :=
    option_map (fun rf => strip (snd rf)) (e_get_field (x_env x) k).
  (** The same enumeration: integer or boolean, with the same members. *)
  Definition same_enum (a b : renum) : Prop :=
    match a, b with
    | EInt _, EInt _ | EBool _, EBool _ => True
    | _, _ => False
    end /\
    e_pairs a = e_pairs b /\ (forall v, e_get_str a v = e_get_str b v) /\
    (forall v, e_get_int int_of bool_of a v = e_get_int int_of bool_of b v) /\
    (forall v, e_get_bool bool_of a v = e_get_bool bool_of b v).
  Definition opt_rel {A} (R : A -> A -> Prop) (a b : option A) : Prop :=
    match a, b with Some a, Some b => R a b | None, None => True | _, _ => False end.

  Record same_view (x x' : xenv C) : Prop := {
    v_ids : forall n, m_identifier (r_map (e_names (x_env x'))) n = m_identifier (r_map (e_names (x_env x))) n;
    v_names : forall i, m_name (r_map (e_names (x_env x'))) i = m_name (r_map (e_names (x_env x))) i;
    v_eids : forall n, m_identifier (r_map (g_names (x_enums x'))) n = m_identifier (r_map (g_names (x_enums x))) n;
    v_enums : forall k, opt_rel same_enum (enums_of (x_enums x) k) (enums_of (x_enums x') k);
    v_chans : forall k, channel_view x' k = channel_view x k;
    v_fields : forall k, field_view x' k = field_view x k;
    v_values : forall k re sc, e_value (x_env x') k re sc = e_value (x_env x) k re sc
  }.
End Spec.
