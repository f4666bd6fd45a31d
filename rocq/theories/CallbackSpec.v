(** Specification vocabulary for C09 and C10. *)
From Verif Require Import Base PrimModel PrimSpec CallbackModel.

(** Primitives a user can have: built, then any history. *)
Definition v_reachable (p : cprim) : Prop :=
  exists k v ts ops, p = fst (v_run (v_init k v ts) ops).

(** All calls and all identifiers of a history, in order. *)
Definition all_calls (outs : list vout) : list call := flat_map o_calls outs.
Definition all_idents (outs : list vout) : list Z :=
  flat_map (fun o => match o_ident o with Some i => [i] | None => [] end) outs.

(** How often the registration [i] was called. *)
Definition times_called (i : Z) (cs : list call) : nat :=
  List.length (filter (fun c => c_id c =? i) cs).

(** Every callback only observes: it neither raises nor edits the table. *)
Definition passive (p : cprim) : Prop :=
  Forall (fun e => cb_act (fst (snd e)) = APass) (v_cbs p).

(** The full claim C09 for one assignment: exactly the registered callbacks, in
    order, once each, iff the stored value changes, with the stored value before
    and after. *)
Definition calls_report_change (p : cprim) (v ts : Z) : Prop :=
  let '(p', calls, ok) := v_set p v ts in
  ok = true /\
  calls = (if v_raw p =? v_raw p' then []
           else map (fun e => mkCall (fst e) (cb_tag (fst (snd e))) (v_raw p) (v_raw p'))
                  (v_cbs p)).

(** What a callback's body does to the table of a primitive while it is being
    iterated: raising, removing a live registration and registering another
    callback all end the iteration with an exception. *)
Definition disruptive (p : cprim) (a : act) : Prop :=
  match a with
  | APass => False
  | ARaise | ARegister _ _ => True
  | ARemove j => In j (map fst (v_cbs p))
  end.

(** The calls made when the registrations [l] are each called once, in order. *)
Definition calls_of (l : list (Z * (cbk * bool))) (old new : Z) : list call :=
  map (fun e => mkCall (fst e) (cb_tag (fst (snd e))) old new) l.
