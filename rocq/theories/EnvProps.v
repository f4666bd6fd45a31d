(** Properties C31-C35: channel environments and commands. *)
From Coq Require Import QArith ZifyBool ZifyNat.
From Verif Require Import Base BaseLemmas PrimModel PrimSpec PrimProofs ScalingModel FieldModel FieldSpec
  FieldProofs FieldProps RegistryModel RegistrySpec RegistryProofs EnumModel EnumSpec EnumProofs
  EnvModel EnvSpec EnvProofs EnvWf EnvValue EnvLife EnvMore.
Open Scope Z_scope.

(** ** C31 *)

(** C31.  A command that reports failure or raises, a GET command, and every
    remote or custom command leave the environment exactly as it was. *)
Theorem C31_rejected_changes_nothing :
  forall int_of float_of bool_of fround hooks e a e' r calls,
    handle int_of float_of bool_of fround hooks e a = (e', r, calls) ->
    accepted r = false \/ is_get a = true \/ passes_through a = true ->
    e' = e.
Proof.
  intros * H C. apply handle_shape in H as [->|(A & P & G & _)]; [reflexivity|].
  destruct C as [C|[C|C]]; congruence.
Qed.
Print Assumptions C31_rejected_changes_nothing.

(** C31.  A remote command processor never changes the local environment. *)
Theorem C31_remote_processor :
  forall int_of float_of bool_of fround hooks e a e' r calls,
    handle_remote int_of float_of bool_of fround hooks e a = (e', r, calls) -> e' = e /\ accepted r = true.
Proof.
  intros * H. split.
  - eapply C31_rejected_changes_nothing; [exact H|]. right; right. reflexivity.
  - unfold handle_remote, handle in H. cbn in H. injection H as _ <- _. reflexivity.
Qed.
Print Assumptions C31_remote_processor.

(** C31.  What a local command with enough permission does.  SET behaves as
    setting the channel's scaled value through the API to its first argument:
    it succeeds exactly when that call does, and reports failure when the value
    or name is not understood.  GET reports what reading the value returns.
    Unknown names and targets that may not be commanded fail. *)
Theorem C31_command_is_call :
  forall int_of float_of bool_of fround hooks e n force t,
    e_target e (inl n) = Some t ->
    (forall v rest e',
       t_cmd t || force = true ->
       e_set int_of float_of bool_of fround e (inl n) (CStr v) true = Ok e' ->
       handle int_of float_of bool_of fround hooks e (mkArgs VSet force false n (v :: rest)) =
         (e', CSuccess, map (fun h => (h, Some t)) hooks)) /\
    (forall v rest x,
       t_cmd t || force = true -> x <> XOther ->
       e_set int_of float_of bool_of fround e (inl n) (CStr v) true = Err x ->
       handle int_of float_of bool_of fround hooks e (mkArgs VSet force false n (v :: rest)) = (e, CFailure, [])) /\
    handle int_of float_of bool_of fround hooks e (mkArgs VSet force false n []) = (e, CFailure, []) /\
    (forall extra, t_cmd t || force = false ->
       handle int_of float_of bool_of fround hooks e (mkArgs VSet force false n extra) = (e, CFailure, []) /\
       handle int_of float_of bool_of fround hooks e (mkArgs VToggle force false n extra) = (e, CFailure, [])).
Proof.
  intros * T.
  assert (P : negb (t_cmd t) && negb force = negb (t_cmd t || force))
    by (destruct (t_cmd t), force; reflexivity).
  split; [|split; [|split]].
  - intros v rest e' C S. unfold handle. cbn [a_remote a_verb orb a_chan a_force a_extra].
    rewrite T, P, C. cbn [negb]. unfold do_set. cbn [a_extra a_chan]. rewrite S. reflexivity.
  - intros v rest x C X S. unfold handle. cbn [a_remote a_verb orb a_chan a_force a_extra].
    rewrite T, P, C. cbn [negb]. unfold do_set. cbn [a_extra a_chan]. rewrite S.
    destruct x; reflexivity || congruence.
  - unfold handle. cbn [a_remote a_verb orb a_chan a_force a_extra]. rewrite T.
    destruct (negb _ && negb _); reflexivity.
  - intros extra C. unfold handle. cbn [a_remote a_verb orb a_chan a_force a_extra].
    rewrite T, P, C. split; reflexivity.
Qed.

Theorem C31_get_and_unknown :
  forall int_of float_of bool_of fround hooks e n force extra,
    (forall v, e_exists e (inl n) = true -> e_value e (inl n) true true = Ok v ->
       handle int_of float_of bool_of fround hooks e (mkArgs VGet force false n extra) = (e, CValue v, [])) /\
    (e_target e (inl n) = None ->
       handle int_of float_of bool_of fround hooks e (mkArgs VSet force false n extra) = (e, CFailure, []) /\
       handle int_of float_of bool_of fround hooks e (mkArgs VToggle force false n extra) = (e, CFailure, [])).
Proof.
  intros *. split.
  - intros v X V. unfold handle. cbn [a_remote a_verb orb a_chan]. rewrite X, V. reflexivity.
  - intros T. unfold handle. cbn [a_remote a_verb orb a_chan]. rewrite T. split; reflexivity.
Qed.

(** C31.  If no name denotes both a channel and a field: when a command without
    force changes a primitive, that primitive belongs to the named target and
    the target is commandable; nothing else of the environment changes. *)
Theorem C31_only_commandable_partial :
  forall int_of float_of bool_of fround hooks e a e' r calls,
    no_collision e -> a_force a = false ->
    handle int_of float_of bool_of fround hooks e a = (e', r, calls) ->
    same_shape e e' /\
    forall p, e_cell e' p <> e_cell e p ->
      exists t, e_target e (inl (a_chan a)) = Some t /\ t_cmd t = true /\ t_ref t = p.
Proof.
  intros * N F H. split; [eapply handle_same_shape; eauto|]. intros p D.
  destruct (handle_target _ _ _ _ _ _ _ _ _ _ N H p D) as (t & T & [C|C] & R); [|congruence].
  exists t. auto.
Qed.
Print Assumptions C31_only_commandable_partial.

(** C31.  Over every history of commands without force: a primitive behind no
    commandable channel or field keeps its value. *)
Theorem C31_history_partial :
  forall int_of float_of bool_of fround hooks l e e' out p,
    no_collision e -> Forall (fun a => a_force a = false) l ->
    commands int_of float_of bool_of fround hooks e l = (e', out) ->
    ~ commandable_prim e p -> e_cell e' p = e_cell e p.
Proof. intros * N F H C. eapply commands_only; eauto. Qed.
Print Assumptions C31_history_partial.

(** A small environment used by the examples: a commandable 8-bit channel, a
    boolean channel that is not commandable, and a register with two fields. *)
Definition xint (s : string) : option Z :=
  if eq_dec s "7" then Some 7 else if eq_dec s "300" then Some 300 else None.
Definition xbool (s : string) : option bool :=
  if eq_dec s "true" then Some true else if eq_dec s "false" then Some false else None.
Definition xenum : option renum :=
  e_new_int (fun _ => true) [ByName "idle" 3; ByName "busy" 1].
Definition xenums (k : string + Z) : option renum :=
  match k with inl n => if eq_dec n "Mode" then xenum else None | inr _ => None end.
Definition xrun := run (fun _ => true) xint (fun _ => None) xbool (fun _ f => f) xenums.
Definition xhandle := handle xint (fun _ => None) xbool (fun _ f => f).
Definition demo_ops : list op :=
  [OPrim U8 []; OPrim KBool []; OPrim U8 []; OPrim U16 [1#1; 2#1];
   OChannel "level" 0 true None; OChannel "ready" 1 false None;
   OChannel "mode" 2 true (Some (inl "Mode")); OPrim U8 []; OChannel "temp" 3 true None;
   OAddField 4 (mkField "lo" 0 4 None true None);
   OAddField 4 (mkField "flag" 5 1 None true None); OFinalize true].
Definition demo : env := xrun e_new demo_ops.
Example demo_nocoll : forallb (fun n => negb (dmem n (e_lookup demo))) (dkeys (e_chans demo)) = true
  /\ e_has_field demo (inl "lo") = true /\ e_has_field demo (inr 5) = true.
Proof. vm_compute. repeat split. Qed.
Example demo_set :
  let '(e, r, _) := xhandle [0%nat] demo (mkArgs VSet false false "level" ["300"]) in
  e_value e (inl "level") true true = Ok (CNum (NInt 255)) /\ r = CSuccess /\
  e_value e (inl "ready") true true = Ok (CNum (NBool false)).
Proof. vm_compute. repeat split. Qed.
Example demo_refused :
  snd (fst (xhandle [0%nat] demo (mkArgs VToggle false false "ready" []))) = CFailure /\
  snd (fst (xhandle [0%nat] demo (mkArgs VToggle true false "ready" []))) = CSuccess.
Proof. vm_compute. split; reflexivity. Qed.

Example demo_command_is_call :
  snd (fst (xhandle [1%nat] demo (mkArgs VSet false false "mode" ["busy"; "idle"]))) = CSuccess /\
  e_value (fst (fst (xhandle [1%nat] demo (mkArgs VSet false false "mode" ["busy"; "idle"])))) (inl "mode") true true
    = Ok (CStr "busy") /\
  snd (fst (xhandle [1%nat] demo (mkArgs VSet false false "mode" ["broken"]))) = CFailure /\
  snd (fst (xhandle [1%nat] demo (mkArgs VGet false false "mode" []))) = CRaise XKey /\
  snd (fst (xhandle [1%nat] demo (mkArgs VGet false false "level" []))) = CValue (CNum (NInt 0)).
Proof. vm_compute. repeat split. Qed.
Print Assumptions C31_command_is_call.
Print Assumptions C31_get_and_unknown.

(** C31 is false without the hypothesis: a channel and a field may share a
    name.  Commandability is checked on the channel, but set writes the field,
    so a command without force changes a field that is not commandable. *)
Theorem C31_name_collision_refuted :
  exists ops a e e' calls,
    xrun e_new ops = e /\ a_force a = false /\
    xhandle [] e a = (e', CSuccess, calls) /\
    (exists r f, e_get_field e (inl (a_chan a)) = Some (r, f) /\ fl_cmd f = false) /\
    e_value e (inl (a_chan a)) true true = Ok (CNum (NInt 0)) /\
    e_value e' (inl (a_chan a)) true true = Ok (CNum (NInt 7)).
Proof.
  exists [OPrim U8 []; OPrim U8 []; OAddField 0 (mkField "x" 0 4 None false None);
          OFinalize true; OBypass true; OChannel "x" 1 true None].
  exists (mkArgs VSet false false "x" ["7"]). do 3 eexists.
  split; [vm_compute; reflexivity|]. split; [reflexivity|]. split; [vm_compute; reflexivity|].
  split; [do 2 eexists; split; vm_compute; reflexivity|]. split; vm_compute; reflexivity.
Qed.
Print Assumptions C31_name_collision_refuted.

(** The same without the bypass: the channel is created before finalization. *)
Example collision_before_finalize :
  let e := xrun e_new [OPrim U8 []; OPrim U8 []; OChannel "x" 1 true None;
                       OAddField 0 (mkField "x" 0 4 None false None); OFinalize true] in
  e_get e (inl "x") = Some (mkChan 1 true None) /\ e_has_field e (inl "x") = true.
Proof. vm_compute. split; reflexivity. Qed.

(** ** C32 *)

(** C32.  The hooks run once each, in registration order, exactly when the
    command is remote or custom, or is accepted and not a local GET. *)
Theorem C32_hooks :
  forall int_of float_of bool_of fround hooks e a e' r calls,
    handle int_of float_of bool_of fround hooks e a = (e', r, calls) ->
    (passes_through a = true -> map fst calls = hooks /\ Forall (fun c => snd c = None) calls) /\
    (passes_through a = false -> accepted r = true -> is_get a = false ->
       map fst calls = hooks /\ Forall (fun c => snd c = e_target e (inl (a_chan a))) calls) /\
    (passes_through a = false -> accepted r = false \/ is_get a = true -> calls = []).
Proof.
  intros * H. apply handle_hooks in H.
  assert (Q : forall t, map fst (map (fun h : nat => (h, t)) hooks) = hooks /\
              Forall (fun c : nat * option target => snd c = t) (map (fun h => (h, t)) hooks)).
  { intros t. split; [rewrite map_map; apply map_id|]. apply Forall_forall. intros c Hc.
    apply in_map_iff in Hc as (h & <- & _). reflexivity. }
  split; [|split].
  - intros P. rewrite P in H. subst calls. apply Q.
  - intros P A G. rewrite P, A, G in H. cbn in H. subst calls. apply Q.
  - intros P C. rewrite P in H. destruct (accepted r) eqn:A; cbn in H; [|exact H].
    destruct C as [C|C]; [discriminate|]. rewrite C in H. exact H.
Qed.
Print Assumptions C32_hooks.

(** C32.  Over a history: every hook is called once per remote, custom or
    accepted non-GET command. *)
Theorem C32_history :
  forall int_of float_of bool_of fround hooks l e e' out,
    commands int_of float_of bool_of fround hooks e l = (e', out) ->
    map (fun rc => map fst (snd rc)) out =
    map (fun ar : args * reply =>
           if passes_through (fst ar) || (accepted (snd ar) && negb (is_get (fst ar)))
           then hooks else []) (combine l (map fst out)).
Proof.
  induction l as [|a l IH]; cbn; intros e e' out H; [injection H as _ <-; reflexivity|].
  destruct (handle _ _ _ _ hooks e a) as [[e1 r] calls] eqn:H1.
  destruct (commands _ _ _ _ hooks e1 l) as [e2 out2] eqn:H2. injection H as _ <-.
  cbn. f_equal; [|eapply IH; eauto]. apply handle_hooks in H1. subst calls.
  destruct (passes_through a); cbn; [rewrite map_map; apply map_id|].
  destruct (accepted r && negb (is_get a)); [rewrite map_map; apply map_id|reflexivity].
Qed.
Print Assumptions C32_history.

Example demo_hooks :
  snd (xhandle [4; 2]%nat demo (mkArgs VSet false false "level" ["7"])) =
    [(4, Some (TChan (mkChan 0 true None))); (2, Some (TChan (mkChan 0 true None)))]%nat /\
  snd (xhandle [4; 2]%nat demo (mkArgs VGet false false "level" [])) = [] /\
  snd (xhandle [4; 2]%nat demo (mkArgs VSet false false "level" ["x"])) = [] /\
  snd (xhandle [4; 2]%nat demo (mkArgs VSet false true "nothing" [])) = [(4, None); (2, None)]%nat.
Proof. vm_compute. repeat split. Qed.

(** ** C33 *)
Section C33.
  Context (valid : string -> bool) (int_of : string -> option Z)
    (float_of : string -> option flo) (bool_of : string -> option bool)
    (fround : kind -> flo -> flo) (enums : string + Z -> option renum).
  Notation e_set := (e_set int_of float_of bool_of fround).
  Notation reachable := (env_reachable valid int_of float_of bool_of fround enums).

  (** C33.  Setting an unscaled integer channel: the value read back is the
      representable number nearest to the one set (equal to it when it is
      representable); with scaled=False it wraps modulo the width instead. *)
  Theorem C33_set_int :
    forall e k ch c bits sg v z,
      e_has_field e k = false -> e_get e k = Some ch -> e_cell e (ch_ref ch) = Some c ->
      int_kind (c_kind c) bits sg -> c_scaling c = [] -> ch_enum ch = None ->
      v = CNum (NInt z) \/ (exists s, v = CStr s /\ int_of s = Some z) ->
      (exists e' w, e_set e k v true = Ok e' /\
         e_value e' k true true = Ok (CNum (NInt w)) /\ nearest bits sg z w /\
         (representable bits sg z -> w = z)) /\
      (exists e' w, e_set e k v false = Ok e' /\
         e_value e' k true false = Ok (CNum (NInt w)) /\
         representable bits sg w /\ (w - z) mod 2 ^ bits = 0).
  Proof.
    intros e k ch c bits sg v z H1 H2 H3 Hk Hs He Hv.
    pose proof (resolve_int int_of float_of bool_of c bits sg v z Hk Hs Hv) as R.
    split.
    - destruct (cell_set_scaled_int fround c bits sg z Hk Hs) as (w & N & S).
      exists (e_put e (ch_ref ch) (mkCell (c_kind c) [] (RI w))), w.
      split; [|split; [|split; [exact N|intros Q; eapply nearest_id; eauto]]].
      + eapply set_channel; eauto. rewrite He. exact R.
      + rewrite (value_channel e k ch c) by assumption. rewrite He. cbv zeta iota.
        unfold cell_get_scaled. cbn [c_scaling]. rewrite (cell_get_int _ _ _ bits sg) by exact Hk. reflexivity.
    - exists (e_put e (ch_ref ch) (mkCell (c_kind c) (c_scaling c) (RI (k_store (c_kind c) z)))), (k_store (c_kind c) z).
      destruct (store_spec _ _ _ z Hk) as (S1 & S2 & _).
      split; [|split; [|split; [exact S1|exact S2]]].
      + eapply set_channel; eauto; [rewrite He; exact R|]. apply (cell_set_int fround c bits sg). exact Hk.
      + rewrite (value_channel e k ch c) by assumption. rewrite He. cbv zeta iota.
        rewrite (cell_get_int _ _ _ bits sg) by exact Hk. reflexivity.
  Qed.

  (** C33.  Boolean channels read back what was set. *)
  Theorem C33_set_bool :
    forall e k ch c v b sc sc',
      e_has_field e k = false -> e_get e k = Some ch -> e_cell e (ch_ref ch) = Some c ->
      c_kind c = KBool -> c_scaling c = [] -> ch_enum ch = None ->
      v = CNum (NBool b) \/ (exists s, v = CStr s /\ bool_of s = Some b) ->
      exists e', e_set e k v sc = Ok e' /\ e_value e' k true sc' = Ok (CNum (NBool b)).
  Proof.
    intros e k ch c v b sc sc' H1 H2 H3 Hk Hs He Hv.
    pose proof (resolve_bool int_of float_of bool_of c v b Hk Hv) as R.
    exists (e_put e (ch_ref ch) (mkCell KBool [] (RI (z_of_bool b)))). split.
    - eapply set_channel; eauto; [rewrite He; exact R|]. apply cell_set_bool; assumption.
    - rewrite (value_channel e k ch c) by assumption. rewrite He. cbv zeta iota.
      destruct sc', b; reflexivity.
  Qed.

  (** C33.  Floating-point channels without scaling read back the number set,
      rounded to what the kind can store. *)
  Theorem C33_set_float :
    forall e k ch c v f sc sc',
      e_has_field e k = false -> e_get e k = Some ch -> e_cell e (ch_ref ch) = Some c ->
      float_kind (c_kind c) -> c_scaling c = [] -> ch_enum ch = None ->
      v = CNum (NFlo f) \/ (exists s, v = CStr s /\ float_of s = Some f) ->
      exists e', e_set e k v sc = Ok e' /\
        e_value e' k true sc' = Ok (CNum (NFlo (fround (c_kind c) f))).
  Proof.
    intros e k ch c v f sc sc' H1 H2 H3 Hk Hs He Hv.
    assert (Hk' : k_is_float (c_kind c) = true) by (destruct Hk as [->|[->| ->]]; reflexivity).
    clear Hk. rename Hk' into Hk.
    assert (I : k_is_int (c_kind c) = false) by (destruct (c_kind c); cbn in *; congruence).
    assert (R : resolve int_of float_of bool_of c None v = Ok (NFlo f)).
    { destruct Hv as [->|(s & -> & E)]; [reflexivity|]. unfold resolve. rewrite I, Hk, E. reflexivity. }
    assert (S : (if sc : bool then cell_set_scaled fround c (NFlo f) else cell_set fround c (NFlo f)) =
                Ok (mkCell (c_kind c) [] (RF (fround (c_kind c) f)))).
    { unfold cell_set_scaled, cell_set. rewrite I, Hk, Hs. cbn. destruct sc; reflexivity. }
    eexists. split.
    - eapply set_channel; eauto. rewrite He. exact R.
    - rewrite (value_channel e k ch c) by assumption. rewrite He. cbv zeta iota.
      unfold cell_get_scaled, cell_get. cbn [c_scaling c_raw]. destruct sc'; reflexivity.
  Qed.

  (** C33.  An integer channel scaled by [offset + scale * raw]: setting the
      finite number [q] stores the representable integer nearest to the rounded
      quotient, and the value read back is the polynomial at that integer. *)
  Theorem C33_set_scaled :
    forall e k ch c bits sg q offset scale,
      e_has_field e k = false -> e_get e k = Some ch -> e_cell e (ch_ref ch) = Some c ->
      int_kind (c_kind c) bits sg -> c_scaling c = [offset; scale] -> ~ (scale == 0)%Q ->
      ch_enum ch = None ->
      exists e' w q', e_set e k (CNum (NFlo (FFin q))) true = Ok e' /\
        nearest bits sg (py_round ((q - offset) / scale)) w /\
        e_value e' k true true = Ok (CNum (NFlo (FFin q'))) /\
        (q' == offset + scale * inject_Z w)%Q.
  Proof.
    intros e k ch c bits sg q offset scale H1 H2 H3 Hk Hs Hz He.
    destruct (int_kind_bits _ _ _ Hk) as (_ & _ & I).
    pose proof (bounds_of _ _ _ Hk) as B. set (b := if sg then _ else _) in *.
    set (x := py_round ((q - offset) / scale)).
    pose proof (clamp_nearest _ _ _ _ x Hk B) as N.
    assert (S : cell_set_scaled fround c (NFlo (FFin q)) =
                Ok (mkCell (c_kind c) [offset; scale] (RI (b_clamp b x)))).
    { unfold cell_set_scaled. rewrite I, Hs. cbn [f_invert to_flo].
      destruct (Qeq_bool scale 0) eqn:Q0; [apply Qeq_bool_iff in Q0; contradiction|].
      cbn [fadd fmul f_round]. change (py_round ((q + - offset) * / scale)) with x. rewrite B.
      rewrite (cell_set_int fround c bits sg) by exact Hk. rewrite Hs, store_id; [reflexivity|].
      apply (int_kind_value _ _ _ _ Hk). apply N. }
    eexists. exists (b_clamp b x). eexists. split; [|split; [exact N|split]].
    - eapply set_channel; eauto. reflexivity.
    - rewrite (value_channel e k ch c) by assumption. rewrite He. cbv zeta iota.
      unfold cell_get_scaled. cbn [c_scaling]. rewrite (cell_get_int _ _ _ bits sg) by exact Hk.
      cbn [to_flo f_loop fadd fmul]. reflexivity.
    - ring.
  Qed.

  (** C33.  Enumerated channels: setting a name of the enumeration reads back as
      that name, provided the channel can hold its value. *)
  Theorem C33_set_enum :
    forall e k ch c m n z,
      enums_ok valid enums -> reachable e ->
      e_has_field e k = false -> e_get e k = Some ch -> e_cell e (ch_ref ch) = Some c ->
      c_scaling c = [] -> ch_enum ch = Some m -> enum_pair m n z ->
      (exists bits sg, int_kind (c_kind c) bits sg /\ representable bits sg z) \/
      (c_kind c = KBool /\ exists b, m = EBool b) ->
      exists e', e_set e k (CStr n) true = Ok e' /\ e_value e' k true true = Ok (CStr n).
  Proof.
    intros e k ch c m n z Eo Re H1 H2 H3 Hs He Hp Hc.
    pose proof (reachable_wf _ _ _ _ _ _ _ Re) as W.
    assert (Rm : e_reachable valid m).
    { unfold e_get in H2. destruct (e_name e k) as [nm|]; [|discriminate].
      destruct (w_chans _ _ W _ _ H2) as (_ & _ & En). destruct (En m He) as [kk Ek]. apply (Eo kk). exact Ek. }
    pose proof (enum_translates valid int_of bool_of m Rm n z Hp) as (T1 & _ & T2 & _).
    destruct Hc as [(bits & sg & Hk & Hr)|(Hk & b & ->)].
    - destruct (cell_set_scaled_int fround c bits sg z Hk Hs) as (w & N & S).
      apply nearest_id in N; [|exact Hr]. subst w. eexists. split.
      + eapply set_channel; eauto. rewrite He. unfold resolve. destruct Hk; rewrite T2; reflexivity.
      + rewrite (value_channel e k ch c) by assumption. rewrite He. cbv zeta iota.
        unfold cell_get_scaled. cbn [c_scaling]. rewrite (cell_get_int _ _ _ bits sg) by exact Hk.
        rewrite enum_num, T1. reflexivity.
    - assert (exists bb, z = z_of_bool bb) as [bb ->].
      { unfold enum_pair in Hp. cbn in Hp. apply in_map_iff in Hp as (x & E & _). injection E as _ <-. eauto. }
      pose proof (enum_pair_bool valid int_of bool_of b bb n Rm Hp) as G.
      exists (e_put e (ch_ref ch) (mkCell KBool [] (RI (z_of_bool bb)))). split.
      + eapply set_channel with (n := NBool bb); eauto.
        * rewrite He. unfold resolve. rewrite Hk, G. reflexivity.
        * pose proof (cell_set_bool fround c bb true Hk Hs) as Q. cbn in Q |- *. exact Q.
      + rewrite (value_channel e k ch c) by assumption. rewrite He. cbv zeta iota.
        replace (cell_get_scaled (mkCell KBool [] (RI (z_of_bool bb)))) with (NBool bb)
          by (destruct bb; reflexivity).
        rewrite enum_bool_num, T1. reflexivity.
  Qed.

  (** C33.  Bit fields inside their register: a number reads back modulo
      [2^width]. *)
  Theorem C33_set_field :
    forall e k r f c z sc,
      reachable e -> e_get_field e k = Some (r, f) -> e_cell e r = Some c ->
      fl_index f + fl_width f <= k_bits (c_kind c) ->
      exists e', e_set e k (CNum (NInt z)) sc = Ok e' /\
        e_value e' k false true =
          Ok (CNum (if fl_width f =? 1 then NBool (Z.odd z) else NInt (z mod 2 ^ fl_width f))).
  Proof.
    intros e k r f c z sc Re G Hc Hi. pose proof (reachable_wf _ _ _ _ _ _ _ Re) as W.
    destruct (get_field_ok _ e k r f W G) as (c1 & raw & Hc1 & R & Kv & I & I1 & I2 & _ & _ & Hf & _).
    assert (c1 = c) by congruence. subst c1.
    destruct (is_int_kind _ I) as (bits & sg & Hk). destruct (int_kind_bits _ _ _ Hk) as (Eb & _ & _).
    eexists. split.
    - destruct (set_field_num int_of float_of bool_of fround e k r f _ z Hf G eq_refl) as [A B].
      destruct sc; [rewrite A|rewrite B]; eapply field_write_get; eauto.
    - rewrite (value_field e k r f c) by assumption. cbv zeta. unfold cell_field_read. cbn [c_raw].
      rewrite (read_write _ bits sg) by (assumption || lia).
      assert (E : forall x : res cval, (match fl_enum f with Some _ => x | None => x end) = x)
        by (destruct (fl_enum f); reflexivity).
      rewrite E. destruct (Z.eqb_spec (fl_width f) 1) as [->|]; [|reflexivity].
      rewrite Z.pow_1_r, Zmod_odd. destruct (Z.odd z); reflexivity.
  Qed.

  (** C33.  Enumerated fields: a name reads back as that name when its value
      fits in the field. *)
  Theorem C33_set_field_enum :
    forall e k r f c m n z sc,
      enums_ok valid enums -> reachable e ->
      e_get_field e k = Some (r, f) -> e_cell e r = Some c ->
      fl_index f + fl_width f <= k_bits (c_kind c) ->
      (exists ek, fl_enum f = Some ek /\ enums ek = Some m) ->
      enum_pair m n z -> 0 <= z < 2 ^ fl_width f ->
      exists e', e_set e k (CStr n) sc = Ok e' /\ e_value e' k true true = Ok (CStr n).
  Proof.
    intros e k r f c m n z sc Eo Re G Hc Hi (ek & Fe & Em) Hp Hz.
    pose proof (reachable_wf _ _ _ _ _ _ _ Re) as W.
    destruct (get_field_ok _ e k r f W G) as (c1 & raw & Hc1 & R & Kv & I & I1 & I2 & _ & _ & Hf & Hn).
    assert (c1 = c) by congruence. subst c1.
    destruct (is_int_kind _ I) as (bits & sg & Hk). destruct (int_kind_bits _ _ _ Hk) as (Eb & _ & _).
    assert (Fl : dget (fl_name f) (e_flenum e) = Some m).
    { pose proof G as G'. unfold e_get_field in G'. rewrite Hn in G'.
      destruct (dget (fl_name f) (e_lookup e)) as [i|] eqn:L; [|discriminate].
      destruct (w_lookup _ e W _ i L) as (_ & b & bf & f' & A1 & A2 & A3 & A4).
      rewrite A1, A2, A3 in G'. injection G' as _ E. rewrite E in A4. eapply A4; eauto. }
    pose proof (enum_translates valid int_of bool_of m (Eo _ _ Em) n z Hp) as (T1 & _ & T2 & _).
    eexists. split.
    - unfold EnvModel.e_set. rewrite Hf. unfold e_set_field. rewrite G, Fl, T2.
      eapply field_write_get; eauto.
    - rewrite (value_field e k r f c) by assumption. cbv zeta. unfold cell_field_read. cbn [c_raw].
      rewrite (read_write _ bits sg) by (assumption || lia). rewrite Z.mod_small by exact Hz.
      rewrite Fe, Hn, Fl, enum_num, T1. reflexivity.
  Qed.

  (** C33.  A successful set changes the value of no key that lives in another
      primitive. *)
  Theorem C33_others_unchanged :
    forall e k v sc e' k' re sc',
      e_set e k v sc = Ok e' -> set_ref e k' <> set_ref e k ->
      e_value e' k' re sc' = e_value e k' re sc'.
  Proof.
    intros e k v sc e' k' re sc' H D. apply set_shape in H as (r & c & Hr & ->).
    apply value_other. congruence.
  Qed.

  (** C33.  Fields on disjoint bits of one register do not disturb each
      other. *)
  Theorem C33_disjoint_fields :
    forall e k k' v sc e' r f f' c re sc',
      reachable e -> e_set e k v sc = Ok e' ->
      e_get_field e k = Some (r, f) -> e_get_field e k' = Some (r, f') -> e_cell e r = Some c ->
      fl_index f' + fl_width f' <= k_bits (c_kind c) ->
      disjoint (fl_index f, fl_width f) (fl_index f', fl_width f') ->
      e_value e' k' re sc' = e_value e k' re sc'.
  Proof.
    intros e k k' v sc e' r f f' c re sc' Re S G G' Hc Hi D.
    pose proof (reachable_wf _ _ _ _ _ _ _ Re) as W.
    destruct (get_field_ok _ e k r f W G) as (c1 & raw & Hc1 & R & Kv & I & I1 & I2 & _ & _ & Hf & _).
    assert (c1 = c) by congruence. subst c1.
    destruct (get_field_ok _ e k' r f' W G') as (c2 & raw2 & _ & _ & _ & _ & J1 & J2 & _ & _ & Hf' & _).
    destruct (is_int_kind _ I) as (bits & sg & Hk). destruct (int_kind_bits _ _ _ Hk) as (Eb & _ & _).
    assert (exists z, e_field_write e r f z = Ok e') as [z Hz].
    { unfold EnvModel.e_set in S. rewrite Hf in S. unfold e_set_field in S. rewrite G in S.
      destruct v as [s|[z|b|fl]]; try discriminate; eauto.
      destruct (dget (fl_name f) (e_flenum e)) as [m|].
      - destruct (e_get_int int_of bool_of m (VStr s)); [eauto|discriminate].
      - destruct (bool_of s); [eauto|]. destruct (int_of s); [eauto|discriminate]. }
    rewrite (field_write_get e k r f z c raw G Hc R) in Hz. injection Hz as <-.
    eapply value_disjoint; eauto. lia.
  Qed.

  (** C33.  Setting an unscaled integer or boolean channel to the value read
      from it changes nothing (enumerated or not; a boolean channel needs a
      boolean enumeration). *)
  Theorem C33_set_own_value :
    forall e k ch c v,
      enums_ok valid enums -> reachable e ->
      e_has_field e k = false -> e_get e k = Some ch -> e_cell e (ch_ref ch) = Some c ->
      ~ float_kind (c_kind c) -> c_scaling c = [] ->
      (c_kind c = KBool -> forall r, ch_enum ch <> Some (EInt r)) ->
      e_value e k true true = Ok v -> e_set e k v true = Ok e.
  Proof.
    intros e k ch c v Eo Re H1 H2 H3 Fl' Hs Hb Hv.
    assert (Fl : k_is_float (c_kind c) = false)
      by (unfold float_kind in Fl'; destruct (c_kind c); try reflexivity; exfalso; apply Fl'; auto).
    clear Fl'.
    pose proof (reachable_wf _ _ _ _ _ _ _ Re) as W.
    pose proof (w_cells _ e W _ _ H3) as Ok. unfold cell_ok in Ok.
    destruct (c_raw c) as [z|] eqn:R; [|congruence]. destruct Ok as [_ Kv].
    unfold e_value in Hv. rewrite H1, H2, H3 in Hv. cbv zeta iota in Hv.
    unfold cell_get_scaled in Hv. rewrite Hs in Hv. unfold cell_get in Hv. rewrite R in Hv.
    assert (Put : e_put e (ch_ref ch) c = e).
    { unfold e_put. rewrite upd_same by exact H3. apply with_heap_same. }
    assert (Rm : forall m, ch_enum ch = Some m -> e_reachable valid m).
    { intros m Hm. unfold e_get in H2. destruct (e_name e k) as [nm|]; [|discriminate].
      destruct (w_chans _ _ W _ _ H2) as (_ & _ & En). destruct (En m Hm) as [kk Ek]. apply (Eo kk). exact Ek. }
    assert (Back : forall n, resolve int_of float_of bool_of c (ch_enum ch) v = Ok n ->
              cell_set_scaled fround c n = Ok c -> e_set e k v true = Ok e).
    { intros n Q1 Q2. rewrite (set_channel int_of float_of bool_of fround e k ch c v true n c) by assumption.
      rewrite Put. reflexivity. }
    destruct (k_cases (c_kind c)) as [(I & _ & NB)|[(_ & F & _)|B]]; [|congruence|].
    - destruct (is_int_kind _ I) as (bits & sg & Hk).
      assert (Sc : cell_set_scaled fround c (NInt z) = Ok c).
      { destruct (cell_set_scaled_int fround c bits sg z Hk Hs) as (w & N & S).
        apply nearest_id in N; [|apply (int_kind_value _ _ _ _ Hk); exact Kv]. subst w. rewrite S.
        destruct c; cbn in *. congruence. }
      apply (Back (NInt z)); [|exact Sc].
      assert (Hn : (match c_kind c with KBool => NBool (negb (z =? 0)) | _ => NInt z end) = NInt z)
        by (destruct (c_kind c); try reflexivity; congruence).
      rewrite Hn in Hv. destruct (ch_enum ch) as [m|] eqn:En.
      + rewrite enum_num in Hv. destruct (e_get_str m (VInt z)) as [s|] eqn:Es; [|discriminate].
        injection Hv as <-. pose proof (enum_back valid int_of bool_of m z s (Rm m eq_refl) Es) as P.
        pose proof (enum_translates valid int_of bool_of m (Rm m eq_refl) s z P) as (_ & _ & T2 & _).
        unfold resolve. destruct Hk; rewrite T2; reflexivity.
      + injection Hv as <-. reflexivity.
    - rewrite B in Hv. rewrite B in Kv. cbn [k_value] in Kv.
      set (b := negb (z =? 0)) in *.
      assert (Ez : z = z_of_bool b) by (destruct Kv as [->| ->]; reflexivity).
      assert (Sc : cell_set_scaled fround c (NBool b) = Ok c).
      { pose proof (cell_set_bool fround c b true B Hs) as Q. cbn in Q. rewrite Q. destruct c; cbn in *. congruence. }
      apply (Back (NBool b)); [|exact Sc].
      destruct (ch_enum ch) as [m|] eqn:En.
      + rewrite enum_bool_num, <- Ez in Hv. destruct (e_get_str m (VInt z)) as [s|] eqn:Es; [|discriminate].
        injection Hv as <-. pose proof (enum_back valid int_of bool_of m z s (Rm m eq_refl) Es) as P.
        destruct m as [r|mb]; [exfalso; apply (Hb B r); reflexivity|]. rewrite Ez in P.
        pose proof (enum_pair_bool valid int_of bool_of mb b s (Rm _ eq_refl) P) as Q.
        unfold resolve. rewrite B, Q. reflexivity.
      + injection Hv as <-. reflexivity.
  Qed.

  (** ** C34 *)

  Definition toggle_of (n : string) (force : bool) : args := mkArgs VToggle force false n [].

  (** C34.  Toggling a boolean channel succeeds, negates it, touches no other
      primitive, and doing it twice restores the environment. *)
  Theorem C34_toggle_channel :
    forall hooks e n force ch c,
      reachable e ->
      e_target e (inl n) = Some (TChan ch) -> ch_cmd ch || force = true ->
      e_cell e (ch_ref ch) = Some c -> c_kind c = KBool ->
      exists e1 calls calls', 
        handle int_of float_of bool_of fround hooks e (toggle_of n force) = (e1, CSuccess, calls) /\
        (exists c1, e_cell e1 (ch_ref ch) = Some c1 /\
           forall b, cell_get c = NBool b -> cell_get c1 = NBool (negb b)) /\
        (forall p, p <> ch_ref ch -> e_cell e1 p = e_cell e p) /\
        handle int_of float_of bool_of fround hooks e1 (toggle_of n force) = (e, CSuccess, calls').
  Proof.
    intros hooks e n force ch c Re T Cm Hc K.
    pose proof (reachable_wf _ _ _ _ _ _ _ Re) as W.
    pose proof (w_cells _ e W _ _ Hc) as Ok. unfold cell_ok in Ok. rewrite K in Ok.
    destruct (c_raw c) as [z|] eqn:R; [|discriminate]. destruct Ok as [_ Kv]. cbn in Kv.
    set (c1 := mkCell KBool (c_scaling c) (RI (if z =? 0 then 1 else 0))).
    set (e1 := e_put e (ch_ref ch) c1).
    assert (C' : negb (ch_cmd ch) && negb force = false) by (destruct (ch_cmd ch), force; cbn in *; congruence).
    assert (S1 : same_shape e e1) by apply same_shape_put.
    assert (Hc1 : e_cell e1 (ch_ref ch) = Some c1) by (eapply put_cell_same; eauto).
    exists e1. do 2 eexists. split; [|split; [|split]].
    - unfold handle, toggle_of. cbn [a_remote a_verb orb a_chan a_force]. rewrite T. cbn [t_cmd]. rewrite C'.
      unfold do_toggle. rewrite Hc, K, R. reflexivity.
    - exists c1. split; [exact Hc1|]. intros b. unfold cell_get. rewrite R, K. cbn.
      intros X; injection X as <-. destruct (z =? 0); reflexivity.
    - intros p Hp. apply put_cell_other. exact Hp.
    - unfold handle, toggle_of. cbn [a_remote a_verb orb a_chan a_force].
      rewrite (shape_target _ _ S1), T. cbn [t_cmd]. rewrite C'.
      unfold do_toggle. rewrite Hc1. cbn [c_kind c_raw c_scaling c1].
      assert (Back : e_put e1 (ch_ref ch) (mkCell KBool (c_scaling c)
                (RI (if (if z =? 0 then 1 else 0) =? 0 then 1 else 0))) = e).
      { replace (mkCell _ _ _) with c.
        - unfold e1, e_put. cbn [e_heap with_heap]. rewrite upd_upd, (upd_same _ _ _ Hc). destruct e; reflexivity.
        - destruct c; cbn in *. subst. destruct Kv as [->| ->]; reflexivity. }
      rewrite Back. reflexivity.
  Qed.

  (** C34.  Toggling a bit field complements its bits (negates a flag), changes
      no other bit or primitive, and doing it twice restores the environment. *)
  Theorem C34_toggle_field :
    forall hooks e n force r f c raw,
      reachable e ->
      e_target e (inl n) = Some (TField r f) -> fl_cmd f || force = true ->
      e_cell e r = Some c -> c_raw c = RI raw ->
      fl_index f + fl_width f <= k_bits (c_kind c) ->
      exists e1 calls calls' raw1,
        handle int_of float_of bool_of fround hooks e (toggle_of n force) = (e1, CSuccess, calls) /\
        e_cell e1 r = Some (mkCell (c_kind c) (c_scaling c) (RI raw1)) /\
        (forall j, 0 <= j < k_bits (c_kind c) ->
           Z.testbit raw1 j =
           if (fl_index f <=? j) && (j <? fl_index f + fl_width f)
           then negb (Z.testbit raw j) else Z.testbit raw j) /\
        (forall p, p <> r -> e_cell e1 p = e_cell e p) /\
        handle int_of float_of bool_of fround hooks e1 (toggle_of n force) = (e, CSuccess, calls').
  Proof.
    intros hooks e n force r f c raw Re T Cm Hc R Hi.
    pose proof (reachable_wf _ _ _ _ _ _ _ Re) as W.
    pose proof (target_field e (inl n) r f T) as G.
    destruct (get_field_ok _ e (inl n) r f W G) as (c1 & raw' & Hc1 & R' & Kv & I & I1 & I2 & _ & _ & Hf & _).
    assert (c1 = c) by congruence. subst c1. assert (raw' = raw) by congruence. subst raw'.
    destruct (is_int_kind _ I) as (bits & sg & Hk). destruct (int_kind_bits _ _ _ Hk) as (Eb & _ & _).
    set (raw1 := fst (bf_invert (c_kind c) raw (fl_index f) (fl_width f))).
    set (c1 := mkCell (c_kind c) (c_scaling c) (RI raw1)).
    set (e1 := e_put e r c1).
    assert (C' : negb (fl_cmd f) && negb force = false) by (destruct (fl_cmd f), force; cbn in *; congruence).
    assert (S1 : same_shape e e1) by apply same_shape_put.
    assert (Hc1' : e_cell e1 r = Some c1) by (eapply put_cell_same; eauto).
    exists e1. do 2 eexists. exists raw1. split; [|split; [exact Hc1'|split; [|split]]].
    - unfold handle, toggle_of. cbn [a_remote a_verb orb a_chan a_force]. rewrite T. cbn [t_cmd]. rewrite C'.
      unfold do_toggle. rewrite Hc. unfold e_field_write, cell_field_write, cell_field_read. rewrite Hc, R.
      reflexivity.
    - intros j Hj. unfold raw1, bf_invert. rewrite (write_bit _ bits sg) by (assumption || lia).
      destruct ((fl_index f <=? j) && (j <? fl_index f + fl_width f)) eqn:E; [|reflexivity].
      rewrite Z.lnot_spec, read_bit by lia. replace (j - fl_index f <? fl_width f) with true by lia.
      cbn [andb]. do 2 f_equal. lia.
    - intros p Hp. apply put_cell_other. exact Hp.
    - unfold handle, toggle_of. cbn [a_remote a_verb orb a_chan a_force].
      rewrite (shape_target _ _ S1), T. cbn [t_cmd]. rewrite C'.
      unfold do_toggle. rewrite Hc1'. unfold e_field_write, cell_field_write, cell_field_read. rewrite Hc1'.
      cbn [c_raw c1 c_kind c_scaling].
      destruct (C14_invert_twice (c_kind c) bits sg raw (fl_index f) (fl_width f) Hk Kv I1 I2) as [_ Back]; [lia|].
      fold raw1 in Back. unfold bf_invert in Back. rewrite Back.
      assert (E : e_put e1 r (mkCell (c_kind c) (c_scaling c) (RI raw)) = e).
      { replace (mkCell _ _ _) with c by (destruct c; cbn in *; congruence).
        unfold e1, e_put. cbn [e_heap with_heap]. rewrite upd_upd, (upd_same _ _ _ Hc). destruct e; reflexivity. }
      rewrite E. reflexivity.
  Qed.

  (** C34.  Toggling anything but a boolean channel or a field fails and
      changes nothing. *)
  Theorem C34_toggle_rejected :
    forall hooks e n force ch c,
      e_target e (inl n) = Some (TChan ch) -> e_cell e (ch_ref ch) = Some c -> c_kind c <> KBool ->
      handle int_of float_of bool_of fround hooks e (toggle_of n force) = (e, CFailure, []).
  Proof.
    intros hooks e n force ch c T Hc K. unfold handle, toggle_of.
    cbn [a_remote a_verb orb a_chan a_force]. rewrite T. destruct (negb _ && negb force); [reflexivity|].
    unfold do_toggle. rewrite Hc. destruct (c_kind c); try reflexivity. congruence.
  Qed.
End C33.
Print Assumptions C33_set_int.
Print Assumptions C33_set_bool.
Print Assumptions C33_set_float.
Print Assumptions C33_set_scaled.
Print Assumptions C33_set_enum.
Print Assumptions C33_set_field.
Print Assumptions C33_set_field_enum.
Print Assumptions C33_others_unchanged.
Print Assumptions C33_disjoint_fields.
Print Assumptions C33_set_own_value.
Print Assumptions C34_toggle_channel.
Print Assumptions C34_toggle_field.
Print Assumptions C34_toggle_rejected.

Example demo_values :
  let set n v := EnvModel.e_set xint (fun _ => None) xbool (fun _ f => f) demo (inl n) v in
  let get (r : res env) n := match r with Ok e => e_value e (inl n) true true | Err x => Err x end in
  get (set "level" (CNum (NInt 300)) true) "level" = Ok (CNum (NInt 255)) /\
  get (set "level" (CNum (NInt 300)) false) "level" = Ok (CNum (NInt 44)) /\
  get (set "mode" (CStr "busy") true) "mode" = Ok (CStr "busy") /\
  get (set "lo" (CNum (NInt 300)) true) "lo" = Ok (CNum (NInt 12)) /\
  get (set "flag" (CStr "true") true) "flag" = Ok (CNum (NBool true)) /\
  get (set "flag" (CStr "true") true) "lo" = Ok (CNum (NInt 0)) /\
  get (set "mode" (CStr "7") true) "mode" = Err XKey.
Proof. vm_compute. repeat split. Qed.

(** ** C35 *)
Section C35.
  Context (valid : string -> bool) (int_of : string -> option Z)
    (float_of : string -> option flo) (bool_of : string -> option bool)
    (fround : kind -> flo -> flo) (enums : string + Z -> option renum).
  Notation step := (step valid int_of float_of bool_of fround enums).
  Notation run := (run valid int_of float_of bool_of fround enums).
  Notation reachable := (env_reachable valid int_of float_of bool_of fround enums).

  (** C35.  Once finalized, and as long as the bypass is not entered, no
      history changes the set of channels (or what any of them is); creating
      one raises. *)
  Theorem C35_channels_frozen :
    forall ops e,
      e_finalized e = true -> Forall (fun o => o <> OBypass true) ops ->
      e_chans (run e ops) = e_chans e /\ e_finalized (run e ops) = true /\
      forall n r c en, step (run e ops) (OChannel n r c en) = (run e ops, false).
  Proof.
    assert (G : forall ops e, e_finalized e = true -> Forall (fun o => o <> OBypass true) ops ->
              e_chans (run e ops) = e_chans e /\ e_finalized (run e ops) = true).
    { unfold EnvModel.run. induction ops as [|o ops IH]; intros e F B; [auto|].
      inversion B as [|? ? Bo Br]; subst. cbn [fold_left].
      destruct (step_chans valid int_of float_of bool_of fround enums e o F) as [A1 A2].
      destruct (IH _ (A2 Bo) Br) as [B1 B2]. split; congruence. }
    intros ops e F B. destruct (G ops e F B) as [A1 A2]. split; [exact A1|]. split; [exact A2|].
    intros. cbn [EnvModel.step]. unfold e_channel. rewrite A2. reflexivity.
  Qed.

  (** C35.  Finalizing again with strict=True raises. *)
  Theorem C35_strict_twice_raises :
    forall e e' s, reachable e -> e_bypass e = false ->
      step e (OFinalize s) = (e', true) -> snd (step e' (OFinalize true)) = false.
  Proof.
    intros e e' s Re By H. apply reachable_wf in Re. cbn [EnvModel.step] in *.
    pose proof (finalize_settles valid int_of float_of bool_of enums e s e' Re By H) as S.
    unfold e_finalize.
    destruct (adds_chans valid enums (e_toadd e') e' true) as (_ & B & C). unfold adds in B, C.
    destruct (fold_left _ (e_toadd e') (e', true)) as [e2 ok]. cbn [fst] in B, C.
    destruct ok; cbn [negb snd]; [|reflexivity].
    pose proof (s_final _ _ S) as F. unfold e_finalized in F. unfold e_finalized. rewrite B, C, F. reflexivity.
  Qed.

  (** C35 (fields, part).  After a successful finalization, a history without
      add_field and without the bypass never changes which channel or field any
      key denotes.  Missing: add_field itself, see the refutation. *)
  Theorem C35_fields_frozen_partial :
    forall ops e e' s,
      reachable e -> e_bypass e = false -> step e (OFinalize s) = (e', true) ->
      Forall (fun o => match o with OAddField _ _ => False | OBypass on => on = false | _ => True end) ops ->
      forall k, e_target (run e' ops) k = e_target e' k /\ e_exists (run e' ops) k = e_exists e' k.
  Proof.
    intros ops e e' s Re By H F k. apply reachable_wf in Re. cbn [EnvModel.step] in H.
    pose proof (finalize_settles valid int_of float_of bool_of enums e s e' Re By H) as S.
    destruct (settled_run valid int_of float_of bool_of fround enums ops e' S F) as [A B].
    destruct (frozen_target enums e' _ k A) as (Q1 & Q2 & Q3). split.
    - unfold e_target. rewrite Q1, Q2. reflexivity.
    - unfold e_exists. rewrite Q1, Q3; [reflexivity|apply S|apply B].
  Qed.

  (** C35.  Creating a channel: when the call returns, the name was free, and it
      now denotes exactly the requested channel; every other name denotes what
      it did.  When the name is taken the call raises and nothing it denotes
      changes. *)
  Theorem C35_create_channel :
    forall e n r cmd en e' ok,
      reachable e -> step e (OChannel n r cmd en) = (e', ok) ->
      (ok = true ->
         e_get e (inl n) = None /\
         exists m, e_get e' (inl n) = Some (mkChan r cmd m) /\
                   m = match en with Some k => enums k | None => None end /\
                   (en <> None -> m <> None)) /\
      (e_get e (inl n) <> None -> ok = false /\ e_get e' (inl n) = e_get e (inl n)) /\
      (forall n', n' <> n -> e_get e' (inl n') = e_get e (inl n')).
  Proof.
    intros e n r cmd en e' ok Re H. apply reachable_wf in Re.
    pose proof (w_names _ e Re) as M. cbn [EnvModel.step] in H. unfold e_channel in H.
    destruct (e_finalized e); [injection H as <- <-; repeat split; auto; discriminate|].
    destruct (negb _); [injection H as <- <-; repeat split; auto; discriminate|].
    destruct (r_register valid (e_names e) n None) as [n1 out] eqn:R.
    destruct (register_known valid e n n1 out M R) as (M1 & X & I).
    assert (Old : forall k c, e_get e (inl k) = Some c -> dget k (e_chans e) = Some c).
    { intros k c G. unfold e_get, e_name, m_name_str in G. destruct (dmem k _); [exact G|discriminate]. }
    assert (Get : forall (e2 : env) k, r_map (e_names e2) = r_map n1 ->
              dget k (e_chans e2) = dget k (e_chans e) -> e_get e2 (inl k) = e_get e (inl k)).
    { intros e2 k E1 E2. unfold e_get, e_name, m_name_str. rewrite E1.
      destruct (dget k (e_chans e)) as [c|] eqn:D.
      - destruct (w_chans _ e Re _ _ D) as (_ & K & _). unfold dmem.
        pose proof (ext_known e n1 k X K) as K1. unfold known in K.
        destruct (dget k (m_rev (r_map (e_names e)))); [|congruence].
        destruct (dget k (m_rev (r_map n1))); [congruence|congruence].
      - destruct (dmem k (m_rev (r_map n1))), (dmem k (m_rev (r_map (e_names e)))); congruence. }
    assert (Fail : ok = false -> r_map (e_names e') = r_map n1 -> e_chans e' = e_chans e ->
              (ok = true -> e_get e (inl n) = None /\
                 exists m, e_get e' (inl n) = Some (mkChan r cmd m) /\
                           m = match en with Some k => enums k | None => None end /\ (en <> None -> m <> None)) /\
              (e_get e (inl n) <> None -> ok = false /\ e_get e' (inl n) = e_get e (inl n)) /\
              (forall n', n' <> n -> e_get e' (inl n') = e_get e (inl n'))).
    { intros -> E1 E2. split; [discriminate|]. split; [intros _; split; [reflexivity|]|intros n' _];
        apply Get; rewrite ?E1, ?E2; reflexivity. }
    destruct out as [[i|]| |]; try (injection H as <- <-; apply Fail; reflexivity).
    destruct (dmem n (e_chans (with_names e n1))) eqn:D; [injection H as <- <-; apply Fail; reflexivity|].
    apply dmem_false in D. cbn in D.
    assert (None_ : e_get e (inl n) = None).
    { destruct (e_get e (inl n)) as [c|] eqn:G; [|reflexivity]. apply Old in G. congruence. }
    assert (New : forall ch, e_get (with_chans (with_names e n1) (dset n ch (e_chans (with_names e n1)))) (inl n) = Some ch).
    { intros ch. unfold e_get, e_name, m_name_str, dmem. cbn. rewrite (I i eq_refl). apply dget_dset_eq. }
    assert (Oth : forall ch n', n' <> n ->
              e_get (with_chans (with_names e n1) (dset n ch (e_chans (with_names e n1)))) (inl n') = e_get e (inl n')).
    { intros ch n' Hn. apply Get; [reflexivity|]. cbn. apply dget_dset_ne. exact Hn. }
    split; [|split; [intros C; congruence|]].
    - intros ->. split; [exact None_|].
      destruct en as [k|]; [destruct (enums k) as [m|] eqn:En|]; injection H as <-; try discriminate;
        eexists; (split; [apply New|]); split; congruence.
    - intros n' Hn. destruct en as [k|]; [destruct (enums k) as [m|] eqn:En|]; injection H as <- _; apply Oth; exact Hn.
  Qed.

  (** C35.  No history ever removes or alters an existing channel, nor the
      definition of a field of an existing register. *)
  Theorem C35_nothing_lost :
    forall ops e, reachable e ->
      (forall k ch, e_get e k = Some ch -> e_get (run e ops) k = Some ch) /\
      (forall b bf n f, nth_error (e_bfs e) b = Some bf -> dget n (bf_fields bf) = Some f ->
         exists bf', nth_error (e_bfs (run e ops)) b = Some bf' /\ bf_ref bf' = bf_ref bf /\
                     dget n (bf_fields bf') = Some f).
  Proof.
    intros ops e Re. apply reachable_wf in Re.
    pose proof (run_keeps valid int_of float_of bool_of fround enums ops e Re) as K.
    split; [intros k ch; apply keeps_get; exact K|]. apply K.
  Qed.

  (** C35.  Each further non-strict finalization appends every pending
      register again to the list the environment exports. *)
  Theorem C35_refinalize_duplicates :
    forall e e', reachable e -> step e (OFinalize false) = (e', true) ->
      e_mgr e' = e_mgr e ++ e_toadd e /\ e_toadd e' = e_toadd e.
  Proof.
    intros e e' Re H. apply reachable_wf in Re. cbn [EnvModel.step] in H. unfold e_finalize in H.
    fold (adds valid enums (e_toadd e) (e, true)) in H.
    destruct (adds valid enums (e_toadd e) (e, true)) as [e1 ok] eqn:A. destruct ok; [|discriminate].
    cbn in H. injection H as <-.
    apply adds_true in A as (_ & _ & _ & _ & G & _ & _ & _ & _ & T & _); [|exact int_of|exact float_of|exact bool_of|exact Re].
    cbn. split; congruence.
  Qed.
End C35.
Print Assumptions C35_channels_frozen.
Print Assumptions C35_create_channel.
Print Assumptions C35_nothing_lost.
Print Assumptions C35_strict_twice_raises.
Print Assumptions C35_fields_frozen_partial.
Print Assumptions C35_refinalize_duplicates.

Example demo_create :
  e_get demo (inl "level") = Some (mkChan 0 true None) /\ e_get demo (inl "ready") = Some (mkChan 1 false None) /\
  (exists m, e_get demo (inl "mode") = Some (mkChan 2 true (Some m))) /\
  snd (EnvModel.step (fun _ => true) xint (fun _ => None) xbool (fun _ x => x) xenums
         (fst (e_set_bypass demo true)) (OChannel "level" 1 true None)) = false.
Proof.
  split; [vm_compute; reflexivity|]. split; [vm_compute; reflexivity|].
  split; [eexists; vm_compute; reflexivity|]. vm_compute. reflexivity.
Qed.

(** C35 is false for fields: add_field returns normally on a finalized
    environment, and the next non-strict finalization (each connection restart
    makes one) brings the field into existence. *)
Theorem C35_field_after_finalize_refuted :
  exists e f e1 e2,
    e = demo /\ e_finalized e = true /\
    EnvModel.step (fun _ => true) xint (fun _ => None) xbool (fun _ x => x) xenums e (OAddField 4 f) = (e1, true) /\
    EnvModel.step (fun _ => true) xint (fun _ => None) xbool (fun _ x => x) xenums e1 (OFinalize false) = (e2, true) /\
    e_exists e (inl "late") = false /\ e_exists e2 (inl "late") = true /\
    e_mgr e = [0%nat] /\ e_mgr e2 = [0%nat; 0%nat].
Proof.
  exists demo, (mkField "late" 6 2 None true None). do 2 eexists.
  split; [reflexivity|]. split; [vm_compute; reflexivity|]. split; [vm_compute; reflexivity|].
  split; [vm_compute; reflexivity|]. vm_compute; repeat split.
Qed.
Print Assumptions C35_field_after_finalize_refuted.

(** C35.  A channel whose enumeration does not exist stays registered although
    the call that creates it raises. *)
Example channel_with_unknown_enum :
  let r := e_channel (fun _ => true) xenums (xrun e_new [OPrim U8 []]) "c" 0 true (Some (inl "Nope")) in
  snd r = false /\ e_exists (fst r) (inl "c") = true.
Proof. vm_compute. split; reflexivity. Qed.
