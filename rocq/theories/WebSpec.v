(** Specification vocabulary for C93 (the page of the web interface) and C94 (how the
    page is kept). *)
From Coq Require Import QArith.
From Verif Require Import Base WebModel.

Section Spec.
Context {D : Type}.

(** Whether a user may set what a name stands for. *)
Definition commandable (e : entry D) : bool :=
  match e with EChan c => wc_cmd c | EField f => wf_cmd f end.
(** Two states: a boolean channel, a field of one bit. *)
Definition two_state (e : entry D) : bool :=
  match e with EChan c => wc_boolean c | EField f => wf_width f =? 1 end.
Definition enumeration (e : entry D) : option (list (string * Z)) :=
  match e with EChan c => wc_enum c | EField f => wf_enum f end.
Definition current (e : entry D) : Z :=
  match e with EChan c => wc_value c | EField f => wf_value f end.
Definition description (e : entry D) : option string :=
  match e with EChan c => wc_desc c | EField f => wf_desc f end.

(** The elements with which a value can be chosen. *)
Definition chooser (c : ctl D) : bool :=
  match c with Dropdown _ _ | Toggle _ | Input _ => true | _ => false end.
(** The id of an element. *)
Definition ctl_id (c : ctl D) : string :=
  match c with Dropdown i _ | Toggle i | Reset i _ | Input i | Send i | Slider i _ _ _ => i end.

(** The slider that a channel's description asks for and that is drawn. *)
Definition drawn_slider (e : entry D) (s : sliderd) : Prop :=
  match e with
  | EChan c => wc_cmd c = true /\ wc_boolean c = false /\ wc_enum c = None /\ wc_slider c = Some s
  | EField _ => False
  end.
Definition sound_slider (s : sliderd) : Prop :=
  (num_q (sl_min s) < num_q (sl_max s))%Q /\ sl_steps s <> 0.

(** The environments of an application in the order of their tabs: connections, tasks,
    structures, then of every peer the own one and the remote one, at last the two of
    the program if this is a peer itself. *)
Definition peers_of (a : wapp D) : list (wpeer D) :=
  wa_peers a ++ match wa_program a with Some p => [p] | None => [] end.
Definition two_of (p : wpeer D) (l : list (string * wenv D)) : Prop :=
  exists e, snd (pe_remote p) = Some e /\ l = [pe_host p; (fst (pe_remote p), e)].
Definition shown (a : wapp D) (envs : list (string * wenv D)) : Prop :=
  exists ps, Forall2 two_of (peers_of a) ps /\
    envs = wa_conns a ++ wa_tasks a ++ wa_structs a ++ List.concat ps.
End Spec.

(** The last document that was given out under a name. *)
Section Kept.
Context {W Doc : Type}.
Fixpoint last_of (name : string) (l : list (wapplication W Doc * W * option Doc)) : option Doc :=
  match l with
  | [] => None
  | (a, _, r) :: l' =>
      match last_of name l' with
      | Some d => Some d
      | None => if String.eqb name (ap_name a) then r else None
      end
  end.
End Kept.
