(** Vocabulary for commands sent as POST requests. *)
From Coq Require Import Ascii.
From Verif Require Import Base PyStrModel HttpModel EnvModel CmdLineModel CmdLineSpec PostModel.
Open Scope list_scope.
Open Scope Z_scope.

(** A part of a request: not empty and not ".", and free of the characters that
    end it ("/", "?" and the space). *)
Definition plain (x : str) : Prop := x <> [] /\ x <> lit "." /\ ~ In 47 x /\ ~ In 63 x /\ ~ In 32 x.

(** The lines "POST /part/part...<rest> HTTP/1.1" and the given further lines. *)
Definition post_line (parts : list str) (rest : str) : str :=
  lit "POST /" ++ join 47 parts ++ rest ++ lit " HTTP/1.1".
Definition headers_ok (hs : list str) : Prop := exists h, hd_parse [] hs = Some h.
(** What may stand behind the path: nothing, or a query. *)
Definition query (q : str) : Prop := q = [] \/ (exists r, q = 63 :: r) /\ ~ In 32 q.

(** The registered names, each with its processor. *)
Definition registered (w : world) (n : str) (i : nat) : Prop := In (n, i) (w_names w).
Definition known (w : world) (n : str) : Prop := exists i, registered w n i.

(** Two worlds that differ in the environment of processor [i] only, which became [e]. *)
Definition only_env (w w' : world) (i : nat) (e : env) : Prop :=
  w_names w' = w_names w /\
  forall j, nth_error (w_procs w') j =
    if Nat.eqb j i then option_map (fun p => mkProc e (pr_hooks p)) (nth_error (w_procs w) j)
    else nth_error (w_procs w) j.

(** The names are registered once and for processors there are. *)
Definition sound (w : world) : Prop :=
  NoDup (map fst (w_names w)) /\ forall n i, registered w n i -> (i < List.length (w_procs w))%nat.

(** The first registration of a name in a history is for [i]. *)
Definition first_reg (os : list op) (n : str) (i : nat) : Prop :=
  exists a b, os = a ++ Register n i :: b /\ forall j, ~ In (Register n j) a.

(** What the answer to a command that was run says. *)
Inductive reports (args : list str) : reply -> outcome -> Prop :=
| rep_done : reports args CSuccess (OResp 200 (Some (mkBody args true (Some CSuccess) None)))
| rep_value v : reports args (CValue v) (OResp 200 (Some (mkBody args true (Some (CValue v)) None)))
| rep_failed : reports args CFailure (OResp 200 (Some (mkBody args false (Some CFailure) None)))
| rep_raised x : reports args (CRaise x) ORaise.

(** The result of giving processor [i] something to do ([act], from its hooks and
    environment): the environment and the hooks called are [act]'s, nothing else
    changes, and the answer reports the reply. *)
Definition did (act : list nat -> env -> env * reply * list (nat * option target))
  (w : world) (i : nat) (args : list str) (res : world * outcome * list (nat * option target)) : Prop :=
  exists p e r calls, nth_error (w_procs w) i = Some p /\ act (pr_hooks p) (pr_env p) = (e, r, calls) /\
    only_env w (fst (fst res)) i e /\ reports args r (snd (fst res)) /\ snd res = calls.

(** The answer to a request that runs no command. *)
Definition refused (w : world) (args : list str) (res : world * outcome * list (nat * option target)) : Prop :=
  res = (w, OResp 200 (Some (mkBody args false None (Some (map fst (w_names w))))), []).

(** Characters that cannot be part of a word of a request. *)
Definition sayable (w : string) : Prop :=
  ~ In "/"%char (list_ascii_of_string w) /\ ~ In "?"%char (list_ascii_of_string w).
Definition bytes_only (lines : list str) : Prop := Forall (Forall (fun c => 0 <= c < 256)) lines.
