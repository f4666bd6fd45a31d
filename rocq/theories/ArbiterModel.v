(** How the arbiter runs initialization methods and applications in stages.

    The methods of a stage run in parallel (asyncio.gather); the order in which
    they end is part of the input.  Time, loggers and the objects handed to the
    methods are left out. *)
From Verif Require Import Base.
Open Scope list_scope.
Open Scope Z_scope.

(** What a method does in the end: it returns an int, raises an Exception, or is
    cancelled (a BaseException, which line 420 does not catch). *)
Inductive outcome := Returned (code : Z) | Raised (exc : Z) | Cancelled.
Record appl := mkApp { a_name : string; a_out : outcome }.
(** A stage and the order in which its methods end. *)
Record stage := mkStage { st_apps : list appl; st_order : list nat }.

(** net/arbiter/result.py:15-39. *)
Inductive rstate := PASS | FAIL | NOT_RUN | EXCEPTION.
Definition state_bool (s : rstate) : bool := match s with PASS => true | _ => false end.
Definition from_int (data : Z) : rstate := if data =? 0 then PASS else FAIL.
(** net/arbiter/result.py:42-49, without the duration. *)
Record result := mkResult { r_method : string; r_state : rstate; r_code : option Z; r_exc : option Z }.
Definition not_run (a : appl) : result := mkResult (a_name a) NOT_RUN None None.

(** What happens: method [i] of stage [s] starts or ends. *)
Inductive tev := Began (s i : nat) | Ended (s i : nat) (o : outcome).

(** asyncio.gather: waits until all have ended or one has raised; then those
    that have not ended go on by themselves. *)
Fixpoint gather (s : nat) (apps : list appl) (order : list nat) : list tev * option outcome :=
  match order with
  | [] => ([], None)
  | i :: order =>
      match nth_error apps i with
      | None => gather s apps order
      | Some a =>
          match a_out a with
          | Returned code => let r := gather s apps order in (Ended s i (Returned code) :: fst r, snd r)
          | o => ([Ended s i o], Some o)
          end
      end
  end.
Definition code_of (a : appl) : Z := match a_out a with Returned code => code | _ => 0 end.
Definition total (apps : list appl) : Z := fold_left (fun t a => t + code_of a) apps 0.

(** How a run goes on: it has a result, or a BaseException propagates. *)
Inductive flow := Result (code : Z) | Propagates.

(** net/arbiter/base.py:385-430 [_run_apps]; [s] is the number of the stage. *)
Definition run_apps (s : nat) (st : stage) : list tev * flow * list (list result) :=
  let apps := st_apps st in
  let begins := map (Began s) (seq 0 (List.length apps)) in
  match gather s apps (st_order st) with
  | (t, None) =>
      (begins ++ t, Result (total apps), [map (fun a => mkResult (a_name a) (from_int (code_of a)) (Some (code_of a)) None) apps])
  | (t, Some (Raised e)) =>
      (begins ++ t, Result (-1), [map (fun a => mkResult (a_name a) EXCEPTION None (Some e)) apps])
  | (t, Some _) => (begins ++ t, Propagates, [])
  end.

(** net/arbiter/base.py:368-383 [_run_apps_list]: the loop, from result [r]. *)
Fixpoint run_loop (s : nat) (r : Z) (sts : list stage) : list tev * flow * list (list result) :=
  match sts with
  | [] => ([], Result r, [])
  | st :: sts =>
      if r =? 0 then
        match run_apps s st with
        | (t, Propagates, res) => (t, Propagates, res)
        | (t, Result r, res) => let '(t', f, res') := run_loop (S s) r sts in (t ++ t', f, res ++ res')
        end
      else
        let '(t', f, res') := run_loop (S s) r sts in (t', f, map not_run (st_apps st) :: res')
  end.
Definition run_apps_list (s : nat) (sts : list stage) : list tev * flow * list (list result) := run_loop s 0 sts.

(** net/arbiter/base.py:278-330 [_main]; [alive] tells that no registered
    connection is disabled, and the second part whether there is an AppInfo. *)
Definition run_main (check alive : bool) (inits apps : list stage) : list tev * flow * option (list (list result)) :=
  if negb check || alive then
    match run_apps_list 0 inits with
    | (t, Result r, res) =>
        if r =? 0 then let '(t', f, res') := run_apps_list (List.length inits) apps in (t ++ t', f, Some (res ++ res'))
        else (t, Result r, Some res)
    | (t, Propagates, res) => (t, Propagates, Some res)
    end
  else ([], Result (-1), None).

(** net/arbiter/result.py:77-90 [log_stage] and 97-111 [results]. *)
Definition stage_success (l : list result) : bool := fold_left (fun b r => b && state_bool (r_state r)) l true.
Definition results_success (l : list (list result)) : bool := fold_left (fun b x => b && stage_success x) l true.

(** net/arbiter/base.py:63-76 [normalize_app]; a list of methods is one stage. *)
Inductive applike := ANone | AOne (p : string) | AMany (l : list string).
Definition normalize_app (init_only : string) (a : applike) : list (list string) :=
  match a with
  | ANone => [[init_only]]
  | AOne p => [[p]]
  | AMany l => [l]
  end.

(** net/arbiter/imports/util.py:16-44 [get_apps]: the configured paths of the
    methods; importing them is left out. *)
Inductive cpath := One (p : string) | Many (l : list string).
Inductive capps := CNone | CStr (p : string) | CList (l : list cpath).
Definition paths_of (c : cpath) : list string := match c with One p => [p] | Many l => l end.
Definition get_apps (c : capps) (wait_for_stop : bool) : list (list string) :=
  let l := match c with CNone => [] | CStr p => [One p] | CList l => l end in
  map paths_of (if wait_for_stop then l ++ [One "runtimepy.net.apps.wait_for_stop"] else l).
(** net/arbiter/config/__init__.py:229-235: the applications to run. *)
Definition configured_apps (dflt : list (list string)) (c : capps) (wait_for_stop : bool) : list (list string) :=
  let apps := get_apps c wait_for_stop in if (match apps with [] => true | _ => false end) then dflt else apps.
