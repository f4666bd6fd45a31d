(** Model of making HTTP requests: runtimepy/net/tcp/http/__init__.py
    [HttpConnection.request] (126-142), [process_binary] (174-203), with the
    server's [process_binary] at the other end.

    Requests carry the number under which they were made; a response carries the
    number of the request it answers.  The two directions of the TCP connection are
    queues of whole messages (HttpModel and C25, C26 say how they are framed).
    asyncio: a task runs until it awaits something that is not there; any task that
    can go on may be the next one to do so.  The bounded semaphore lets one holder
    in; who of those waiting comes next is left open. *)
From Verif Require Import Base.
Open Scope list_scope.

Record ex := mkEx {
  x_line : list nat;            (* calls of [request] waiting for the semaphore *)
  x_turn : option nat;          (* the call that holds it, waiting for [responses.get] *)
  x_expecting : bool;           (* [expecting_response] *)
  x_queue : option nat;         (* [responses], at most one *)
  x_putting : option nat;       (* the reading task, suspended in [responses.put] *)
  x_reading : bool;             (* the client's reading task has not failed *)
  x_spoiled : bool;             (* the parser holds the lines of a header it refused *)
  x_to_server : list nat;       (* requests on their way *)
  x_to_client : list nat;       (* responses on their way *)
  x_sent : list nat;            (* requests ever sent *)
  x_results : list (nat * nat); (* calls that returned, with the response returned *)
  x_cancelled : list nat        (* calls that were cancelled *)
}.
Definition ex_init : ex := mkEx [] None false None None true false [] [] [] [] [].

Inductive event :=
| Call (i : nat)                (* [request] is called (in a task of its own) *)
| Acquire (i : nat)             (* the semaphore admits a waiting call *)
| Wake                          (* [responses.get] returns *)
| Cancel (i : nat)              (* a call is cancelled, by a timeout for instance *)
| Serve                         (* the server handles a request *)
| Deliver                       (* the client's reading task gets a response *)
| Put                           (* the suspended [responses.put] goes on *)
| Lost                          (* the connection breaks *)
| Restart.                      (* and is restarted *)

(** 129-142, inside the semaphore: send, then expect. *)
Definition acquire (s : ex) (i : nat) : ex :=
  mkEx (remove Nat.eq_dec i (x_line s)) (Some i) true (x_queue s) (x_putting s) (x_reading s) (x_spoiled s)
       (x_to_server s ++ [i]) (x_to_client s) (x_sent s ++ [i]) (x_results s) (x_cancelled s).
(** 139-142: the next response in the queue is the result. *)
Definition wake (s : ex) (i r : nat) : ex :=
  mkEx (x_line s) None false None (x_putting s) (x_reading s) (x_spoiled s)
       (x_to_server s) (x_to_client s) (x_sent s) (x_results s ++ [(i, r)]) (x_cancelled s).
(** Cancelled while holding the semaphore: it is released ([async with]); nothing
    else is undone. *)
Definition cancel (s : ex) (i : nat) : ex :=
  if existsb (Nat.eqb i) (x_line s)
  then mkEx (remove Nat.eq_dec i (x_line s)) (x_turn s) (x_expecting s) (x_queue s) (x_putting s) (x_reading s) (x_spoiled s)
            (x_to_server s) (x_to_client s) (x_sent s) (x_results s) (x_cancelled s ++ [i])
  else match x_turn s with
       | Some j => if Nat.eqb i j
                   then mkEx (x_line s) None (x_expecting s) (x_queue s) (x_putting s) (x_reading s) (x_spoiled s)
                             (x_to_server s) (x_to_client s) (x_sent s) (x_results s) (x_cancelled s ++ [i])
                   else s
       | None => s
       end.
(** 177-203: an expected response is put in the queue, which holds one; when none is
    expected the bytes are read as a request, which raises
    ([C88_response_is_no_request]) and leaves the lines of that header in the parser, so
    that every later header raises as well ([C88_refused_header_stays]). *)
Definition deliver (s : ex) (r : nat) (rest : list nat) : ex :=
  let put q p ok := mkEx (x_line s) (x_turn s) (x_expecting s) q p ok (negb ok)
                         (x_to_server s) rest (x_sent s) (x_results s) (x_cancelled s) in
  if x_expecting s && negb (x_spoiled s)
  then match x_queue s with None => put (Some r) None true | Some q => put (Some q) (Some r) true end
  else put (x_queue s) None false.

Definition step (s : ex) (e : event) : ex :=
  match e with
  | Call i => mkEx (x_line s ++ [i]) (x_turn s) (x_expecting s) (x_queue s) (x_putting s) (x_reading s) (x_spoiled s)
                   (x_to_server s) (x_to_client s) (x_sent s) (x_results s) (x_cancelled s)
  | Acquire i => match x_turn s with
                 | None => if existsb (Nat.eqb i) (x_line s) then acquire s i else s
                 | Some _ => s
                 end
  | Wake => match x_turn s, x_queue s with Some i, Some r => wake s i r | _, _ => s end
  | Cancel i => cancel s i
  | Serve => match x_to_server s with
             | i :: rest => mkEx (x_line s) (x_turn s) (x_expecting s) (x_queue s) (x_putting s) (x_reading s) (x_spoiled s)
                                 rest (x_to_client s ++ [i]) (x_sent s) (x_results s) (x_cancelled s)
             | [] => s
             end
  | Deliver => match x_putting s, x_to_client s with
               | None, r :: rest => if x_reading s then deliver s r rest else s
               | _, _ => s
               end
  | Put => match x_putting s, x_queue s with
           | Some r, None => mkEx (x_line s) (x_turn s) (x_expecting s) (Some r) None (x_reading s) (x_spoiled s)
                                  (x_to_server s) (x_to_client s) (x_sent s) (x_results s) (x_cancelled s)
           | _, _ => s
           end
  (* the transport goes, with what is on its way; the reading task ends *)
  | Lost => mkEx (x_line s) (x_turn s) (x_expecting s) (x_queue s) None false (x_spoiled s)
                 [] [] (x_sent s) (x_results s) (x_cancelled s)
  (* a new transport; [init] (64-78) does not run again: semaphore, flag, queue and
     parser stay as they are *)
  | Restart => mkEx (x_line s) (x_turn s) (x_expecting s) (x_queue s) None true (x_spoiled s)
                    [] [] (x_sent s) (x_results s) (x_cancelled s)
  end.
Definition run (s : ex) (es : list event) : ex := fold_left step es s.
