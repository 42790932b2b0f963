(** The processes of a dynamic grid: do_root_process_logic and do_child_process_logic, bin/posydon-run-grid:620-735, and lines 993-1000.

    The processes are a transition system.  The root proposes a point for every child and sends them; then, args.Niter times, it takes the result of any child
    that has finished, adds it to the grid, writes the grid to grid_results.csv, proposes one more point from the grid and sends it to that child.  A child
    receives a point, runs it, sends the result, and starts again, for ever.  A message of the root is received by the child it is for; a result which is sent
    waits until the root takes it.  The proposal of points is any function of the grid, which may raise; the result of a run is any row, or lacks columns of the
    grid (an empty table if anything went wrong, lines 162-173).  DataFrame.append exists only before version 2 of pandas ([has_append]); the project asks for
    version 2.0.0 or later (pyproject.toml:48).  The columns of the points (line 638) and of the results (lines 657-661) and the output for the user are left out. *)
From Coq Require Import String List.
From Verif Require Import PyBase.
Import ListNotations.

Section Processes.
Context {point row : Type}.
(** get_next_grid_point for a first point for each process, and for one more point *)
Variable propose_first : list row -> nat -> result (list point).
Variable propose : list row -> result point.
Variable has_append : bool.
(** the number of processes, args.Niter, and the grid that is loaded *)
Variables (size niter : nat) (start : list row).

Inductive child := Idle | Given (p : point) | Running (p : point) | Reported (p : point) (r : option row).
Inductive phase := Begin | Sending (ps : list point) | Looping (nstep : nat) | Done | Failed (e : exn).
(** [sent]: the points which were sent; [recorded]: the runs whose results are in the grid; [csv]: the table in grid_results.csv, if it was written *)
Record state := State { root : phase; children : list child; sent : list point; recorded : list (point * row); csv : option (list row) }.
Definition init : state := State Begin (repeat Idle (size - 1)) [] [] None.
Definition grid_of (s : state) : list row := start ++ map snd (recorded s).
Fixpoint update (l : list child) (n : nat) (c : child) : list child :=
  match l, n with [] , _ => [] | _ :: r, O => c :: r | x :: r, S n => x :: update r n c end.

Inductive step : state -> state -> Prop :=
(** line 629 *)
| step_propose s ps : root s = Begin -> propose_first (grid_of s) size = Ok ps -> step s (State (Sending ps) (children s) (sent s) (recorded s) (csv s))
| step_propose_fails s e : root s = Begin -> propose_first (grid_of s) size = Raise e -> step s (State (Failed e) (children s) (sent s) (recorded s) (csv s))
(** lines 630-648: the points are sent in the order of the children; [proposed_points[child-1, :]] is an IndexError if there are too few *)
| step_send s ps p : root s = Sending ps -> length (sent s) < size - 1 -> nth_error ps (length (sent s)) = Some p ->
    step s (State (Sending ps) (update (children s) (length (sent s)) (Given p)) (sent s ++ [p]) (recorded s) (csv s))
| step_send_fails s ps : root s = Sending ps -> length (sent s) < size - 1 -> nth_error ps (length (sent s)) = None ->
    step s (State (Failed IndexError) (children s) (sent s) (recorded s) (csv s))
| step_sent s ps : root s = Sending ps -> length (sent s) = size - 1 -> step s (State (Looping 0) (children s) (sent s) (recorded s) (csv s))
(** lines 703-704 *)
| step_receive s c p : nth_error (children s) c = Some (Given p) -> step s (State (root s) (update (children s) c (Running p)) (sent s) (recorded s) (csv s))
(** lines 724-730, with any result *)
| step_report s c p r : nth_error (children s) c = Some (Running p) -> step s (State (root s) (update (children s) c (Reported p r)) (sent s) (recorded s) (csv s))
(** lines 650-697 *)
| step_record s n c p r p' : root s = Looping n -> n < niter -> nth_error (children s) c = Some (Reported p (Some r)) -> has_append = true ->
    propose (grid_of s ++ [r]) = Ok p' ->
    step s (State (Looping (S n)) (update (children s) c (Given p')) (sent s ++ [p']) (recorded s ++ [(p, r)]) (Some (grid_of s ++ [r])))
| step_record_fails s n c p r e : root s = Looping n -> n < niter -> nth_error (children s) c = Some (Reported p (Some r)) -> has_append = true ->
    propose (grid_of s ++ [r]) = Raise e ->
    step s (State (Failed e) (update (children s) c Idle) (sent s) (recorded s ++ [(p, r)]) (Some (grid_of s ++ [r])))
(** lines 663-667 *)
| step_reject s n c p r : root s = Looping n -> n < niter -> nth_error (children s) c = Some (Reported p r) -> r = None \/ has_append = false ->
    step s (State (Failed ValueError) (update (children s) c Idle) (sent s) (recorded s) (csv s))
| step_done s n : root s = Looping n -> niter <= n -> step s (State Done (children s) (sent s) (recorded s) (csv s)).

Inductive steps : state -> state -> Prop :=
| steps_nil s : steps s s
| steps_snoc s s' s'' : steps s s' -> step s' s'' -> steps s s''.
Definition reachable (s : state) : Prop := steps init s.
End Processes.
Arguments child : clear implicits.
Arguments state : clear implicits.
Arguments phase : clear implicits.
