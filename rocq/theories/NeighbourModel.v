(** Model of psyTrackInterp, posydon/interpolation/interpolation.py:31-246: the nearest run of a grid.

    Real arithmetic, [None] for NaN (and, after a logarithm, for infinities: both make scikit-learn raise ValueError).  A run is its initial values by name and its
    interpolation class; loading and pickling are not modelled.  NearestNeighbors with one neighbour is modelled as the first run at the smallest Euclidean distance
    (which of several equally near ones it gives is not specified; no property below depends on it).  Masses of primaries in the grid are assumed not 0. *)
From Coq Require Import String List Bool Reals.
From Verif Require Import PyBase ScalerModel.
Import ListNotations.
Open Scope string_scope.
Open Scope R_scope.
Open Scope list_scope.

Record trun := TRun { t_initial : string -> fl; t_class : string }.
Record config := Config { in_keys : list string; in_q : bool }.
(** Lines 55-58 *)
Definition default_keys : list string := ["star_1_mass"; "star_2_mass"; "period_days"].
(** in_scaling, lines 65-67; one for each of three columns, whatever in_keys is *)
Definition in_scaling (c : config) : list string := ["log"; (if in_q c then "none" else "log"); "log"].

(** list.index *)
Fixpoint index_of (k : string) (l : list string) : result nat :=
  match l with [] => Raise ValueError | x :: l' => if String.eqb x k then Ok 0%nat else rbind (index_of k l') (fun i => Ok (S i)) end.
Fixpoint set_at (i : nat) (v : fl) (l : list fl) : list fl := match l, i with [], _ => [] | _ :: l', O => v :: l' | x :: l', S j => x :: set_at j v l' end.
(** _grid2array, lines 158-186, one row *)
Definition grid_row (c : config) (r : trun) : result (list fl) :=
  let row := map (t_initial r) (in_keys c) in
  if in_q c then rbind (index_of "star_1_mass" (in_keys c)) (fun i1 => rbind (index_of "star_2_mass" (in_keys c)) (fun i2 =>
    Ok (set_at i2 (fdiv (nth i2 row None) (nth i1 row None)) row)))
  else Ok row.
Fixpoint rows_of (c : config) (l : list trun) : result (list (list fl)) := match l with [] => Ok [] | r :: l' => rbind (grid_row c r) (fun x => rbind (rows_of c l') (fun xs => Ok (x :: xs))) end.
(** _binary2array, lines 188-195 *)
Definition binary_row (c : config) (m1 m2 p : R) : list fl := [Some m1; (if in_q c then fdiv (Some m2) (Some m1) else Some m2); Some p].
(** DataScaler fitted with 'log' or 'none', and applied: lines 197-246 *)
Definition scale (how : string) (x : fl) : fl := if String.eqb how "log" then log10 x else x.
Definition normalize (c : config) (row : list fl) : list fl := map (fun p => scale (fst p) (snd p)) (combine (in_scaling c) row).
(** The row as a point; None if an entry is not a finite number *)
Fixpoint point (row : list fl) : option (list R) := match row with [] => Some [] | Some x :: l => option_map (cons x) (point l) | None :: _ => None end.
Fixpoint points (rows : list (list fl)) : result (list (list R)) :=
  match rows with [] => Ok [] | r :: l => match point r with Some x => rbind (points l) (fun xs => Ok (x :: xs)) | None => Raise ValueError end end.

Record model := Model { m_valid : list nat; m_points : list (list R) }.
(** The attributes method, model and valid_ind; scalers are determined by in_scaling once train has been called. *)
Record state := State { s_method : option string; s_scaled : bool; s_model : option model }.
Definition new_state : state := State None false None.

(** train, lines 108-129: the state afterwards and the exception.  valid_ind is replaced before the method is checked; the model not. *)
Definition keep (r : trun) (row : list fl) : bool := negb (String.eqb (t_class r) "not_converged") && match np_sum row with Some _ => true | None => false end.
Definition valid_ind (grid : list trun) (rows : list (list fl)) : list nat :=
  map fst (filter (fun x => keep (fst (snd x)) (snd (snd x))) (combine (seq 0 (length grid)) (combine grid rows))).
Definition train (c : config) (grid : list trun) (method : string) (s : state) : state * option exn :=
  let s := State (Some method) (s_scaled s) (s_model s) in
  match rows_of c grid with
  | Raise e => (s, Some e)
  | Ok rows =>
    if negb (Nat.eqb (length (in_keys c)) 3) then (s, Some ValueError)
    else
      let valid := valid_ind grid rows in
      let s := State (Some method) true (option_map (fun m => Model valid (m_points m)) (s_model s)) in
      if String.eqb method "NearestNeighbor" then
        match points (map (fun i => normalize c (nth i rows [])) valid) with
        | Ok [] => (s, Some ValueError)
        | Ok ps => (State (s_method s) true (Some (Model valid ps)), None)
        | Raise e => (s, Some e)
        end
      else (State None true (s_model s), Some ValueError)
  end.

(** evaluate, lines 131-156: the number of the closest run *)
Fixpoint dist2 (a b : list R) : R := match a, b with x :: a', y :: b' => (x - y) * (x - y) + dist2 a' b' | _, _ => 0 end.
Fixpoint argmin (l : list R) : nat :=
  match l with
  | [] | [_] => 0%nat
  | x :: l' => let j := argmin l' in if Rle_dec x (nth j l' 0) then 0%nat else S j
  end.
Definition evaluate (c : config) (grid : list trun) (s : state) (m1 m2 p : R) : result nat :=
  if negb (Nat.eqb (length (in_keys c)) 3) then Raise (OtherError "AssertionError")
  else if negb (s_scaled s) then Raise TypeError
  else match s_method s with
  | Some "NearestNeighbor" =>
      match s_model s with
      | None => Raise AttributeError
      | Some m => match point (normalize c (binary_row c m1 m2 p)) with
                  | None => Raise ValueError
                  | Some x => let i := argmin (map (dist2 x) (m_points m)) in
                              match nth_error (m_valid m) i with Some k => Ok k | None => Raise IndexError end
                  end
      end
  | _ => Raise AttributeError
  end.
