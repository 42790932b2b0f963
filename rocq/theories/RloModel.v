(** The boundary of initial Roche-lobe overflow: posydon/grids/termination_flags.py:307-399, and its use in
    posydon/grids/psygrid.py when a grid is created (1260-1353) and when grids are joined (2583-2661).
    Masses and periods are rationals; float rounding, NaN and infinities are left out. *)
From Coq Require Import String List Bool ZArith QArith Qabs.
From Verif Require Import PyBase.
Import ListNotations.
Open Scope string_scope.
Open Scope list_scope.

Definition qlt (a b : Q) : bool := negb (Qle_bool b a).

(** The flags of a run: termination_flag_1 to 4 and interpolation_class. *)
Record flags := Flags { tf1 : string; tf2 : string; tf3 : string; tf4 : string; icls : string }.
(** The columns star_1_mass, star_2_mass and period_days of the initial values are read here; [others] stands for the rest. *)
Record values := Values { vm1 : Q; vm2 : Q; vper : Q; others : list (string * Q) }.
Record run := Run { path : string; ini : values; fin : flags }.
(** An entry of the list of detected systems: the flags 3 and 4 are missing in the default of line 383. *)
Record system := System { sm1 : Q; sm2 : Q; sper : Q; sflags : option (string * string) }.

Definition OVERFLOWING := "Terminate because of overflowing initial model".

(** termination_flags.py:336-337 and psygrid.py:2595-2596; abs(a - b) is symmetric. *)
Definition same_masses (a b : system) : bool := qlt (Qabs (sm1 a - sm1 b)) (1 # 100000) && qlt (Qabs (sm2 a - sm2 b)) (1 # 100000).
(** termination_flags.py:333-359 and psygrid.py:2592-2603: every entry of the same masses and shorter period is replaced; the loop
    replaces only the entry it is at, so it is a map. *)
Definition add_system (detected : list system) (new : system) : list system :=
  if existsb (fun d => same_masses d new) detected
  then map (fun d => if same_masses d new && qlt (sper d) (sper new) then new else d) detected
  else detected ++ [ new ].
Definition system_of (r : run) : system := System (vm1 (ini r)) (vm2 (ini r)) (vper (ini r)) (Some (tf3 (fin r), tf4 (fin r))).
(** termination_flags.py:322-360 *)
Definition get_detected_initial_RLO (grid : list run) : list system :=
  fold_left (fun detected r => if String.eqb (tf1 (fin r)) OVERFLOWING then add_system detected (system_of r) else detected) grid [].
(** psygrid.py:2586-2603 *)
Definition merge_detected (grids : list (list run)) : list system :=
  fold_left (fun detected grid => fold_left add_system (get_detected_initial_RLO grid) detected) grids [].

(** utils/limits_thresholds.py: MIN_COUNT_INITIAL_RLO_BOUNDARY *)
Definition MIN_COUNT_INITIAL_RLO_BOUNDARY : nat := 20.
Definition nothing : system := System 0 0 0 None.
(** termination_flags.py:391-398 *)
Fixpoint nearest_loop (m1 m2 : Q) (known : list system) (d2min : Q) (nearest : system) : system :=
  match known with
  | [] => nearest
  | s :: known' =>
    let d2 := (m1 - sm1 s) * (m1 - sm1 s) + (m2 - sm2 s) * (m2 - sm2 s) in
    if qlt d2 d2min then nearest_loop m1 m2 known' d2 s else nearest_loop m1 m2 known' d2min nearest
  end.
(** termination_flags.py:381-399; 1.0e+99 is taken exactly. *)
Definition get_nearest_known_initial_RLO (m1 m2 : Q) (known : list system) : system :=
  if Nat.ltb (length known) MIN_COUNT_INITIAL_RLO_BOUNDARY then nothing
  else nearest_loop m1 m2 known (inject_Z (10 ^ 99)) nothing.

(** psygrid.py:1264-1267 and 1293-1301; 2587-2588 and 2650-2658. *)
Definition forced (nearest : system) (f : flags) : flags :=
  match sflags nearest with
  | Some (a, b) => Flags "forced_initial_RLO" "forced_initial_RLO" a b "initial_MT"
  | None => Flags "forced_initial_RLO" "forced_initial_RLO" (tf3 f) (tf4 f) "initial_MT"
  end.

(** ** Creating a grid *)
(** inlist_grid_points of a run, or None if there is no such file. *)
Definition point := option (list (string * Q)).
Definition get_or (k : string) (default : Q) (p : list (string * Q)) : Q := match dget String.eqb p k with Some v => v | None => default end.
(** psygrid.py:1302-1305 *)
Definition set_value (v : values) (kv : string * Q) : values :=
  let '(k, x) := kv in
  if String.eqb k "star_1_mass" then Values x (vm2 v) (vper v) (others v)
  else if String.eqb k "star_2_mass" then Values (vm1 v) x (vper v) (others v)
  else if String.eqb k "period_days" then Values (vm1 v) (vm2 v) x (others v)
  else if existsb (fun p => String.eqb k (fst p)) (others v) then Values (vm1 v) (vm2 v) (vper v) (dset String.eqb (others v) k x)
  else v.
(** A run while the grid is made: [at_index] is run_included_at, None for -1. *)
Record slot := Slot { srun : run; at_index : option nat; grid_point : point }.
(** One iteration of 1268-1319, with run_index and MESA_dirs. *)
Definition fix_slot (known : list system) (s : slot) (run_index : nat) (dirs : list string) : result (slot * nat * list string) :=
  let r := srun s in
  if String.eqb (tf1 (fin r)) OVERFLOWING then Ok (s, run_index, dirs)
  else match grid_point s with
  | None => Raise TypeError
  | Some p =>
    let nearest := get_nearest_known_initial_RLO (get_or "star_1_mass" (vm1 (ini r)) p) (get_or "star_2_mass" (vm2 (ini r)) p) known in
    if qlt (get_or "period_days" (vper (ini r)) p) (sper nearest) then
      let r' := Run (path r) (fold_left set_value p (ini r)) (forced nearest (fin r)) in
      match at_index s with
      | None => Ok (Slot r' (Some run_index) (grid_point s), S run_index, dirs ++ [ path r ])
      | Some _ => Ok (Slot r' (at_index s) (grid_point s), run_index, dirs)
      end
    else Ok (s, run_index, dirs)
  end.
Fixpoint fix_slots (known : list system) (l : list slot) (run_index : nat) (dirs : list string) : result (list slot * nat * list string) :=
  match l with
  | [] => Ok ([], run_index, dirs)
  | s :: l' => rbind (fix_slot known s run_index dirs) (fun t => let '(s', i, d) := t in
               rbind (fix_slots known l' i d) (fun u => let '(rest, i', d') := u in Ok (s' :: rest, i', d')))
  end.
Definition initial_RLO_fix (l : list slot) (run_index : nat) (dirs : list string) : result (list slot * nat * list string) :=
  fix_slots (get_detected_initial_RLO (map srun l)) l run_index dirs.
(** Rows of the new tables, 1325-1353: None for a row nothing was copied to. *)
Fixpoint set_nth {A} (l : list A) (i : nat) (x : A) : list A :=
  match l, i with [], _ => [] | _ :: l', O => x :: l' | y :: l', S i' => y :: set_nth l' i' x end.
Definition store (l : list slot) (run_index : nat) : list (option (values * flags)) :=
  fold_left (fun rows s => match at_index s with
                           | Some i => if Nat.leb run_index i then rows else set_nth rows i (Some (ini (srun s), fin (srun s)))
                           | None => rows
                           end) l (repeat None run_index).

(** ** Joining grids: psygrid.py:2641-2658 for one run *)
Definition join_fix (known : list system) (r : run) : run :=
  if String.eqb (tf1 (fin r)) OVERFLOWING || String.eqb (tf1 (fin r)) "forced_initial_RLO" then r
  else let nearest := get_nearest_known_initial_RLO (vm1 (ini r)) (vm2 (ini r)) known in
       if qlt (vper (ini r)) (sper nearest) then Run (path r) (ini r) (forced nearest (fin r)) else r.
