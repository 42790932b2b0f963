(** The choice of runs of a grid to run again: PSyGrid.rerun, posydon/grids/psygrid.py:1797-1923, and logic_rerun, bin/posydon-run-pipeline:740-954.

    Numbers are rationals, None is NaN.  All columns of flags are texts; a column of numbers would match no flag.  The file grid.csv is the table of its
    columns; the creation of the directory (lines 1825-1826, done even if the function raises later), the output for the user and the text of numbers in
    the file are left out. *)
From Coq Require Import String List Bool ZArith QArith Qround.
From Verif Require Import PyBase PyStr.
Import ListNotations.
Open Scope Q_scope.
Open Scope list_scope.
Open Scope string_scope.

(** A row of the history of a star, of the columns which are used: log_Teff, log_L and log_R as the numbers whose logarithms they are *)
Record star_row := StarRow { Teff : option Q; Lum : option Q; Rad : option Q; center_he4 : option Q; he_core_mass : option Q; co_core_mass : option Q;
                             surface_h1 : option Q; w_wcrit : option Q }.
(** A row of the history of the binary: the two relative overflows *)
Record bin_row := BinRow { rl1 : option Q; rl2 : option Q }.
Record run := Run { mesa_dir : string; binary_history : option (list bin_row); history1 : option (list star_row); history2 : option (list star_row) }.
(** A grid: its runs, columns of initial values by name, and columns of flags of the final values by name *)
Record grid := Grid { runs : list run; initial_values : list (string * list (option Q)); final_flags : list (string * list string) }.

(** ** PSyGrid.rerun *)

(** [runs_to_rerun]: None, a list, something else which can be iterated (an array), or anything else *)
Inductive runs_arg := RNone | RList (l : list Z) | RIter (l : list Z) | RBad.
(** [termination_flags] and [flags_to_check]; iterables other than lists are lists here *)
Inductive str_arg := SNone | SStr (s : string) | SList (l : list string) | SBad.
(** [new_mesa_flag]: None, a dict (the values as text), or anything else *)
Inductive flag_arg := FNone | FDict (d : list (string * string)) | FBad.

Definition column {A} (d : list (string * list A)) (k : string) : option (list A) := dget String.eqb d k.
Definition has {A} (d : list (string * list A)) (k : string) : bool := match column d k with Some _ => true | None => false end.

(** lines 1865-1867 *)
Fixpoint flagged_from (i : Z) (col tfs : list string) : list Z :=
  match col with [] => [] | tf :: r => ((if existsb (String.eqb tf) tfs then [i] else []) ++ flagged_from (i + 1) r tfs)%list end.
(** lines 1862-1869 *)
Definition new_runs (g : grid) (check tfs : list string) : list Z :=
  flat_map (fun flag => match column (final_flags g) flag with Some col => flagged_from 0 col tfs | None => [] end) check.

(** lines 1828-1878: the collection of runs, and the caller's list afterwards ([runs_to_rerun_list += ...] changes that very list) *)
Definition collect (g : grid) (r : runs_arg) (tf check : str_arg) : result (list Z) * runs_arg :=
  match r with
  | RBad => (Raise TypeError, r)
  | _ =>
      match tf with
      | SNone => match r with RList l | RIter l => (Ok l, r) | _ => (Raise ValueError, r) end
      | _ =>
          match (match check with SNone => Some ["termination_flag_1"] | SStr s => Some [s] | SList l => Some l | SBad => None end),
                (match tf with SStr s => Some [s] | SList l => Some l | _ => None end) with
          | Some c, Some t =>
              let new := new_runs g c t in
              match r with
              | RList l => (Ok (l ++ new)%list, RList (l ++ new)%list)
              | RIter l => (Ok (l ++ new)%list, r)
              | _ => (Ok new, r)
              end
          | _, _ => (Raise TypeError, r)
          end
      end
  end.

(** [list(dict.fromkeys(l))], line 1880 *)
Fixpoint fromkeys (seen l : list Z) : list Z :=
  match l with [] => [] | x :: r => if existsb (Z.eqb x) seen then fromkeys seen r else x :: fromkeys (x :: seen) r end.
Definition unique (l : list Z) : list Z := fromkeys [] l.

(** lines 1881-1901: the columns of the file and those of the grid they come from *)
Definition column_names (g : grid) : result (list (string * string)) :=
  let named csv col := if has (initial_values g) col then [(csv, col)] else [] in
  let base := (named "m1" "star_1_mass" ++ named "m2" "star_2_mass" ++ named "initial_period_in_days" "period_days")%list in
  if has (initial_values g) "Z" then
    match runs g with
    | [] => Raise (OtherError "GridError")
    | r :: _ =>
        let z name := if py_in name (mesa_dir r) then [(name, "Z")] else [] in
        Ok (base ++ z "initial_z" ++ z "Zbase" ++ z "new_Z")%list
    end
  else Ok base.

(** [np.around(x, 10)]: to a multiple of 1e-10, ties to the even one; as exact numbers *)
Definition round_even (x : Q) : Z :=
  let f := Qfloor x in
  match Qcompare (x - inject_Z f) (1 # 2) with Lt => f | Gt => f + 1 | Eq => if Z.even f then f else f + 1 end%Z.
Definition E10 : positive := 10000000000.
Definition around (x : option Q) : option Q := match x with Some q => Some (round_even (q * inject_Z (Zpos E10)) # E10) | None => None end.

Inductive cell := Num (x : option Q) | Lit (s : string).

(** lines 1908-1909 *)
Fixpoint take (col : list (option Q)) (idx : list Z) : result (list cell) :=
  match idx with
  | [] => Ok []
  | i :: r => match py_nth col i with None => Raise IndexError | Some x => rbind (take col r) (fun c => Ok (Num (around x) :: c)) end
  end.
(** lines 1904-1909 *)
Fixpoint runs_data (g : grid) (names : list (string * string)) (idx : list Z) : result (list (string * list cell)) :=
  match names with
  | [] => Ok []
  | (csv, col) :: r =>
      rbind (take (match column (initial_values g) col with Some c => c | None => [] end) idx) (fun c =>
      rbind (runs_data g r idx) (fun d => Ok ((csv, c) :: d)))
  end.
(** lines 1910-1920 *)
Definition n_rows (d : list (string * list cell)) : nat := match d with [] => 0%nat | (_, c) :: _ => length c end.
Definition add_flags (d : list (string * list cell)) (f : flag_arg) : result (list (string * list cell)) :=
  match f with
  | FNone => Ok d
  | FBad => Raise TypeError
  | FDict new => Ok (dset_all String.eqb d (map (fun kv => (fst kv, repeat (Lit (snd kv)) (n_rows d))) new))
  end.
(** lines 1797-1923: the table written, and the caller's [runs_to_rerun] afterwards *)
Definition rerun (g : grid) (r : runs_arg) (tf : str_arg) (new : flag_arg) (check : str_arg) : result (list (string * list cell)) * runs_arg :=
  let '(l, r') := collect g r tf check in
  (rbind l (fun l => rbind (column_names g) (fun names => rbind (runs_data g names (unique l)) (fun d => add_flags d new))), r').

(** ** logic_rerun *)

(** numpy's comparisons with a number: false for NaN *)
Definition lt_ (x : option Q) (y : Q) : bool := match x with Some a => negb (Qle_bool y a) | None => false end.
Definition gt_ (x : option Q) (y : Q) : bool := match x with Some a => negb (Qle_bool a y) | None => false end.
Definition le_ (x : option Q) (y : Q) : bool := match x with Some a => Qle_bool a y | None => false end.
Definition ge_ (x : option Q) (y : Q) : bool := match x with Some a => Qle_bool y a | None => false end.
Definition sub_ (x y : option Q) : option Q := match x, y with Some a, Some b => Some (a - b) | _, _ => None end.

(** A binary ufunc on two arrays: equal lengths, or one of length 1 *)
Fixpoint zip_with (f : bool -> bool -> bool) (a b : list bool) : list bool :=
  match a, b with x :: a', y :: b' => f x y :: zip_with f a' b' | _, _ => [] end.
Definition ufunc (f : bool -> bool -> bool) (a b : list bool) : result (list bool) :=
  if Nat.eqb (length a) (length b) then Ok (zip_with f a b)
  else match a, b with
       | [x], _ => Ok (map (f x) b)
       | _, [y] => Ok (map (fun x => f x y) a)
       | _, _ => Raise ValueError
       end.
(** [np.max] of an array of truth values *)
Definition max_ (l : list bool) : result bool := match l with [] => Raise ValueError | _ => Ok (existsb (fun b => b) l) end.
Definition max_or (a b : list bool) : result bool := rbind (ufunc orb a b) max_.

(** lines 800-807 *)
Definition reverse_MT (r : run) : result bool :=
  match binary_history r, history1 r with
  | Some bh, Some h1 =>
      rbind (ufunc andb (map (fun b => lt_ (rl1 b) (- (5 # 100)) && gt_ (rl2 b) (- (5 # 100))) bh) (map (fun s => gt_ (w_wcrit s) (9 # 10)) h1)) max_
  | _, _ => Ok false
  end.
(** lines 815-834, and 911-917, 930-936 *)
Definition tpagb (s : star_row) : bool :=
  le_ (Teff s) 12000 && le_ (center_he4 s) (1 # 1000000) && le_ (sub_ (he_core_mass s) (co_core_mass s)) (1 # 10).
Definition tpagb_of (h : option (list star_row)) : list bool := match h with Some l => map tpagb l | None => [false] end.
Definition TPAGB (r : run) : result bool := max_or (tpagb_of (history1 r)) (tpagb_of (history2 r)).
(** lines 903-909 and 922-928: the limit 1e-5*R*sqrt(L) > 1 as R*R*L > 1e10 with R > 0 *)
Definition hd_limit (s : star_row) : bool :=
  match Rad s, Lum s with Some r, Some l => negb (Qle_bool r 0) && negb (Qle_bool (r * r * l) 10000000000) | _, _ => false end.
Definition lbv (s : star_row) : bool := gt_ (Lum s) 600000 && hd_limit s && ge_ (surface_h1 s) (1 # 10).
Definition lbv_of (h : option (list star_row)) : list bool := match h with Some l => map lbv l | None => [false] end.
(** lines 940-942 *)
Definition LBV (r : run) : result bool :=
  rbind (max_or (lbv_of (history1 r)) (lbv_of (history2 r))) (fun b => if b then rbind (TPAGB r) (fun t => Ok (negb t)) else Ok false).

(** A file system: None is no directory; the lines of the files in it *)
Definition filesystem := string -> option (string -> option (list string)).
(** lines 781-788 and 861-868 *)
Definition log_name (dir : string) : string :=
  if py_in "single_HMS" dir then "out_star1_formation_step0.txt"
  else if py_in "single_HeMS" dir then "out_star1_formation_step2.txt"
  else "out.txt".
(** lines 776-794 and 856-875: once for each line which tells *)
Definition logged (fs : filesystem) (tells : string -> bool) (i : Z) (r : run) : result (list Z) :=
  match fs (mesa_dir r) with
  | None => Raise (OtherError "NotADirectoryError")
  | Some files => Ok (match files (log_name (mesa_dir r)) with Some lines => map (fun _ => i) (filter tells lines) | None => [] end)
  end.
Definition PISN_line (l : string) : bool := py_in "have reached gamma1 integral limit" l.
Definition conv_bdy_line (l : string) : bool := py_in "STOP prepare_for_new_try: bad num omega" l || py_in "Segmentation fault" l.

(** The loops over all runs *)
Fixpoint loop (f : Z -> run -> result (list Z)) (i : Z) (l : list run) : result (list Z) :=
  match l with [] => Ok [] | r :: l' => rbind (f i r) (fun a => rbind (loop f (i + 1) l') (fun b => Ok (a ++ b)%list)) end.
Definition pick (c : run -> result bool) (i : Z) (r : run) : result (list Z) := rbind (c r) (fun b => Ok (if b then [i] else [])).
(** lines 882-888; the initial values have a value for each run *)
Definition initial_He (g : grid) (i : Z) (r : run) : result (list Z) :=
  let at_ col := match py_nth col i with Some x => Ok x | None => Raise IndexError end in
  rbind (match column (initial_values g) "S1_center_he4", column (initial_values g) "Y" with
         | Some c, _ => at_ c
         | None, Some c => at_ c
         | None, None => Ok (Some (-1))
         end) (fun y => Ok (if match y with None => true | Some _ => lt_ y (96 # 100) end then [i] else [])).

(** posydon/visualization/combine_TF.py:54-58 *)
Definition TF1_POOL_ERROR : list string := ["logQ_min_limit"; "min_timestep_limit"; "reach cluster timelimit"].

(** lines 740-954: the runs (an array), the termination flags and the new options of MESA *)
Definition answer := (runs_arg * str_arg * flag_arg)%type.
Definition logic_rerun (fs : filesystem) (g : grid) (rerun_type : string) : result answer :=
  let is t := String.eqb rerun_type t in
  let chosen f new := rbind (loop f 0 (runs g)) (fun l => Ok (RIter l, SNone, new)) in
  if is "opacity_max" || is "opacity_max_hms-hms" then
    Ok (RNone, SList ["reach cluster timelimit"; "min_timestep_limit"], FDict [("opacity_max", "0.5")])
  else if is "PISN" then chosen (logged fs PISN_line) FNone
  else if is "reverse_MT" then chosen (pick reverse_MT) FNone
  else if is "TPAGBwind" then chosen (pick TPAGB) FNone
  else if is "thermohaline_mixing" || is "LBV_wind+thermohaline_mixing" || is "no_age_limit+thermohaline_mixing" then
    Ok (RNone, SList TF1_POOL_ERROR, FDict [("thermohaline_coeff", "17.5")])
  else if is "HeMB_MLTp_mesh" then Ok (RNone, SList TF1_POOL_ERROR, FNone)
  else if is "more_mesh" then Ok (RNone, SList TF1_POOL_ERROR, FDict [("mesh_Pgas_div_P_exponent", "2"); ("max_allowed_nz", "50000")])
  else if is "conv_bdy_weight" then chosen (logged fs conv_bdy_line) (FDict [("convective_bdy_weight", "0")])
  else if is "initial_He" then chosen (initial_He g) FNone
  else if is "dedt_energy_eqn" || is "LBV_wind+dedt_energy_eqn" || is "no_age_limit+dedt_energy_eqn" then Ok (RNone, SList TF1_POOL_ERROR, FNone)
  else if is "dedt_hepulse" || is "LBV_wind+dedt_hepulse" then Ok (RNone, SList TF1_POOL_ERROR, FNone)
  else if is "LBV_wind" then chosen (pick LBV) FNone
  else if is "no_age_limit" then Ok (RNone, SList ["max_age"], FNone)
  else Raise ValueError.

(** bin/posydon-run-pipeline:1013-1019: the table of a rerun of the pipeline *)
Definition pipeline_rerun (fs : filesystem) (g : grid) (rerun_type : string) : result (list (string * list cell)) :=
  rbind (logic_rerun fs g rerun_type) (fun a => let '(r, tf, new) := a in fst (rerun g r tf new SNone)).
