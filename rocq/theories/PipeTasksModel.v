(** The tasks of the steps of the pipeline, create_csv, bin/posydon-setup-pipeline:649-1240, for all steps but step_2 (and its plots and checks).

    A path is the list of its parts, the empty VERSION being left out (os.path.join with parts that do not begin with "/").  A row of the csv file is the list of
    its columns.  The existence of the directories PATH_TO_GRIDS and PATH, the directories which are made or noted as new (lines 827-836, 898-906, 929-939,
    951-952, 964-965, 1046-1053) and the messages are left out; [new_name] stands for get_new_grid_name. *)
From Coq Require Import String List Bool.
From Verif Require Import PyBase RunScriptModel.
Import ListNotations.
Open Scope list_scope.
Open Scope string_scope.
Local Infix "+++" := (@app _) (at level 60, right associativity).

Definition path := list string.
Inductive cell := P (p : path) | T (s : string) | L (l : list string).
Definition row := list (string * cell).
Inductive step := S1 | S3 | S4 | S5 | SF | RR.
Inductive part := Main | Plots | Checks.

Record args := { types : list string; mets : list (list string); slices : list (list string); comps : list (list string); originals : list (list string);
  methods : list string; profiles : list string; control : list (list string); stop : string; rerun_type : string; cluster : string;
  plots : list string; checks : list string; extension : string; version : string; root : string; out : string }.

(** A pass of the innermost loop: type, metallicity, slice, the slice used by plots and checks, compression, and the first compression of the type *)
Record point := { gt : string; met : string; slice : string; shown : string; comp : string; first : string }.

(** lines 820-822 and similar *)
Definition base (a : args) (p : point) : path := [root a; gt p] +++ (if String.eqb (version a) "" then [] else [version a]) +++ [met p].
(** lines 794-798 *)
Definition RLO (p : point) : string := if within "RLO" (comp p) then "_RLO" else "".
Definition grid_file (a : args) (p : point) (name : string) : path := base a p +++ [comp p; name ++ ".h5"].
Definition object (a : args) (p : point) (name : string) : path := base a p +++ ["interpolation_objects"; name].

(** lines 814-981: the rows of the steps *)
Definition main_rows (k : step) (a : args) (orig : list string) (p : point) : list row :=
  match k with
  | S1 => [[("path_to_grid", P (base a p +++ [slice p])); ("compression", T (comp p)); ("grid_type", T (gt p)); ("stop_before_carbon_depletion", T (stop a))]]
  | S3 => [[("path_to_grid", P (grid_file a p (slice p))); ("grid_type", T (gt p));
            ("path_to_grid_ORIGINAL", P (base a p +++ [(match orig with o :: _ => o | [] => "ORIGINAL" end) ++ RLO p; slice p ++ ".h5"]));
            ("path_to_processed_grid", P (grid_file a p (slice p ++ "_processed")))]]
  | S4 => map (fun m => [("path_to_grid", P (grid_file a p (slice p))); ("grid_type", T (gt p)); ("interpolation_method", T (m ++ RLO p));
                         ("path_to_interpolator", P (object a p ("IF_" ++ m ++ RLO p ++ ".pkl")))]) (methods a)
  | S5 => match profiles a with
          | [] => []
          | _ => map (fun m => [("path_to_grid", P (grid_file a p (slice p))); ("grid_type", T (gt p)); ("profile_names", L (profiles a));
                                ("path_to_IF_interpolator", P (object a p ("IF_" ++ m ++ RLO p ++ ".pkl")));
                                ("path_to_profile_interpolator", P (object a p ("profile_" ++ m ++ RLO p ++ ".pkl")))]) (methods a)
          end
  | SF => let dir := if within "RLO" (gt p) then gt p else gt p ++ RLO p in
          [[("path_to_grid", P (grid_file a p (slice p))); ("export_path", P [out a; "POSYDON_data"; dir; met p ++ ".h5"])];
           [("path_to_grid", P (object a p ("IF_linear" ++ RLO p ++ ".pkl"))); ("export_path", P [out a; "POSYDON_data"; dir; "interpolators"; "linear3c_kNN"; met p ++ ".pkl"])];
           [("path_to_grid", P (object a p ("IF_1NN" ++ RLO p ++ ".pkl"))); ("export_path", P [out a; "POSYDON_data"; dir; "interpolators"; "1NN_1NN"; met p ++ ".pkl"])]]
  | RR => [[("path_to_grid", P (grid_file a p (slice p))); ("rerun_path", P (base a p +++ ["rerun_" ++ rerun_type a ++ "_" ++ slice p])); ("grid_type", T (gt p));
            ("rerun_metallicity", T (met p)); ("rerun_type", T (rerun_type a)); ("cluster", T (cluster a))]]
  end.
(** lines 998-1003 *)
Definition methods_of (k : step) (a : args) : list string := match k with S4 | S5 => methods a | _ => match methods a with [] => [""] | _ => methods a end end.
(** lines 995-1045 *)
Definition plot_rows (k : step) (a : args) (p : point) : list row :=
  if String.eqb (shown p) "" then []
  else if negb (within (comp p) (first p)) && negb (within (first p) (comp p)) then []
  else match plots a with
       | [] => []
       | _ => map (fun m => ([("path_to_grid", P (grid_file a p (shown p))); ("grid_type", T (gt p)); ("quantities_to_plot", L (plots a));
                              ("path_to_plot", P (base a p +++ ["plots"; (if within "RLO" (comp p) then "RLO_" else "") ++ shown p])); ("plot_extension", T (extension a))] +++
                             (if String.eqb m "" then [] else match k with
                                                              | S4 => [("path_to_interpolator", P (object a p ("IF_" ++ m ++ RLO p ++ ".pkl")))]
                                                              | S5 => [("path_to_interpolator", P (object a p ("profile_" ++ m ++ RLO p ++ ".pkl")))]
                                                              | _ => [] end))) (methods_of k a)
       end.
(** lines 1054-1081 *)
Definition check_rows (k : step) (a : args) (p : point) : list row :=
  if String.eqb (shown p) "" then []
  else match checks a with
       | [] => []
       | _ => map (fun m => ([("path_to_grid", P (grid_file a p (shown p))); ("checks_to_do", L (checks a))] +++
                             (if String.eqb m "" then [] else match k with
                                                              | S4 => [("path_to_interpolator", P (object a p ("profile_" ++ m ++ RLO p ++ ".pkl")))]
                                                              | _ => [("path_to_interpolator", P (object a p ("IF_" ++ m ++ RLO p ++ ".pkl")))] end))) (methods_of k a)
       end.
Definition rows_of (k : step) (s : part) (a : args) (orig : list string) (p : point) : list row :=
  match s with Main => main_rows k a orig p | Plots => plot_rows k a p | Checks => check_rows k a p end.

(** lines 984-993: the slices which plots and checks use *)
Definition shown_of (k : step) (name ctrl : string) : string := match k with S3 => name ++ "_processed" | S4 | S5 => ctrl | _ => name end.
Definition needs_control (k : step) (s : part) : bool := match k, s with S4, Main => false | S4, _ | S5, _ => true | _, _ => false end.
(** lines 782-813: the loops for the type with number [l] *)
Definition type_rows (k : step) (s : part) (a : args) (l : nat) (t : string) : result (list row) :=
  let ms := nth l (mets a) [] in let ss := nth l (slices a) [] in let cs := nth l (comps a) [] in let ctl := nth l (control a) [] in
  rbind (match originals a with [] => Ok [] | _ => match nth_error (originals a) l with Some o => Ok o | None => Raise IndexError end end) (fun orig =>
  if needs_control k s && negb (Nat.eqb (List.length ss) (List.length ctl)) && negb (Nat.eqb (List.length ms * List.length ss * List.length cs) 0) then Raise ValueError
  else Ok (flat_map (fun m => flat_map (fun i => flat_map (fun c =>
         rows_of k s a orig {| gt := t; met := m; slice := nth i ss ""; shown := shown_of k (nth i ss "") (nth i ctl ""); comp := c; first := hd "" cs |}) cs) (seq 0 (List.length ss))) ms)).
Fixpoint all_types (k : step) (s : part) (a : args) (l : nat) (ts : list string) : result (list row) :=
  match ts with [] => Ok [] | t :: r => rbind (type_rows k s a l t) (fun x => rbind (all_types k s a (S l) r) (fun y => Ok (x +++ y))) end.
Definition with_interpolator (r : row) : bool := match lookup r "path_to_interpolator" with Some _ => true | None => false end.
(** lines 734-759 and 1083-1125: the lengths of the lists, and the data frame; a column of another length than the first is a ValueError *)
Definition table (k : step) (s : part) (a : args) : result (list row) :=
  let n := List.length (types a) in
  if negb (Nat.eqb n (List.length (mets a)) && Nat.eqb n (List.length (slices a)) && Nat.eqb n (List.length (comps a))) then Raise ValueError
  else if match k, s with S3, Main => negb (Nat.eqb n (List.length (originals a))) | _, _ => needs_control k s && negb (Nat.eqb n (List.length (control a))) end then Raise ValueError
  else rbind (all_types k s a 0 (types a)) (fun rows =>
       let c := List.length (filter with_interpolator rows) in
       if match s with Main => false | _ => negb (Nat.eqb c 0) && negb (Nat.eqb c (List.length rows)) end then Raise ValueError else Ok rows).

(** lines 1126-1169: without the files needed the task is dropped; a missing column is a KeyError *)
Definition path_in (r : row) (c : string) : option path := match lookup r c with Some (P p) => Some p | _ => None end.
Definition needs (k : step) (s : part) : list string :=
  "path_to_grid" :: match k, s with
                    | S3, Main => ["path_to_grid_ORIGINAL"]
                    | S4, Main => []
                    | S4, _ | S5, Plots | S5, Checks => ["path_to_interpolator"]
                    | S5, Main => ["path_to_IF_interpolator"]
                    | _, _ => []
                    end.
Definition present (there : path -> bool) (r : row) (c : string) : result bool := match path_in r c with Some p => Ok (there p) | None => Raise KeyError end.
Fixpoint kept (there : path -> bool) (r : row) (cs : list string) : result bool :=
  match cs with [] => Ok true | c :: t => rbind (present there r c) (fun b => if b then kept there r t else Ok false) end.
Fixpoint drop (there : path -> bool) (cs : list string) (rows : list row) : result (list row) :=
  match rows with [] => Ok [] | r :: t => rbind (kept there r cs) (fun b => rbind (drop there cs t) (fun x => Ok (if b then r :: x else x))) end.
(** lines 1170-1188: the files which the step makes *)
Definition makes (new_name : path -> string -> path) (k : step) (s : part) (r : row) : list path :=
  match s with
  | Main => match k with
            | S1 => match path_in r "path_to_grid", lookup r "compression" with Some p, Some (T c) => [new_name p c] | _, _ => [] end
            | S3 => match path_in r "path_to_processed_grid" with Some p => [p] | None => [] end
            | S4 => match path_in r "path_to_interpolator" with Some p => [p] | None => [] end
            | S5 => match path_in r "path_to_profile_interpolator" with Some p => [p] | None => [] end
            | SF => match path_in r "export_path" with Some p => [p] | None => [] end
            | RR => match path_in r "rerun_path" with Some p => [p] | None => [] end
            end
  | Plots => match path_in r "path_to_plot" with Some p => [p] | None => [] end
  | Checks => []
  end.
(** create_csv: the rows written and the files the step makes; the plots of dropped rows are kept in the list (line 1188) *)
Definition path_eqb (p q : path) : bool := if list_eq_dec string_dec p q then true else false.
Definition create_csv (new_name : path -> string -> path) (exists_ : path -> bool) (previous : list path) (drop_missing : bool) (k : step) (s : part) (a : args) : result (list row * list path) :=
  rbind (table k s a) (fun rows =>
  rbind (if drop_missing then drop (fun p => exists_ p || existsb (path_eqb p) previous) (needs k s) rows else Ok rows) (fun left =>
  Ok (left, flat_map (makes new_name k s) (match s with Plots => rows | _ => left end)))).
(** slurm_job, lines 603-615: the last index of the array of jobs *)
Definition array_end (rows : list row) : result nat := match rows with [] => Raise ValueError | _ :: r => Ok (List.length r) end.
