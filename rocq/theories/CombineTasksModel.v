(** The tasks of step_2 of the pipeline, create_csv, bin/posydon-setup-pipeline:799-856 and 1189-1240, and get_new_grid_name, posydon/utils/gridutils.py:486-511.

    The table has a column for each combined grid, whose cells are the slices; the cells without a value, which fill the columns up to the same length, are left
    out.  Types, metallicities, compressions, VERSION and PATH_TO_GRIDS are those of [common] (its slices are not used).  [norm] is os.path.normpath on the parts
    of a path.  With DROP_MISSING_FILES two columns of one name end in a ValueError (the truth of a Series), if there is any row. *)
From Coq Require Import String List Bool.
From Verif Require Import PyBase RunScriptModel PipeTasksModel.
Import ListNotations.
Open Scope list_scope.
Open Scope string_scope.
Local Infix "+++" := (@app _) (at level 60, right associativity).

(** gridutils.py:504-511, without the making of directories *)
Definition new_grid_name (norm : path -> path) (p : path) (compression : string) : path :=
  let q := norm p in removelast q +++ [compression; last q "" ++ ".h5"].

Record args2 := { common : args; batches : list (list (list string)); combined : list (list string) }.
Definition column : Type := path * list path.
Definition directory (a : args) (t m : string) : path := [root a; t] +++ (if String.eqb (version a) "" then [] else [version a]) +++ [m].
(** lines 799-805 and 836-856 *)
Definition type_columns (a : args2) (l : nat) (t : string) : result (list column) :=
  let ms := nth l (mets (common a)) [] in let bs := nth l (batches a) [] in let cs := nth l (comps (common a)) [] in let ns := nth l (combined a) [] in
  if negb (Nat.eqb (List.length bs) (List.length ns)) && negb (Nat.eqb (List.length ms * List.length bs * List.length cs) 0) then Raise ValueError
  else Ok (flat_map (fun m => flat_map (fun i => map (fun c =>
         (directory (common a) t m +++ [c; nth i ns "" ++ ".h5"], map (fun s => directory (common a) t m +++ [c; s ++ ".h5"]) (nth i bs []))) cs) (seq 0 (List.length bs))) ms).
Fixpoint all_columns (a : args2) (l : nat) (ts : list string) : result (list column) :=
  match ts with [] => Ok [] | t :: r => rbind (type_columns a l t) (fun x => rbind (all_columns a (S l) r) (fun y => Ok (x +++ y))) end.
(** lines 734-747 *)
Definition table2 (a : args2) : result (list column) :=
  let n := List.length (types (common a)) in
  if Nat.eqb n (List.length (mets (common a))) && Nat.eqb n (List.length (batches a)) && Nat.eqb n (List.length (comps (common a))) && Nat.eqb n (List.length (combined a))
  then all_columns a 0 (types (common a)) else Raise ValueError.
(** lines 1189-1234 *)
Fixpoint repeated (l : list path) : bool := match l with [] => false | p :: r => existsb (path_eqb p) r || repeated r end.
Definition some_cell (c : column) : bool := match snd c with [] => false | _ => true end.
Definition drop2 (there : path -> bool) (cols : list column) : result (list column) :=
  if repeated (map fst cols) && existsb some_cell cols then Raise ValueError
  else Ok (filter some_cell (map (fun c => (fst c, filter there (snd c))) cols)).
(** the columns written and the files the step makes *)
Definition create_csv2 (exists_ : path -> bool) (previous : list path) (drop_missing : bool) (a : args2) : result (list column * list path) :=
  rbind (table2 a) (fun cols =>
  rbind (if drop_missing then drop2 (fun p => exists_ p || existsb (path_eqb p) previous) cols else Ok cols) (fun left => Ok (left, map fst left))).
