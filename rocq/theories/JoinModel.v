(** Names of run directories (posydon/grids/io.py:452-489), the runs of a grid on disk (io.py:256-316), grid point files (io.py:393-449)
    and the joining of grids (posydon/grids/psygrid.py:2461-2701). *)
From Coq Require Import Ascii String List Bool PeanoNat ZArith QArith.
From Verif Require Import PyBase PyStr PySplit PyStrip RloModel.
Import ListNotations.
Open Scope string_scope.
Open Scope nat_scope.
Open Scope list_scope.

Definition AssertionError := OtherError "AssertionError".
(** [l[i]] of a Python list *)
Definition item {A} (l : list A) (i : nat) : result A := match nth_error l i with Some x => Ok x | None => Raise IndexError end.
Fixpoint each {A B} (f : A -> result B) (l : list A) : result (list B) :=
  match l with [] => Ok [] | x :: l' => rbind (f x) (fun y => rbind (each f l') (fun r => Ok (y :: r))) end.

(** ** Directory names *)
(** io.py:471: the basename of the normalized path is its last component.  Components "." and ".." are left out. *)
Definition basename (p : string) : string := last (filter (fun c => negb (String.eqb c "")) (split "/" p)) "".
(** io.py:486: dirname.split(variable_name + "_")[1].split("_")[0] *)
Definition value_of (dirname name : string) : result string :=
  rbind (item (split (name ++ "_") dirname) 1) (fun t => item (split "_" t) 0).
(** io.py:471-489 *)
Definition initial_values_from_dirname (mesa_dir : string) : result (list string) :=
  let dirname := basename mesa_dir in
  if py_in "initial_mass" dirname then
    each (value_of dirname) (if py_in "v1/" mesa_dir then [ "initial_mass" ] else [ "initial_mass"; "initial_z" ])
  else
    let names := if py_in "v1/" mesa_dir then [ "m1"; "m2"; "initial_period_in_days" ]
                 else if py_in "initial_eccentricity" dirname then [ "m1"; "m2"; "initial_period_in_days"; "initial_z"; "initial_eccentricity" ]
                 else [ "m1"; "m2"; "initial_period_in_days"; "initial_z" ] in
    if forallb (fun n => py_in n dirname) names then each (value_of dirname) names else Raise AssertionError.

Definition key := list string.
Fixpoint key_eqb (a b : key) : bool :=
  match a, b with [], [] => true | x :: a', y :: b' => String.eqb x y && key_eqb a' b' | _, _ => false end.
(** [del d[k]] *)
Definition ddel {V} (d : list (key * V)) (k : key) : list (key * V) := filter (fun kv => negb (key_eqb k (fst kv))) d.

(** ** The runs of a grid on disk: io.py:256-316 *)
(** A folder path as the search sees it: the directories with an output file, those with a compressed one, and the metadata files. *)
Record folder := Folder { plain : list string; zipped : list string; metadata : list string }.
(** io.py:284-291 for the files of one folder path *)
Fixpoint add_dirs (dirs : list string) (folders : list (key * string)) : result (list (key * string)) :=
  match dirs with
  | [] => Ok folders
  | d :: dirs' => rbind (initial_values_from_dirname d) (fun k => add_dirs dirs' (dset key_eqb folders k d))
  end.
(** io.py:275-301: the dictionary of runs and the metadata files, which are set anew for each folder path (294) *)
Fixpoint input_loop (paths : list folder) (folders : list (key * string)) (meta : list string) : result (list (key * string) * list string) :=
  match paths with
  | [] => Ok (folders, meta)
  | p :: paths' => rbind (add_dirs (plain p ++ zipped p) folders) (fun folders' => input_loop paths' folders' (metadata p))
  end.
Definition IGNORED := [ "make"; "star1"; "star2"; "binary"; "data"; "column_lists"; "new_data"; "template"; ".ipynb_checkpoints" ].
(** io.py:302-316 and 318-333: the paths of the runs, and the metadata files *)
Definition grid_reader (paths : list folder) : result (list string * list string) :=
  rbind (input_loop paths [] []) (fun t => let '(folders, meta) := t in
    match folders with
    | [] => Raise ValueError
    | _ => Ok (filter (fun p => negb (existsb (String.eqb p) IGNORED)) (map snd folders), meta)
    end).

(** ** Grid point files: io.py:405-449 *)
Section Points.
  (** float of a text without surrounding blanks, and [value*10**exponent]. *)
  Context {num : Type} (float : string -> option num) (scale : num -> num -> num).
  Definition to_float (t : string) : result num := match float (strip t) with Some x => Ok x | None => Raise ValueError end.
  Definition variable (name : string) : string :=
    if String.eqb name "m1" then "star_1_mass" else if String.eqb name "m2" then "star_2_mass"
    else if String.eqb name "initial_period_in_days" then "period_days" else name.
  (** 424-447 for one line: None if it is skipped. *)
  Definition read_line (line : string) : result (option (string * num)) :=
    if negb (py_in "=" line) then Ok None
    else match split "=" (strip line) with
    | [ f0; f1 ] =>
      match split "d" f1 with
      | m :: e :: _ => rbind (to_float m) (fun x => rbind (to_float e) (fun y => Ok (Some (variable (strip f0), scale x y))))
      | [ m ] => rbind (to_float m) (fun x => Ok (Some (variable (strip f0), x)))
      | [] => Ok None
      end
    | _ => Ok None
    end.
  Fixpoint read_lines (lines : list string) (values : list (string * num)) : result (list (string * num)) :=
    match lines with
    | [] => Ok values
    | l :: lines' => rbind (read_line l) (fun kv => read_lines lines' (match kv with Some (k, v) => dset String.eqb values k v | None => values end))
    end.
  (** None for a missing file: 405-410 *)
  Definition read_initial_values (file : option (list string)) : result (option (list (string * num))) :=
    match file with None => Ok None | Some lines => rbind (read_lines lines []) (fun v => Ok (Some v)) end.
End Points.

(** ** Joining: psygrid.py:2461-2701 *)
Inductive cval := CNone | CBool (b : bool) | CNum (q : Q) | CStr (s : string) | CList (l : list string).
Definition b2q (b : bool) : Q := if b then 1%Q else 0%Q.
(** Python's [==] *)
Definition cval_eqb (a b : cval) : bool :=
  match a, b with
  | CNone, CNone => true
  | CBool x, CBool y => Bool.eqb x y
  | CNum x, CNum y => Qeq_bool x y
  | CBool x, CNum y => Qeq_bool (b2q x) y
  | CNum x, CBool y => Qeq_bool x (b2q y)
  | CStr x, CStr y => String.eqb x y
  | CList x, CList y => key_eqb x y
  | _, _ => false
  end.
Definition truth (a : cval) : bool :=
  match a with CNone => false | CBool b => b | CNum q => negb (Qeq_bool q 0) | CStr s => negb (String.eqb s "") | CList [] => false | CList _ => true end.
Definition config := list (string * cval).
(** 2461-2487 *)
Definition PROPERTIES_ALLOWED : config := [ ("format", CStr "hdf5") ].
Definition PROPERTIES_TO_BE_SET := [ "compression"; "description" ].
Definition PROPERTIES_TO_BE_NONE : config :=
  [ ("max_number_of_runs", CNone); ("star1_history_saved_columns", CNone); ("star2_history_saved_columns", CNone);
    ("binary_history_saved_columns", CNone); ("star1_profile_saved_columns", CNone); ("star2_profile_saved_columns", CNone);
    ("initial_value_columns", CNone); ("final_value_columns", CNone) ].
Definition PROPERTIES_TO_BE_CONSISTENT :=
  [ "binary"; "eep"; "start_at_RLO"; "stop_before_carbon_depletion"; "initial_RLO_fix"; "He_core_fix"; "accept_missing_profile";
    "history_DS_error"; "history_DS_exclude"; "profile_DS_error"; "profile_DS_exclude"; "profile_DS_interval" ].
Definition ALL_PROPERTIES := map fst PROPERTIES_ALLOWED ++ PROPERTIES_TO_BE_CONSISTENT ++ map fst PROPERTIES_TO_BE_NONE ++ PROPERTIES_TO_BE_SET.

(** A grid file.  The data types of the two tables are compared only for equality.  [data i name] is the dataset /grid/run<i>/<name>. *)
Record grid (D : Type) := Grid { gconfig : config; itype : nat; ftype : nat; gruns : list run; gdata : nat -> string -> option D }.
Arguments Grid {D} _ _ _ _ _. Arguments gconfig {D} _. Arguments itype {D} _. Arguments ftype {D} _. Arguments gruns {D} _. Arguments gdata {D} _ _ _.
Definition lookup (c : config) (k : string) : result cval := match dget String.eqb c k with Some v => Ok v | None => Raise KeyError end.

(** 2529-2531 *)
Definition check_keys (c : config) : bool :=
  Nat.eqb (length ALL_PROPERTIES) (length c) && forallb (fun kv => existsb (String.eqb (fst kv)) ALL_PROPERTIES) c.
(** 2539-2543 *)
Fixpoint check_same (props : list string) (new cur : config) : result unit :=
  match props with
  | [] => Ok tt
  | p :: props' => rbind (lookup new p) (fun a => rbind (lookup cur p) (fun b => if cval_eqb a b then check_same props' new cur else Raise ValueError))
  end.
Section Join.
  Context {D : Type}.
  (** 2523-2548 for the grids after the first *)
  Fixpoint check_grids (first : grid D) (gs : list (grid D)) : result unit :=
    match gs with
    | [] => Ok tt
    | g :: gs' =>
      if negb (check_keys (gconfig g)) then Raise AssertionError
      else rbind (check_same PROPERTIES_TO_BE_CONSISTENT (gconfig first) (gconfig g)) (fun _ =>
        if negb (Nat.eqb (itype first) (itype g)) then Raise TypeError
        else if negb (Nat.eqb (ftype first) (ftype g)) then Raise TypeError
        else check_grids first gs')
    end.
  (** 2523-2562; without a grid newconfig is None and subscripting it raises.  update sets existing keys. *)
  Definition new_config (gs : list (grid D)) (compression : cval) (description : cval) : result config :=
    match gs with
    | [] => Raise TypeError
    | g :: gs' =>
      if negb (check_keys (gconfig g)) then Raise AssertionError
      else rbind (check_grids g gs') (fun _ =>
        rbind (lookup (gconfig g) "format") (fun f =>
          if cval_eqb f (CStr "hdf5")
          then Ok (dset String.eqb (dset String.eqb (dset_all String.eqb (gconfig g) PROPERTIES_TO_BE_NONE) "compression" compression) "description" description)
          else Raise ValueError))
    end.
  (** 2566-2577: [i] is grid_index, [j] is run_index *)
  Fixpoint select_runs (i j : nat) (runs : list run) (params : list (key * (nat * nat))) : result (list (key * (nat * nat))) :=
    match runs with
    | [] => Ok params
    | r :: runs' => rbind (initial_values_from_dirname (path r)) (fun k =>
        select_runs i (S j) runs' (if String.eqb (tf1 (fin r)) "ignored_no_RLO" then ddel params k else dset key_eqb params k (i, j)))
    end.
  Fixpoint select_grids (i : nat) (gs : list (grid D)) (params : list (key * (nat * nat))) : result (list (key * (nat * nat))) :=
    match gs with
    | [] => Ok params
    | g :: gs' => rbind (select_runs i 0 (gruns g) params) (fun params' => select_grids (S i) gs' params')
    end.
  Definition SUBARRAYS := [ "binary_history"; "history1"; "history2"; "final_profile1"; "final_profile2" ].
  (** 2636-2679 for one run: its rows and its datasets *)
  Definition copy_run (gs : list (grid D)) (fix_boundary : bool) (known : list system) (ij : nat * nat) : result (run * list (string * D)) :=
    rbind (item gs (fst ij)) (fun g => rbind (item (gruns g) (snd ij)) (fun r =>
      Ok (if fix_boundary then join_fix known r else r,
          flat_map (fun name => match gdata g (snd ij) name with Some d => [ (name, d) ] | None => [] end) SUBARRAYS))).
  (** 2611-2627: the arguments for the compression *)
  Inductive packing := Unpacked | Lzf | Gzip (level : option nat).
  Definition lower (s : string) : string :=
    string_of_list_ascii (map (fun c => let n := nat_of_ascii c in if Nat.leb 65 n && Nat.leb n 90 then ascii_of_nat (n + 32) else c) (list_ascii_of_string s)).
  Definition packing_of (c : cval) : result packing :=
    match c with
    | CNone => Ok Unpacked
    | CStr s =>
      let s := lower s in
      if String.eqb s "" then Ok Unpacked else if String.eqb s "lzf" then Ok Lzf
      else if prefix "gzip" s then
        if String.eqb s "gzip" then Ok (Gzip None)
        else match sdrop 4 s with
             | String c "" => let n := nat_of_ascii c in if Nat.leb 48 n && Nat.leb n 57 then Ok (Gzip (Some (n - 48))) else Raise ValueError
             | _ => Raise ValueError
             end
      else Raise ValueError
    | _ => Raise AttributeError
    end.
  (** The new file: configuration, packing, and per run its path, rows and datasets. *)
  Record joined := Joined { jconfig : config; jpacking : packing; jruns : list (run * list (string * D)) }.
  Definition join_grids (gs : list (grid D)) (compression description : cval) : result joined :=
    rbind (new_config gs compression description) (fun c =>
    rbind (select_grids 0 gs []) (fun params =>
    rbind (lookup c "initial_RLO_fix") (fun f =>
    rbind (packing_of compression) (fun pk =>
    rbind (each (copy_run gs (truth f) (merge_detected (map (fun g => gruns g) gs))) (map snd params)) (fun rs => Ok (Joined c pk rs)))))).
End Join.
