(** Model of the post-processing of grids, posydon/grids/post_processing.py.

    A star is given by the values of its attributes.  The state of a star (check_state_of_star), the values at helium depletion (calculate_Patton20_values_at_He_depl), the
    common-envelope parameters (CEE_parameters_from_core_abundance_thresholds) and the supernova step (StepSN) are parameters: any functions of the star.  Printing,
    warnings and the progress bar are left out. *)
From Coq Require Import String Ascii List Bool ZArith QArith.
From Verif Require Import PyBase PyStr PyReplace TFlagModel SNNameModel.
Import ListNotations.
Open Scope string_scope.
Open Scope list_scope.

(** A value of a column: text, a float (None = NaN), None, any other object *)
Inductive val := Txt (s : string) | Flt (x : option Q) | Nil | Obj.
Definition is_nil (v : val) : bool := match v with Nil => true | _ => false end.
Definition is_txt (v : val) : bool := match v with Txt _ => true | _ => false end.
Definition is_flt (v : val) : bool := match v with Flt _ => true | _ => false end.
Definition star := string -> val.

(** CC_quantities, lines 37-40 *)
Definition CC_quantities : list string :=
  [ "state"; "SN_type"; "f_fb"; "mass"; "spin"; "m_disk_accreted"; "m_disk_radiated"; "CO_interpolation_class"; "M4"; "mu4"; "h1_mass_ej"; "he4_mass_ej" ].
(** The quantities of lines 177-183 *)
Definition base_quantities : list string :=
  [ "avg_c_in_c_core_at_He_depletion"; "co_core_mass_at_He_depletion"; "state"; "surface_other"; "center_other" ].
Definition CE_names : list string :=
  flat_map (fun q => map (fun v => q ++ "_" ++ v ++ "cent")%string [ "1"; "10"; "30"; "pure_He_star_10" ]) [ "lambda_CE"; "m_core_CE"; "r_core_CE" ].
(** f'S{i}_{quantity}' and f'S{i}_{NAME}_{quantity}'; the star is 1 (false) or 2 (true) *)
Definition col (second : bool) (q : string) : string := ((if second then "S2_" else "S1_") ++ q)%string.
Definition sn_col (second : bool) (name q : string) : string := col second (name ++ "_" ++ q)%string.

(** flow_chart.py:105-116 *)
Definition CC_states : list string :=
  [ "H-rich_Core_C_depleted"; "H-rich_Core_He_depleted"; "stripped_He_Core_He_depleted"; "stripped_He_Core_C_depleted"; "stripped_He_non_burning"; "H-rich_non_burning";
    "H-rich_Shell_H_burning"; "accreted_He_Shell_H_burning"; "accreted_He_non_burning" ].

(** The texts of DEFAULT_MARKERS_COLORS_LEGENDS['combined_TF12'], visualization/plot_defaults.py:472-590 *)
Definition he := "during stripped He star".
Definition legend : list (string * string) :=
  [ ("Stable contact", "Stable contact phase"); ("Stable case A", "Last stable RLOF during MS"); ("Stable case B", "Last stable RLOF during postMS");
    ("Stable case C", "Last stable RLOF during postMS"); ("Stable case BA", "Last stable RLOF " ++ he); ("Stable case BB", "Last stable RLOF " ++ he);
    ("Stable case AA", "Last stable RLOF during MS"); ("Stable case AB", "Last stable RLOF during postMS"); ("Stable case AC", "Last stable RLOF during postMS");
    ("Stable case An", "Last stable RLOF during postMS"); ("Stable case ABA", "Last stable RLOF " ++ he); ("Stable case ABB", "Last stable RLOF " ++ he);
    ("Stable case BC", "Last stable RLOF during postMS"); ("Stable case Bn", "Last stable RLOF during postMS"); ("Stable case BBA", "Last stable RLOF " ++ he);
    ("Stable case BBB", "Last stable RLOF " ++ he); ("Stable case Cn", "Last stable RLOF during postMS"); ("Stable case CBA", "Last stable RLOF " ++ he);
    ("Stable case CBB", "Last stable RLOF " ++ he); ("Stable case BABB", "Last stable RLOF " ++ he); ("Stable case BAn", "Last stable RLOF " ++ he);
    ("Stable case BBn", "Last stable RLOF " ++ he); ("Stable case n", "Last stable RLOF while non burning"); ("Unstable contact", "Unstable contact phase");
    ("Unstable case A", "Unstable RLOF during MS"); ("Unstable case B", "Unstable RLOF during postMS"); ("Unstable case C", "Unstable RLOF during postMS");
    ("Unstable case BA", "Unstable RLOF " ++ he); ("Unstable case BB", "Unstable RLOF " ++ he); ("Unstable case AB", "Unstable RLOF during postMS");
    ("Unstable case AC", "Unstable RLOF during postMS"); ("Unstable case An", "Unstable RLOF during postMS"); ("Unstable case ABA", "Unstable RLOF " ++ he);
    ("Unstable case ABB", "Unstable RLOF " ++ he); ("Unstable case BC", "Unstable RLOF during postMS"); ("Unstable case Bn", "Unstable RLOF during postMS");
    ("Unstable case BBA", "Unstable RLOF " ++ he); ("Unstable case BBB", "Unstable RLOF " ++ he); ("Unstable case Cn", "Unstable RLOF during postMS");
    ("Unstable case CBA", "Unstable RLOF " ++ he); ("Unstable case CBB", "Unstable RLOF " ++ he); ("Unstable case BABB", "Unstable RLOF " ++ he);
    ("Unstable case BAn", "Unstable RLOF " ++ he); ("Unstable case BBn", "Unstable RLOF " ++ he); ("Unstable case n", "Unstable RLOF while non burning");
    ("Unstable L2 RLOF", "Unstable RLOF " ++ he); ("Initial RLOF", "Initial RLOF"); ("no_RLOF", "no RLOF"); ("Not converged", "Not converged"); ("unknown", "unknown");
    ("Reverse stable MT", "Stable reverse mass-transfer phase"); ("Reverse unstable MT", "Unstable reverse mass-transfer phase") ]%string.

(** A run: its directory, interpolation class, the first two termination flags and the stars created from it (BinaryStar.from_run, SingleStar.from_run) *)
Record run := Run { r_dir : string; r_IC : string; r_TF1 : string; r_TF2 : string; r_star1 : star; r_star2 : star }.
(** The argument [index], lines 190-206 *)
Inductive index := Every | One (i : Z) | Between (l : list Z) | OtherIndex.
(** l[a:b] *)
Definition clip (n : nat) (i : Z) : nat := Z.to_nat (Z.min (Z.of_nat n) (if (i <? 0)%Z then Z.max 0 (i + Z.of_nat n) else i)).
Definition py_slice {A} (l : list A) (a b : Z) : list A := skipn (clip (length l) a) (firstn (clip (length l) b) l).
(** range(a, b) *)
Definition py_range (a b : Z) : list Z := map (fun k => (a + Z.of_nat k)%Z) (seq 0 (Z.to_nat (b - a))).
(** grid[i], psygrid.py:1701-1705: IndexError outside of the grid, also for a negative index *)
Definition get_run (grid : list run) (i : Z) : result run :=
  if (i <? 0)%Z then Raise IndexError else match nth_error grid (Z.to_nat i) with Some r => Ok r | None => Raise IndexError end.

Fixpoint traverse {A B} (f : A -> result B) (l : list A) : result (list B) :=
  match l with [] => Ok [] | a :: l' => rbind (f a) (fun b => rbind (traverse f l') (fun bs => Ok (b :: bs))) end.

Section Post.
Context (check_state : star -> bool -> result val) (patton : star -> result star) (cee : star -> star) (step_SN : SNNameModel.dict -> result (star -> result star)).

(** EXTRA_COLUMNS: the columns under construction; EXTRA_COLUMNS[key].append(v) *)
Definition columns := list (string * list val).
Definition append_to (d : columns) (kv : string * val) : result columns :=
  match dget String.eqb d (fst kv) with Some l => Ok (dset String.eqb d (fst kv) (l ++ [snd kv])) | None => Raise KeyError end.
Fixpoint append_all (d : columns) (l : list (string * val)) : result columns :=
  match l with [] => Ok d | kv :: l' => rbind (append_to d kv) (fun d' => append_all d' l') end.

(** assign_core_collapse_quantities_none with a list of names (or one), lines 42-74 *)
Definition none_writes (second : bool) (names : list string) : list (string * val) :=
  flat_map (fun name => map (fun q => (sn_col second name q, Nil)) CC_quantities) names.

(** 1. - X_h1 - X_he4 - ...: NaN if one of them is NaN, TypeError for None (lines 247-253); NaN is replaced by 0 (lines 255-264) *)
Fixpoint minus_all (acc : option Q) (l : list val) : result (option Q) :=
  match l with
  | [] => Ok acc
  | Flt x :: l' => minus_all (match acc, x with Some a, Some b => Some (a - b)%Q | _, _ => None end) l'
  | _ :: _ => Raise TypeError
  end.
Definition other (place : string) (s : star) : result val :=
  rbind (minus_all (Some 1%Q) (map (fun e => s (place ++ e)%string) [ "_h1"; "_he4"; "_c12"; "_n14"; "_o16" ]))
        (fun x => Ok (Flt (match x with Some v => Some v | None => Some 0%Q end))).

(** The loop over the stars, lines 222-291: what is appended for one star, and the star afterwards (its attributes are set by patton and cee) *)
Definition base_writes (second co : bool) (IC : string) (s : star) : result (list (string * val) * star) :=
  if negb co && inpool IC [ "no_MT"; "stable_MT"; "unstable_MT"; "stable_reverse_MT" ] then
    rbind (check_state s false) (fun st =>
    rbind (if is_nil (s "avg_c_in_c_core_at_He_depletion") || is_nil (s "co_core_mass_at_He_depletion") then patton s else Ok s) (fun s1 =>
    let s2 := cee s1 in
    rbind (other "surface" s2) (fun s_o => rbind (other "center" s2) (fun c_o =>
    Ok ([(col second "state", st); (col second "avg_c_in_c_core_at_He_depletion", s1 "avg_c_in_c_core_at_He_depletion");
         (col second "co_core_mass_at_He_depletion", s1 "co_core_mass_at_He_depletion")]
        ++ map (fun q => (col second q, s2 q)) CE_names ++ [(col second "surface_other", s_o); (col second "center_other", c_o)], s2)))))
  else
    rbind (if String.eqb IC "initial_MT" || String.eqb IC "not_converged" then Ok Nil
           else match check_state s true with Ok v => Ok v | Raise TypeError => Ok Nil | Raise e => Raise e end) (fun st =>
    Ok ([(col second "state", st); (col second "avg_c_in_c_core_at_He_depletion", Nil); (col second "co_core_mass_at_He_depletion", Nil);
         (col second "surface_other", Nil); (col second "center_other", Nil)] ++ map (fun q => (col second q, Nil)) CE_names, s)).

(** Lines 360-378: whether the attributes after the collapse have the types expected *)
Definition well_typed (s : star) (q : string) : bool :=
  if inpool q [ "state"; "SN_type" ] then is_txt (s q)
  else if String.eqb q "CO_interpolation_class" then true
  else if inpool q [ "spin"; "M4"; "mu4"; "h1_mass_ej"; "he4_mass_ej" ] then is_flt (s q) || is_nil (s q)
  else is_flt (s q).
(** Lines 400-407; for a single star the state (lines 467-469) *)
Definition co_class (single : bool) (TF2 : string) (s : star) : val :=
  match s "state" with
  | Txt st => if negb single && String.eqb st "BH" && py_in "case" TF2 && py_in "1" TF2 && py_in "2" TF2 then Txt (st ++ "_reverse_MT") else Txt st
  | v => v
  end.
(** One supernova model, lines 352-409 (single stars: 430-471).  Only the name of the model is used: the settings are those of the module for this name, with
    allow_spin_None set.  A failure of the collapse is caught, one of the constructor of the step is not. *)
Definition model_writes (single second : bool) (TF2 : string) (s : star) (name : string) : result (list (string * val)) :=
  rbind (step_SN (update (get_SN_MODEL name) [("allow_spin_None", VBool true)])) (fun collapse =>
  Ok (match collapse s with
      | Ok s' => if forallb (well_typed s') CC_quantities
                 then map (fun q => (sn_col second name q, if String.eqb q "CO_interpolation_class" then co_class single TF2 s' else s' q)) CC_quantities
                 else none_writes second [name]
      | Raise _ => none_writes second [name]
      end)).
Definition exploding (s : star) : bool := match s "state" with Txt st => inpool st CC_states | _ => false end.
Definition collapse_writes (single second : bool) (names : list string) (TF2 : string) (s : star) : result (list (string * val)) :=
  if exploding s then rbind (traverse (model_writes single second TF2 s) names) (fun l => Ok (concat l)) else Ok (none_writes second names).

(** center_gamma is not None and >= 10. *)
Definition gamma_reached (s : star) : result bool :=
  match s "center_gamma" with Nil => Ok false | Flt (Some x) => Ok (Qle_bool 10 x) | Flt None => Ok false | _ => Raise TypeError end.
(** Lines 298-346: the star which collapses, if any *)
Definition collapsing (star_2_CO : bool) (IC TF1 : string) (s1 s2 : star) : result (option bool) :=
  if inpool IC [ "no_MT"; "stable_MT"; "stable_reverse_MT" ] then
    if star_2_CO || (inpool TF1 TF1_POOL_STABLE && (py_in "primary" TF1 || py_in "Primary" TF1)) then Ok (Some false)
    else if inpool TF1 TF1_POOL_STABLE && (py_in "secondary" TF1 || py_in "Secondary" TF1) then Ok (Some true)
    else if String.eqb TF1 "gamma_center_limit" then
      rbind (gamma_reached s1) (fun g1 => if g1 then Ok (Some false) else rbind (gamma_reached s2) (fun g2 => if g2 then Ok (Some true) else Ok None))
    else Ok None
  else Ok None.
(** Lines 296-424 *)
Definition binary_writes (star_2_CO : bool) (names : list string) (r : run) (s1 s2 : star) : result (list (string * val)) :=
  rbind (collapsing star_2_CO (r_IC r) (r_TF1 r) s1 s2) (fun who =>
  match who with
  | Some second => rbind (collapse_writes false second names (r_TF2 r) (if second then s2 else s1)) (fun w => Ok (none_writes (negb second) names ++ w))
  | None => Ok (none_writes false names ++ none_writes true names)
  end).
(** Lines 476-480 *)
Definition history_write (r : run) : result (list (string * val)) :=
  match dget String.eqb legend (combine_one (r_IC r) (r_TF2 r)) with Some t => Ok [("mt_history", Txt t)] | None => Raise KeyError end.
(** Everything appended for one run, lines 210-480 *)
Definition run_writes (single star_2_CO : bool) (names : list string) (r : run) : result (list (string * val)) :=
  if single then
    rbind (base_writes false false "no_MT" (r_star1 r)) (fun b => rbind (collapse_writes true false names "no_RLOF" (snd b)) (fun w => Ok (fst b ++ w)))
  else
    rbind (base_writes false false (r_IC r) (r_star1 r)) (fun b1 =>
    rbind (base_writes true star_2_CO (r_IC r) (r_star2 r)) (fun b2 =>
    rbind (binary_writes star_2_CO names r (snd b1) (snd b2)) (fun w =>
    rbind (history_write r) (fun h => Ok (fst b1 ++ fst b2 ++ w ++ h))))).

(** Lines 168-187 *)
Definition star_columns (second : bool) (names : list string) : list string :=
  map (col second) base_quantities ++ map (col second) CE_names ++ flat_map (fun name => map (sn_col second name) CC_quantities) names.
Definition all_columns (single : bool) (names : list string) : list string :=
  if single then star_columns false names else "mt_history" :: star_columns false names ++ star_columns true names.
(** Lines 482-488 *)
Definition complete (d : columns) : bool :=
  match dget String.eqb d "S1_state" with Some l => forallb (fun kv => Nat.eqb (length l) (length (snd kv))) d | None => false end.
Fixpoint process (single star_2_CO : bool) (names : list string) (grid : list run) (indices : list Z) (d : columns) : result columns :=
  match indices with
  | [] => Ok d
  | i :: l => rbind (get_run grid i) (fun r => rbind (run_writes single star_2_CO names r) (fun w => rbind (append_all d w) (fun d' =>
              if complete d' then process single star_2_CO names grid l d' else Raise ValueError)))
  end.
(** Lines 490-497: d[new] = d.pop(old) *)
Definition ddel (d : columns) (k : string) : columns := filter (fun kv => negb (String.eqb k (fst kv))) d.
Definition rename (old new : string) (d : columns) : columns :=
  match dget String.eqb d old with Some l => dset String.eqb (ddel d old) new l | None => d end.
Definition rename_model (d : columns) (name : string) : columns :=
  rename (sn_col true name "state") (sn_col true name "CO_type") (rename (sn_col false name "state") (sn_col false name "CO_type") d).
(** post_process_grid, lines 126-499.  [models] is the dictionary of the models given by the user.  KeyError of the pop of line 493 cannot occur. *)
Definition post_process_grid {M : Type} (grid : list run) (ix : index) (star_2_CO : bool) (models : list (string * M)) (single : bool)
  : result (list string * columns) :=
  let names := map fst models in
  let dirs := map r_dir grid in
  rbind (match ix with
         | Every => Ok (py_range 0 (Z.of_nat (length grid)), dirs)
         | One i => Ok (py_range i (i + 1), py_slice dirs i (i + 1))
         | Between [a; b] => Ok (py_range a b, py_slice dirs a b)
         | Between _ => Raise ValueError
         | OtherIndex => Raise TypeError
         end) (fun sel =>
  rbind (process single star_2_CO names grid (fst sel) (dset_all String.eqb [] (map (fun k => (k, [])) (all_columns single names)))) (fun d =>
  Ok (snd sel, fold_left rename_model names d))).
End Post.

(** ** add_post_processed_quantities, lines 501-611 *)
(** np.all(np.array(a) == np.array(b)), lines 522-523: lists of different lengths are compared only if one of them has a single element, and otherwise refused *)
Definition same_dirs (a b : list string) : bool :=
  if Nat.eqb (length a) (length b) then forallb (fun p => String.eqb (fst p) (snd p)) (combine a b)
  else match a, b with [x], _ => forallb (String.eqb x) b | _, [y] => forallb (String.eqb y) a | _, _ => false end.
(** Lines 544-552: columns with text are stored as bytes of at most 70 characters, None as 'None', the others as floats, None as NaN.  A number among texts is written as
    text by [show]. *)
Definition text_column (c : string) : bool := py_in "state" c || py_in "type" c || py_in "class" c || String.eqb c "mt_history".
Definition as_text (show : val -> string) (v : val) : val := Txt (take 70 (match v with Txt s => s | Nil => "None" | _ => show v end)).
Definition as_float (v : val) : result val := match v with Flt x => Ok (Flt x) | Nil => Ok (Flt None) | Txt _ => Raise ValueError | Obj => Raise TypeError end.
Definition convert (show : val -> string) (kv : string * list val) : result (string * list val) :=
  if text_column (fst kv) then Ok (fst kv, map (as_text show) (snd kv)) else rbind (traverse as_float (snd kv)) (fun l => Ok (fst kv, l)).
(** The part of the file concerned: the directories of the runs, the final values (columns), the datasets of the supernova models *)
Record gfile := GFile { f_dirs : list string; f_final : columns; f_sn : list (string * columns) }.
(** Lines 595-607 *)
Definition sn_dataset (cols : columns) (name : string) : list (string * columns) :=
  match filter (fun kv => py_in (name ++ "_")%string (fst kv)) cols with
  | [] => []
  | sel => [(name, map (fun kv => (py_replace (name ++ "_")%string "" (fst kv), snd kv)) sel)]
  end.
(** Lines 501-611.  The columns are taken to be as long as the final values.  The datasets are rewritten as a whole. *)
Definition add_post_processed_quantities (show : val -> string) (f : gfile) (dirs : list string) (extra : columns) : result gfile :=
  if same_dirs (f_dirs f) dirs then
    match extra with
    | [] => Ok f
    | _ =>
      rbind (traverse (convert show) extra) (fun cols =>
      let sn := filter (fun kv => py_in "SN_MODEL" (fst kv)) cols in
      let rest := filter (fun kv => negb (py_in "SN_MODEL" (fst kv))) cols in
      Ok (GFile (f_dirs f) (filter (fun kv => negb (inpool (fst kv) (map fst rest))) (f_final f) ++ rest) (flat_map (fun m => sn_dataset sn (fst m)) SN_MODELS)))
    end
  else Raise ValueError.
