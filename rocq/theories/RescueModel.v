(** Job scripts of population runs, posydon/CLI/io.py, and checking and rescuing runs,
    posydon/CLI/popsyn/check.py. *)
From Coq Require Import String Ascii List Bool ZArith.
From Verif Require Import PyBase PyStr PySplit PyStrip PopModel SimPropModel.
Import ListNotations.
Open Scope list_scope.
Open Scope string_scope.

(** ** Python's text functions *)

Definition nl : string := String "010"%char "".
(** str(z) *)
Definition str_Z (z : Z) : string :=
  if (z <? 0)%Z then "-" ++ str_nat (Z.to_nat (- z)) else str_nat (Z.to_nat z).
Definition digit (c : ascii) : option Z :=
  let n := nat_of_ascii c in if Nat.leb 48 n && Nat.leb n 57 then Some (Z.of_nat n - 48)%Z else None.
(** Digits, with single underscores between them; [fresh]: a digit must follow. *)
Fixpoint int_digits (s : string) (acc : Z) (fresh : bool) : option Z :=
  match s with
  | EmptyString => if fresh then None else Some acc
  | String c r =>
    match digit c with
    | Some d => int_digits r (10 * acc + d)%Z false
    | None => if Ascii.eqb c "_" && negb fresh then int_digits r acc true else None
    end
  end.
(** int(s); only digits of ASCII. *)
Definition py_int (s : string) : result Z :=
  let t := strip s in
  let o := match t with
           | EmptyString => None
           | String c r => if Ascii.eqb c "-" then option_map Z.opp (int_digits r 0 true)
                           else if Ascii.eqb c "+" then int_digits r 0 true else int_digits t 0 true
           end in
  match o with Some z => Ok z | None => Raise ValueError end.
(** f.readlines(): lines end with line feeds (carriage returns, which are translated, are left out). *)
Fixpoint readlines (s : string) : list string :=
  match s with
  | EmptyString => []
  | String c r => if Ascii.eqb c "010" then nl :: readlines r
                  else match readlines r with [] => [String c ""] | l :: ls => String c l :: ls end
  end.
(** s.lower(), for ASCII *)
Fixpoint lower (s : string) : string :=
  match s with
  | EmptyString => ""
  | String c r => let n := nat_of_ascii c in
                  String (if Nat.leb 65 n && Nat.leb n 90 then ascii_of_nat (n + 32) else c) (lower r)
  end.
(** s.endswith(t) *)
Definition endswith (t s : string) : bool :=
  Nat.leb (String.length t) (String.length s) && String.eqb (sdrop (String.length s - String.length t) s) t.
(** sorted(l) for integers *)
Fixpoint insert (x : Z) (l : list Z) : list Z :=
  match l with [] => [x] | y :: r => if (x <=? y)%Z then x :: l else y :: insert x r end.
Definition sort (l : list Z) : list Z := fold_right insert [] l.
(** np.unique(l) *)
Fixpoint adjacent_unique (l : list Z) : list Z :=
  match l with
  | x :: (y :: _) as r => if Z.eqb x y then adjacent_unique r else x :: adjacent_unique r
  | _ => l
  end.
Definition unique (l : list Z) : list Z := adjacent_unique (sort l).
(** [[f(x) for x in l]], ending with the first exception *)
Fixpoint rmap {A B} (f : A -> result B) (l : list A) : result (list B) :=
  match l with [] => Ok [] | x :: r => rbind (f x) (fun y => rbind (rmap f r) (fun ys => Ok (y :: ys))) end.

(** ** Texts of scripts, posydon/CLI/io.py *)

(** Options of a job; None is written as text.  Options with line feeds are left out: textwrap.dedent
    would see them. *)
Record settings := Settings {
  s_time : option string; s_mem : option string; s_partition : option string; s_account : option string;
  s_email : option string; s_exclude : option string; s_limit : option Z }.
Definition show (o : option string) : string := match o with Some s => s | None => "None" end.
Definition line_if (pre : string) (o : option string) : list string := match o with Some s => [pre ++ s] | None => [] end.
(** 202-218, 285-299, 370-386: the optional directives *)
Definition optional_section (l : list string) : string :=
  let s := sjoin nl l in if String.eqb s "" then "" else s ++ nl.
Definition mail (o : option string) : list string :=
  match o with Some e => ["#SBATCH --mail-type=FAIL"; "#SBATCH --mail-user=" ++ e] | None => [] end.
Definition directives (s : settings) : list string :=
  (line_if "#SBATCH --account=" (s_account s) ++ line_if "#SBATCH --partition=" (s_partition s) ++ mail (s_email s)
   ++ line_if "#SBATCH --exclude=" (s_exclude s))%list.
Definition merge_directives (s : settings) : list string :=
  (line_if "#SBATCH --account=" (s_account s) ++ line_if "#SBATCH --partition=" (s_partition s) ++ mail (s_email s))%list.
(** 220-221, 388-389 *)
Definition limited (s : string) (m : option Z) : string := match m with Some k => s ++ "%" ++ str_Z k | None => s end.
(** str(metallicity), for the supported ones *)
Definition zrepr (z : Z) : string :=
  match z with
  | 20000%Z => "2.0" | 10000%Z => "1.0" | 4500%Z => "0.45" | 2000%Z => "0.2" | 1000%Z => "0.1" | 100%Z => "0.01"
  | 10%Z => "0.001" | 1%Z => "0.0001" | _ => ""
  end.
Definition script (lines : list string) : string := fold_right (fun l t => l ++ nl ++ t) "" lines.

(** create_slurm_array, 161-244: name and text of the script *)
Definition create_slurm_array (z : Z) (n : Z) (s : settings) (path data : string) : result (string * string) :=
  rbind (zstring (VNum z)) (fun met =>
  Ok (met ++ "_Zsun_slurm_array.slurm",
      script ["#!/bin/bash"; "#SBATCH --array=0-" ++ limited (str_Z (n - 1)) (s_limit s);
              "#SBATCH --job-name=" ++ met ++ "_popsyn"; "#SBATCH --output=./" ++ met ++ "_logs/popsyn_%A_%a.out";
              "#SBATCH --time=" ++ show (s_time s); "#SBATCH --mem-per-cpu=" ++ show (s_mem s)]
      ++ optional_section (directives s)
      ++ script ["export PATH_TO_POSYDON=" ++ path; "export PATH_TO_POSYDON_DATA=" ++ data;
                 "srun python ./run_metallicity.py " ++ zrepr z])).
(** create_slurm_merge, 246-320; the time is the one for merging *)
Definition create_slurm_merge (z : Z) (s : settings) (path data : string) : result (string * string) :=
  rbind (zstring (VNum z)) (fun met =>
  let time := match s_partition s with
              | Some p => if String.eqb p "debug-cpu" then Some "00:14:00" else s_time s
              | None => s_time s
              end in
  Ok (met ++ "_Zsun_merge_popsyn.slurm",
      script ["#!/bin/bash"; "#SBATCH --job-name=" ++ met ++ "_Zsun_merge";
              "#SBATCH --output=./" ++ met ++ "_logs/popsyn_merge.out"; "#SBATCH --mem-per-cpu=" ++ show (s_mem s);
              "#SBATCH --time=" ++ show time]
      ++ optional_section (merge_directives s)
      ++ script ["export PATH_TO_POSYDON=" ++ path; "export PATH_TO_POSYDON_DATA=" ++ data;
                 "srun python ./merge_metallicity.py " ++ zrepr z])).
(** create_slurm_rescue, 324-416 *)
Definition create_slurm_rescue (z : Z) (missing : list Z) (n : option Z) (s : settings) (path data : option string)
  : result (string * string) :=
  rbind (zstring (VNum z)) (fun met =>
  let jobs := sjoin "," (map str_Z (sort missing)) in
  Ok (met ++ "_Zsun_rescue.slurm",
      script ["#!/bin/bash"; "#SBATCH --array=" ++ limited jobs (s_limit s);
              "#SBATCH --job-name=" ++ met ++ "_popsyn_rescue"; "#SBATCH --output=./" ++ met ++ "_logs/rescue_%A_%a.out";
              "#SBATCH --time=" ++ show (s_time s); "#SBATCH --mem-per-cpu=" ++ show (s_mem s)]
      ++ optional_section (directives s)
      ++ script [""; "export PATH_TO_POSYDON=" ++ show path; "export PATH_TO_POSYDON_DATA=" ++ show data; "";
                 "export SLURM_ARRAY_TASK_COUNT=" ++ match n with Some k => str_Z k | None => "None" end;
                 "export SLURM_ARRAY_TASK_MIN=0"; ""; "srun python ./run_metallicity.py " ++ zrepr z])).
(** create_bash_submit_script, 455-480: its text *)
Definition create_bash_submit_script (metallicities : list Z) : result string :=
  rbind (rmap (fun z => rbind (zstring (VNum z)) (fun met =>
    Ok (script ["array=$(sbatch --parsable " ++ met ++ "_Zsun_slurm_array.slurm)";
                "echo '" ++ met ++ " job array submitted as '${array}";
                "merge=$(sbatch --parsable --dependency=afterok:${array} --kill-on-invalid-dep=yes "
                  ++ met ++ "_Zsun_merge_popsyn.slurm)";
                "echo '" ++ met ++ " merge job submitted as '${merge}"]))) metallicities) (fun l =>
  Ok (script ["#!/bin/bash"] ++ String.concat "" l)).
(** create_bash_submit_rescue_script, 593-624: its text; [script.split('_')[0]] of the base name *)
Definition create_bash_submit_rescue_script (scripts : list string) : string :=
  script ["#!/bin/bash"] ++ String.concat "" (map (fun name =>
    let met := hd "" (split "_" name) in
    script ["resubmit=$(sbatch --parsable " ++ name ++ ")"; "echo 'Rescue script submitted as '${resubmit}";
            "merge=$(sbatch --parsable --dependency=afterok:${resubmit} --kill-on-invalid-dep=yes "
              ++ met ++ "_Zsun_merge_popsyn.slurm)";
            "echo 'Merge job submitted as '${merge}"]) scripts).

(** [start, end = map(int, text.split('-'))], giving [end - start + 1] *)
Definition range_length (t : string) : result Z :=
  rbind (rmap py_int (split "-" t)) (fun l =>
  match l with [a; b] => Ok (b - a + 1)%Z | _ => Raise ValueError end).
(** [line.split('=')[1].strip()], for lines with a sign of equality *)
Definition value (line : string) : string := strip (nth 1 (split "=" line) "").

(** What is read from the script of the array, 513-555 *)
Record parsed := Parsed { p_length : option Z; p_settings : settings; p_path : option string; p_data : option string }.
Definition nothing : parsed := Parsed None (Settings None None None None None None None) None None.
Definition parse_line (p : parsed) (line : string) : result parsed :=
  let s := p_settings p in
  if prefix "#SBATCH --array=" line then
    let a := value line in
    rbind (if py_in "%" a then rbind (py_int (nth 1 (split "%" a) "")) (fun k => Ok (hd "" (split "%" a), Some k))
           else Ok (a, s_limit s)) (fun r =>
    let s' := Settings (s_time s) (s_mem s) (s_partition s) (s_account s) (s_email s) (s_exclude s) (snd r) in
    if py_in "-" (fst r) then rbind (range_length (fst r)) (fun n => Ok (Parsed (Some n) s' (p_path p) (p_data p)))
    else Ok (Parsed (p_length p) s' (p_path p) (p_data p)))
  else
    let set s' := Ok (Parsed (p_length p) s' (p_path p) (p_data p)) in
    let v := Some (value line) in
    if prefix "#SBATCH --time=" line then
      set (Settings v (s_mem s) (s_partition s) (s_account s) (s_email s) (s_exclude s) (s_limit s))
    else if prefix "#SBATCH --mem-per-cpu=" line then
      set (Settings (s_time s) v (s_partition s) (s_account s) (s_email s) (s_exclude s) (s_limit s))
    else if prefix "#SBATCH --partition=" line then
      set (Settings (s_time s) (s_mem s) v (s_account s) (s_email s) (s_exclude s) (s_limit s))
    else if prefix "#SBATCH --account=" line then
      set (Settings (s_time s) (s_mem s) (s_partition s) v (s_email s) (s_exclude s) (s_limit s))
    else if prefix "#SBATCH --mail-user=" line then
      set (Settings (s_time s) (s_mem s) (s_partition s) (s_account s) v (s_exclude s) (s_limit s))
    else if prefix "#SBATCH --exclude=" line then
      set (Settings (s_time s) (s_mem s) (s_partition s) (s_account s) (s_email s) v (s_limit s))
    else if prefix "export PATH_TO_POSYDON=" line then Ok (Parsed (p_length p) s v (p_data p))
    else if prefix "export PATH_TO_POSYDON_DATA=" line then Ok (Parsed (p_length p) s (p_path p) v)
    else Ok p.
Definition parse_script (text : string) : result parsed :=
  fold_left (fun r line => rbind r (fun p => parse_line p line)) (readlines text) (Ok nothing).
(** 557-571: options of the command line come first *)
Definition either {A} (a b : option A) : option A := match a with Some _ => a | None => b end.
Definition override (args s : settings) : settings :=
  Settings (either (s_time args) (s_time s)) (either (s_mem args) (s_mem s)) (either (s_partition args) (s_partition s))
           (either (s_account args) (s_account s)) (either (s_email args) (s_email s))
           (either (s_exclude args) (s_exclude s)) (either (s_limit args) (s_limit s)).

(** ** The run folder *)

(** What is in the folder of a run, by names relative to it: population files with their number of systems
    (or the exception of opening one), texts of scripts, and the names in its subfolders. *)
Record folder := Folder { population : string -> option (result Z); text_of : string -> option string;
                          listing : string -> option (list string) }.
(** Effects: files written into the current working directory or the run folder, jobs of the run folder
    submitted with sbatch, and commands of the shell. *)
Inductive effect :=
| WroteHere (name text : string) | WroteInRun (name text : string) | Submitted (name : string) | Shell (command : string).
(** Programs with effects which read lines given by the user. *)
Record state := State { effects : list effect; inputs : list string }.
Definition prog (A : Type) := state -> result A * state.
Definition ret {A} (a : A) : prog A := fun s => (Ok a, s).
Definition lift {A} (r : result A) : prog A := fun s => (r, s).
Definition bind {A B} (m : prog A) (f : A -> prog B) : prog B :=
  fun s => match m s with (Ok a, s') => f a s' | (Raise e, s') => (Raise e, s') end.
Definition emit (e : effect) : prog unit := fun s => (Ok tt, State (effects s ++ [e])%list (inputs s)).
(** input(): EOFError when nothing is left *)
Definition input : prog string := fun s =>
  match inputs s with [] => (Raise (OtherError "EOFError"), s) | x :: r => (Ok x, State (effects s) r) end.
Fixpoint pmap {A B} (f : A -> prog B) (l : list A) : prog (list B) :=
  match l with [] => ret [] | x :: r => bind (f x) (fun y => bind (pmap f r) (fun ys => ret (y :: ys))) end.

(** get_expected_batch_count, check.py:303-333 *)
Fixpoint expected_in (lines : list string) : result (option Z) :=
  match lines with
  | [] => Ok None
  | line :: r =>
    if prefix "#SBATCH --array=" line then
      let a := value line in
      let t := if py_in "%" a then hd "" (split "%" a) else a in
      if py_in "-" t then rbind (range_length t) (fun n => Ok (Some n)) else expected_in r
    else expected_in r
  end.
Definition get_expected_batch_count (w : folder) (met : string) : result (option Z) :=
  match text_of w (met ++ "_Zsun_slurm_array.slurm") with
  | None => Ok None
  | Some t => expected_in (readlines t)
  end.
(** glob of evolution.combined.* in a folder with these names *)
Definition batch_files (names : list string) : list string := filter (prefix "evolution.combined.") names.
(** [file_name.split('.')[-2]] *)
Definition second_last (l : list string) : string := nth (length l - 2) l "".
(** range(n) *)
Definition zrange (n : Z) : list Z := map Z.of_nat (seq 0 (Z.to_nat n)).
(** find_missing_batch_indices, check.py:335-358; in increasing order *)
Definition find_missing_batch_indices (names : list string) (expected : Z) : result (list Z) :=
  rbind (rmap (fun f => py_int (second_last (split "." f))) (batch_files names)) (fun found =>
  Ok (filter (fun i => negb (existsb (Z.eqb i) found)) (zrange expected))).
(** print_batch_status, check.py:360-405; printing is left out *)
Definition print_batch_status (expected : option Z) (actual : Z) : string :=
  match expected with
  | None => "unknown_expected_count"
  | Some n => if (actual <? n)%Z then "incomplete" else if (actual =? n)%Z then "complete" else "extra_files"
  end.
(** select_job_id, check.py:407-454; asking again until an index is given *)
Fixpoint ask_index (ids : list Z) (lines : list string) : result Z * list string :=
  match lines with
  | [] => (Raise (OtherError "EOFError"), [])
  | x :: r =>
    match py_int x with
    | Ok i => if (0 <=? i)%Z && (i <? Z.of_nat (length ids))%Z then (Ok (nth (Z.to_nat i) ids 0%Z), r) else ask_index ids r
    | Raise _ => ask_index ids r
    end
  end.
Definition select_job_id (w : folder) (met : string) : prog (option Z) :=
  let logs := match listing w (met ++ "_logs") with Some l => l | None => [] end in
  match filter (fun f => prefix "popsyn_" f && endswith ".out" (sdrop 7 f)) logs with
  | [] => ret None
  | l => bind (lift (rmap (fun f => py_int (hd "" (split "." (nth 1 (split "_" f) "")))) l)) (fun ids =>
         match unique ids with
         | [i] => ret (Some i)
         | u => fun s => match ask_index u (inputs s) with
                         | (Ok i, r) => (Ok (Some i), State (effects s) r)
                         | (Raise e, r) => (Raise e, State (effects s) r)
                         end
         end)
  end.
(** analyze_missing_batch_logs, check.py:510-535; reading the logs prints and swallows exceptions *)
Definition analyze_missing_batch_logs (w : folder) (met : string) (missing : list Z) : prog unit :=
  match missing with [] => ret tt | _ => bind (select_job_id w met) (fun _ => ret tt) end.

Record batch := Batch { b_status : string; b_expected : option Z; b_found : Z; b_metallicity : Z;
                        b_missing : option (list Z) }.
(** check_batch, check.py:537-604 *)
Definition check_batch (w : folder) (z : Z) (name : string) : prog batch :=
  bind (lift (zstring (VNum z))) (fun met =>
  bind (lift (get_expected_batch_count w met)) (fun expected =>
  match listing w (met ++ "_Zsun_" ++ name) with
  | None => ret (Batch "folder_missing" expected 0 z None)
  | Some names =>
    let actual := Z.of_nat (length (batch_files names)) in
    bind (lift (match expected with
                | Some n => if (actual <? n)%Z then find_missing_batch_indices names n else Ok []
                | None => Ok []
                end)) (fun missing =>
    let status := print_batch_status expected actual in
    bind (analyze_missing_batch_logs w met missing) (fun _ =>
    ret (Batch status expected actual z (if String.eqb status "incomplete" then Some missing else None))))
  end)).

(** create_batch_rescue_script, io.py:483-591: writes into the current directory *)
Definition create_batch_rescue_script (w : folder) (args : settings) (b : batch) : prog string :=
  bind (lift (zstring (VNum (b_metallicity b)))) (fun met =>
  match b_missing b with
  | None | Some [] => lift (Raise ValueError)
  | Some missing =>
    match text_of w (met ++ "_Zsun_slurm_array.slurm") with
    | None => lift (Raise FileNotFoundError)
    | Some t =>
      bind (lift (parse_script t)) (fun p =>
      bind (lift (create_slurm_rescue (b_metallicity b) missing (p_length p) (override args (p_settings p)) (p_path p) (p_data p)))
        (fun f => bind (emit (WroteHere (fst f) (snd f))) (fun _ => ret (met ++ "_Zsun_rescue.slurm"))))
    end
  end).

(** get_user_confirmation, check.py:638-668 *)
Definition get_user_confirmation : prog bool :=
  bind input (fun x => let c := lower (strip x) in ret (String.eqb c "yes" || String.eqb c "y")).

(** check_population_files, check.py:172-213 *)
Fixpoint population_files (w : folder) (l : list Z) (all : bool) (d : list (Z * bool)) : result (bool * list (Z * bool)) :=
  match l with
  | [] => Ok (all, d)
  | z :: r => rbind (zstring (VNum z)) (fun met =>
    let e := match population w (met ++ "_Zsun_population.h5") with Some _ => true | None => false end in
    population_files w r (all && e) (dset Z.eqb d z e))
  end.
Definition check_population_files (w : folder) (l : list Z) : result (bool * list (Z * bool)) := population_files w l true [].
(** check_binary_counts, check.py:215-267: whether all match *)
Fixpoint check_binary_counts (w : folder) (l : list Z) (n : Z) (all : bool) : result bool :=
  match l with
  | [] => Ok all
  | z :: r => rbind (zstring (VNum z)) (fun met =>
    let m := match population w (met ++ "_Zsun_population.h5") with Some (Ok k) => Z.eqb k n | _ => false end in
    check_binary_counts w r n (all && m))
  end.
(** check_run_status, check.py:269-298 *)
Definition check_run_status (w : folder) (l : list Z) (n : Z) : result (bool * bool * list (Z * bool)) :=
  rbind (check_population_files w l) (fun r =>
  rbind (if fst r then check_binary_counts w l n true else Ok false) (fun m => Ok (fst r, m, snd r))).

(** handle_batches_complete, check.py:702-748: True if handled *)
Definition handle_batches_complete (missing : list Z) (status : list batch) : prog bool :=
  if existsb (fun b => negb (String.eqb (b_status b) "complete")) status then ret false
  else bind get_user_confirmation (fun yes =>
       if yes then bind (pmap (fun z => bind (lift (zstring (VNum z))) (fun met => emit (Submitted (met ++ "_Zsun_merge_popsyn.slurm")))) missing)
                        (fun _ => ret true)
       else ret true).

(** What get_run_configuration returns, check.py:136-168; reading and choosing the file of parameters is left out. *)
Record run := Run { r_metallicities : list Z; r_binaries : Z; r_temp : option string }.
(** check_popsyn_function, check.py:753-833 *)
Definition check_popsyn_function (w : folder) (r : run) (args : settings) : prog Z :=
  bind (lift (check_run_status w (r_metallicities r) (r_binaries r))) (fun st =>
  match st with
  | (files_exist, counts_match, file_status) =>
    if files_exist && counts_match then ret 0%Z
    else
      let missing := map fst (filter (fun e => negb (snd e)) file_status) in
      let temp := match r_temp r with Some t => t | None => "batches" end in
      bind (pmap (fun z => check_batch w z temp) missing) (fun status =>
      bind (handle_batches_complete missing status) (fun handled =>
      if handled then ret 2%Z
      else if existsb (fun b => String.eqb (b_status b) "folder_missing") status then ret 1%Z
      else bind get_user_confirmation (fun yes =>
        if yes then
          bind (pmap (create_batch_rescue_script w args) status) (fun scripts =>
          bind (emit (WroteInRun "resubmit_slurm.sh" (create_bash_submit_rescue_script scripts))) (fun _ =>
          bind get_user_confirmation (fun now =>
          if now then bind (emit (Shell "sh resubmit_slurm.sh")) (fun _ => ret 0%Z) else ret 2%Z)))
        else ret 2%Z)))
  end).
