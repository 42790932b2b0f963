(** Termination flags of MESA runs: posydon/grids/termination_flags.py, and their combination for plots,
    posydon/visualization/combine_TF.py. *)
From Coq Require Import String Ascii List Bool ZArith QArith.
From Verif Require Import PyBase PyNum PyStr PyStrip PyReplace MTModel.
Import ListNotations.
Open Scope string_scope.
Open Scope list_scope.

(** combine_TF.py:16-113, without the commented entries. *)
Definition TF1_POOL_STABLE : list string :=
  [ "Primary has depleted central carbon"; "Secondary has depleted central carbon";
    "Primary got stopped before central carbon depletion"; "Secondary got stopped before central carbon depletion";
    "Primary enters pair-instability regime"; "Secondary enters pair-instability regime";
    "Primary enters pulsational pair-instability regime"; "Secondary enters pulsational pair-instability regime";
    "envelope_mass_limit"; "gamma_center_limit"; "max_age" ].
Definition TF1_POOL_UNSTABLE : list string :=
  [ "overflow from L2 (D_L2) distance for q(=Macc/Mdon)>1, donor is star 1";
    "overflow from L2 (R_L2) surface for q(=Macc/Mdon)<1, donor is star 1";
    "overflow from L2 (R_L2) surface for q(=Macc/Mdon)>1, donor is star 1";
    "overflow from L2 (D_L2) distance for q(=Macc/Mdon)<1, donor is star 1";
    "overflow from L2 (R_L2) surface for q(=Macc/Mdon)<1, donor is star 2";
    "overflow from L2 (R_L2) surface for q(=Macc/Mdon)>1, donor is star 2";
    "Reached maximum mass transfer rate: 1d-1";
    "Reached maximum mass transfer rate: Exceeded photon trapping radius";
    "Both stars fill their Roche Lobe and at least one of them is off MS";
    "Terminate due to L2 overflow during case A";
    "Both stars fill their Roche Lobe and t_kh > t_acc";
    "overflow from L2, t_kh > t_acc and w > w_crit_lim, donor is star 1";
    "overflow from L2, t_kh > t_acc and w > w_crit_lim, donor is star 2" ].
Definition TF1_POOL_INITIAL_RLO : list string :=
  [ "forced_initial_RLO"; "Terminate because of overflowing initial model" ].
Definition TF1_POOL_ERROR : list string := [ "logQ_min_limit"; "min_timestep_limit"; "reach cluster timelimit" ].
Definition TF2_POOL_NO_RLO : list string := [ "no_RLOF" ].
Definition TF2_POOL_INITIAL_RLO : list string := [ "initial_RLOF" ].
Definition TF2_POOL_UNSTABLE : list string := [ "L2_RLOF" ].
Definition TF2_POOL_CONT : list string := [ "contact_during_MS" ].
Definition TF2_POOL_A : list string := [ "case_A1"; "case_A2" ].
Definition TF2_POOL_B : list string := [ "case_B1"; "case_B2" ].
Definition TF2_POOL_C : list string := [ "case_C1"; "case_C2" ].
Definition TF2_POOL_BA : list string := [ "case_BA1"; "case_BA2" ].
Definition TF2_POOL_BB : list string := [ "case_BB1"; "case_BB2" ].
Definition inpool (s : string) (pool : list string) : bool := existsb (String.eqb s) pool.

(** ** get_flag_from_MESA_output, termination_flags.py:54-99 *)
(** s[n:] *)
Fixpoint drop (n : nat) (s : string) : string :=
  match n, s with O, _ => s | S k, EmptyString => "" | S k, String _ r => drop k r end.
(** Lines 78-95 over the lines already reversed; [code] is termination_code, lines 69 and 97-99. *)
Fixpoint scan (code : string) (lines : list string) : string :=
  match lines with
  | [] => match code with EmptyString => "reach cluster timelimit" | _ => code end
  | line :: rest =>
    let has_term_code := prefix "termination code: " line in
    let has_terminate := prefix "Terminate: " line in
    let reached_tpagb := py_in "Reached TPAGB" line in
    let min_timestep := py_in "min_timestep_limit" line in
    if negb (has_term_code || has_terminate)
    then if min_timestep && reached_tpagb then "Reached TPAGB" else scan code rest
    else
      let truncate_at := String.length (if has_term_code then "termination code: " else "Terminate: ") in
      let value := strip (drop truncate_at line) in
      if min_timestep then scan value rest else value
  end.
(** [None]: no path given or no such file.  Decoding (errors='ignore') and decompression are left out. *)
Definition get_flag_from_MESA_output (file : option (list string)) : string :=
  match file with None => "reach cluster timelimit" | Some lines => scan "" (rev lines) end.

(** ** Histories *)
(** The columns of the binary history used here, and of a star's history; [columns] says whether all of
    STAR_HISTORY_VARIABLES (lines 50-51) are there. *)
Record brow := BRow { rel1 : num; rel2 : num; rate : num; m1 : num; m2 : num }.
Record history := History { columns : bool; hrows : list star_row }.

Section Flags.
Variables (fsub : num -> num -> num) (round10 : num -> num) (rel : num).

(** check_state_from_history, lines 197-227. *)
Definition check_state_from_history (h : option history) (mass : list num) (model_index : Z) : result string :=
  match h with
  | None =>
    rbind (idx mass model_index) (fun m =>
    infer_star_state fsub round10 rel (Some m) None None None None None None None true)
  | Some h =>
    if negb (columns h) then Raise KeyError
    else rbind (idx (hrows h) model_index) (fun r =>
         infer_star_state fsub round10 rel None (r_surface_h1 r) (r_center_h1 r) (r_center_he4 r) (r_center_c12 r)
           (r_log_LH r) (r_log_LHe r) (r_log_Lnuc r) false)
  end.

(** get_mass_transfer_flag, lines 102-194. *)
Definition rlof1 (r : brow) : bool :=
  (ngt (rel1 r) RL_RELATIVE_OVERFLOW_THRESHOLD || ngt (rate r) LG_MTRANSFER_RATE_THRESHOLD) && nge (rel1 r) (rel2 r).
Definition rlof2 (r : brow) : bool :=
  (ngt (rel2 r) RL_RELATIVE_OVERFLOW_THRESHOLD || ngt (rate r) LG_MTRANSFER_RATE_THRESHOLD) && nlt (rel1 r) (rel2 r).
Definition both_overflow (r : brow) : bool :=
  ngt (rel1 r) RL_RELATIVE_OVERFLOW_THRESHOLD && ngt (rel2 r) RL_RELATIVE_OVERFLOW_THRESHOLD.
(** np.arange(len(mask))[mask] *)
Definition indices (mask : list bool) : list nat := filter (fun i => nth i mask false) (seq 0 (length mask)).
(** Lines 165-172 and 183-190. *)
Definition cases (h : option history) (mass : list num) (overflow : brow -> num) (bh : list brow) (ixs : list nat)
  : result (list Z) :=
  collect (map (fun i =>
    rbind (check_state_from_history h mass (Z.of_nat i)) (fun state =>
    rbind (idx bh (Z.of_nat i)) (fun r =>
    infer_mass_transfer_case (Some (overflow r)) (Some (rate r)) (Some state) true))) ixs).
(** MT[mask] = values *)
Fixpoint put_where (mask : list bool) (values : list Z) (mt : list (option Z)) : list (option Z) :=
  match mask, mt with
  | true :: mask', _ :: mt' => match values with
                               | v :: values' => Some v :: put_where mask' values' mt'
                               | [] => mt
                               end
  | false :: mask', x :: mt' => x :: put_where mask' values mt'
  | _, _ => mt
  end.
(** One of the blocks 157-173 and 175-191: None if the flag is initial_RLOF. *)
Definition star_cases (shift : Z) (h : option history) (mass : list num) (overflow : brow -> num) (mask : list bool)
    (bh : list brow) (start_at_RLO : bool) (mt : list (option Z)) : result (option (list (option Z))) :=
  match indices mask with
  | [] => Ok (Some mt)
  | (i :: _) as ixs =>
    if negb start_at_RLO && (i =? 0)%nat then Ok None
    else rbind (cases h mass overflow bh ixs) (fun l => Ok (Some (put_where mask (map (fun t => t + shift)%Z l) mt)))
  end.
Definition present (mt : list (option Z)) : list Z := flat_map (fun t => match t with Some z => [z] | None => [] end) mt.

Definition get_mass_transfer_flag (bh : list brow) (h1 h2 : option history) (start_at_RLO : bool) (mesa_flag : option string)
  : result string :=
  let flag_in pool := match mesa_flag with Some f => inpool f pool | None => false end in
  if flag_in TF1_POOL_ERROR then Ok "None"
  else if flag_in TF1_POOL_INITIAL_RLO then Ok "initial_RLOF"
  else if existsb both_overflow bh then Ok "contact_during_MS"
  else if negb (existsb rlof1 bh) && negb (existsb rlof2 bh) then Ok "no_RLOF"
  else
    rbind (star_cases 0 h1 (map m1 bh) rel1 (map rlof1 bh) bh start_at_RLO (map (fun _ => None) bh)) (fun mt =>
    match mt with
    | None => Ok "initial_RLOF"
    | Some mt =>
      rbind (star_cases 10 h2 (map m2 bh) rel2 (map rlof2 bh) bh start_at_RLO mt) (fun mt =>
      match mt with
      | None => Ok "initial_RLOF"
      | Some mt => rbind (cumulative_mass_transfer_flag (present mt) true) (fun fw => Ok (fst fw))
      end)
    end).

(** get_flags_from_MESA_run, lines 230-272. *)
Definition get_flags_from_MESA_run (file : option (list string)) (bh : list brow) (h1 h2 : option history)
    (start_at_RLO : bool) (newTF1 : string) : result (string * string * string * string) :=
  let flag_out := match newTF1 with EmptyString => get_flag_from_MESA_output file | _ => newTF1 end in
  rbind (check_state_from_history h1 (map m1 bh) (-1)) (fun final_state_1 =>
  rbind (check_state_from_history h2 (map m2 bh) (-1)) (fun final_state_2 =>
  rbind (get_mass_transfer_flag bh h1 h2 start_at_RLO (Some flag_out)) (fun flag_mass_transfer =>
  Ok (flag_out, flag_mass_transfer, final_state_1, final_state_2)))).
End Flags.

(** infer_interpolation_class, lines 275-304. *)
Definition infer_interpolation_class (tf1 tf2 : string) : string :=
  if inpool tf1 TF1_POOL_INITIAL_RLO || inpool tf2 TF2_POOL_INITIAL_RLO then "initial_MT"
  else if inpool tf1 TF1_POOL_ERROR then "not_converged"
  else if inpool tf2 TF2_POOL_NO_RLO then "no_MT"
  else if inpool tf1 TF1_POOL_STABLE then
    if py_in "case" tf2 && py_in "1" tf2 && py_in "2" tf2 then "stable_reverse_MT" else "stable_MT"
  else if inpool tf1 TF1_POOL_UNSTABLE then "unstable_MT"
  else "unknown".

(** ** combine_TF12, combine_TF.py:141-236 *)
(** s.split('/') *)
Fixpoint split_slash (s : string) : list string :=
  match s with
  | EmptyString => [ "" ]
  | String c r => if Ascii.eqb c "/" then "" :: split_slash r
                  else match split_slash r with w :: ws => String c w :: ws | [] => [ String c "" ] end
  end.
(** s.replace('_', ' ') *)
Fixpoint underscores (s : string) : string :=
  match s with EmptyString => "" | String c r => String (if Ascii.eqb c "_" then " "%char else c) (underscores r) end.
(** s[:-1] *)
Fixpoint but_last (s : string) : string :=
  match s with EmptyString => "" | String c EmptyString => "" | String c r => String c (but_last r) end.
(** Storing in an array of type U25. *)
Fixpoint take (n : nat) (s : string) : string :=
  match n, s with O, _ => "" | S k, EmptyString => "" | S k, String c r => String c (take k r) end.
Definition u25 (s : string) : string := take 25 s.
(** Line 147. *)
Definition unmask (tf : string) : string := if prefix "?case" tf then drop 1 tf else tf.
(** Lines 183-192 and 220-229. *)
Definition first_and_last (kind tf : string) : string :=
  let words := split_slash tf in
  let fst_case := u25 (kind ++ " " ++ but_last (underscores (hd "" words)))%string in
  let lst := last words "" in
  u25 (if py_in "nonburning" lst then fst_case ++ "n" else fst_case ++ but_last lst)%string.
Definition combine_one (IC TF2 : string) : string :=
  let tf := unmask TF2 in
  if String.eqb IC "initial_MT" then "Initial RLOF"
  else if String.eqb IC "not_converged" then "Not converged"
  else if String.eqb IC "no_MT" then "no_RLOF"
  else if String.eqb IC "stable_reverse_MT" then "Reverse stable MT"
  else if String.eqb IC "stable_MT" then
    if py_in "1" tf && py_in "2" tf then "Reverse stable MT"
    else if inpool tf TF2_POOL_CONT then "Stable contact"
    else if inpool tf TF2_POOL_A then "Stable case A"
    else if inpool tf TF2_POOL_B then "Stable case B"
    else if inpool tf TF2_POOL_C then "Stable case C"
    else if inpool tf TF2_POOL_BA then "Stable case BA"
    else if inpool tf TF2_POOL_BB then "Stable case BB"
    else if py_in "case_nonburning" tf then "Stable case n"
    else if py_in "/" tf then first_and_last "Stable" tf
    else "unknown"
  else if String.eqb IC "unstable_MT" then
    if py_in "1" tf && py_in "2" tf then "Reverse unstable MT"
    else if inpool tf TF2_POOL_CONT then "Unstable contact"
    else if inpool tf TF2_POOL_A then "Unstable case A"
    else if inpool tf TF2_POOL_B then "Unstable case B"
    else if inpool tf TF2_POOL_C then "Unstable case C"
    else if inpool tf TF2_POOL_BA then "Unstable case BA"
    else if inpool tf TF2_POOL_BB then "Unstable case BB"
    else if inpool tf TF2_POOL_UNSTABLE then "Unstable L2 RLOF"
    else if py_in "case_nonburning" tf then "Unstable case n"
    else if py_in "/" tf then first_and_last "Unstable" tf
    else "unknown"
  else "unknown".
(** TF2[i] is only read for the last two classes; a shorter list raises IndexError there, which is not modelled: the lists are
    assumed to have the same length. *)
Definition combine_TF12 (IC TF2 : list string) : list string := map (fun p => combine_one (fst p) (snd p)) (combine IC TF2).
