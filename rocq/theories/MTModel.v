(** Model of the mass-transfer and star-state inference in posydon/utils/common_functions.py. *)
From Coq Require Import String List Bool ZArith QArith.
From Verif Require Import PyBase PyNum PyStr.
Import ListNotations.
Local Open Scope string_scope.

(** limits_thresholds.py:15-80.  Literals are the exact values of the IEEE doubles. *)
Definition RL_RELATIVE_OVERFLOW_THRESHOLD : num := Fin 0.
Definition LG_MTRANSFER_RATE_THRESHOLD : num := Fin (-10 # 1).
Definition THRESHOLD_CENTRAL_ABUNDANCE : num := Fin (5764607523034235 # 576460752303423488).
Definition THRESHOLD_HE_NAKED_ABUNDANCE : num := Fin (5764607523034235 # 576460752303423488).
Definition LOG10_BURNING_THRESHOLD : num := Fin (-10 # 1).
Definition STATE_WD_STARMASS_UPPER_LIMIT : num := Fin (1643813863990231 # 1125899906842624).
Definition STATE_NS_STARMASS_LOWER_LIMIT : num := Fin (2476979795053773 # 2251799813685248).
Definition STATE_NS_STARMASS_UPPER_LIMIT : num := Fin (5 # 2).

(** common_functions.py:45-57 *)
Definition STATE_UNDETERMINED := "undetermined_evolutionary_state".
Definition BURNING_STATES :=
  [ "Core_H_burning"; "Core_He_burning"; "Shell_H_burning"; "Core_He_depleted";
    "Core_C_depleted" ].
Definition RICHNESS_STATES := [ "H-rich"; "stripped_He"; "accreted_He" ].
Definition COMPACT_OBJECTS := [ "WD"; "NS"; "BH"; "massless_remnant" ].
Definition ALL_STAR_STATES := 
  (COMPACT_OBJECTS ++ [ STATE_UNDETERMINED ]
   ++ flat_map (fun r => map (fun b => r ++ "_" ++ b)%string BURNING_STATES) RICHNESS_STATES)%list.

(** common_functions.py:59-90 *)
Definition MT_CASE_NO_RLO : Z := 0.
Definition MT_CASE_A : Z := 1.
Definition MT_CASE_B : Z := 2.
Definition MT_CASE_C : Z := 3.
Definition MT_CASE_BA : Z := 4.
Definition MT_CASE_BB : Z := 5.
Definition MT_CASE_BC : Z := 6.
Definition MT_CASE_NONBURNING : Z := 8.
Definition MT_CASE_UNDETERMINED : Z := 9.
Definition ALL_RLO_CASES : list Z := [ 1; 2; 3; 4; 5; 6; 8 ]%Z.
Definition MT_CASE_TO_STR : list (Z * string) :=
  [ (MT_CASE_NO_RLO, "no_RLO"); (MT_CASE_A, "A"); (MT_CASE_B, "B"); (MT_CASE_C, "C");
    (MT_CASE_BA, "BA"); (MT_CASE_BB, "BB"); (MT_CASE_BC, "BC");
    (MT_CASE_NONBURNING, "nonburning"); (MT_CASE_UNDETERMINED, "undetermined_MT") ].
Definition MT_STR_TO_CASE : list (string * Z) := map (fun p => (snd p, fst p)) MT_CASE_TO_STR.

(** common_functions.py:1477-1530, infer_star_state.  [fsub] is float subtraction, [round10 x]
    is [round(x, 10)] and [rel] is REL_LOG10_BURNING_THRESHOLD = log10(0.03): rounded
    operations, hence parameters. *)
Section StarState.
  Variables (fsub : num -> num -> num) (round10 : num -> num) (rel : num).

  (** [(not pd.isna(x)) and (x > 0)] *)
  Definition positive_abundance (x : pnum) : bool :=
    match x with None => false | Some v => negb (isna x) && ngt v (Fin 0) end.

  Definition infer_compact (star_mass surface_h1 center_h1 center_he4 center_c12 : pnum) : string :=
    match star_mass with
    | None => "massless_remnant"
    | Some m =>
      if isna star_mass || nle m (Fin 0) then "massless_remnant"
      else if (positive_abundance surface_h1 || positive_abundance center_h1
               || positive_abundance center_he4 || positive_abundance center_c12
               || nlt m STATE_NS_STARMASS_LOWER_LIMIT)
              && nle m STATE_WD_STARMASS_UPPER_LIMIT then "WD"
      else if nle m STATE_NS_STARMASS_UPPER_LIMIT then "NS"
      else "BH"
    end.

  Definition p_sub (a b : pnum) : result pnum :=
    match a, b with Some x, Some y => Ok (Some (fsub x y)) | _, _ => Raise TypeError end.
  Definition p_round10 (a : pnum) : result pnum :=
    match a with Some x => Ok (Some (round10 x)) | None => Raise TypeError end.

  (** lines 1499-1501 *)
  Definition rich_in (surface_h1 center_h1 : pnum) : result string :=
    rbind (p_gt surface_h1 (Some THRESHOLD_HE_NAKED_ABUNDANCE)) (fun h =>
    if h then Ok "H-rich"
    else rbind (p_round10 surface_h1) (fun s => rbind (p_round10 center_h1) (fun c =>
         rbind (p_lt s c) (fun l => Ok (if l then "accreted_He" else "stripped_He"))))).

  (** lines 1502-1505 *)
  Definition burning_of (log_L log_Lnuc : pnum) : result bool :=
    r_and (p_gt log_L (Some LOG10_BURNING_THRESHOLD))
          (rbind (p_sub log_L log_Lnuc) (fun d => p_gt d (Some rel))).

  Definition in_core (x : pnum) : result bool := p_gt x (Some THRESHOLD_CENTRAL_ABUNDANCE).

  Definition infer_star_state (star_mass surface_h1 center_h1 center_he4 center_c12
      log_LH log_LHe log_Lnuc : pnum) (star_CO : bool) : result string :=
    if star_CO then Ok (infer_compact star_mass surface_h1 center_h1 center_he4 center_c12)
    else if isna surface_h1 then Ok STATE_UNDETERMINED
    else
      rbind (rich_in surface_h1 center_h1) (fun rich =>
      rbind (burning_of log_LH log_Lnuc) (fun burning_H =>
      rbind (burning_of log_LHe log_Lnuc) (fun burning_He =>
      rbind (in_core center_h1) (fun H_in_core =>
      rbind (in_core center_he4) (fun He_in_core =>
      rbind (in_core center_c12) (fun C_in_core =>
      let burning :=
        if negb (H_in_core || He_in_core) then
          (if negb C_in_core then "Core_C_depleted" else "Core_He_depleted")
        else if H_in_core then (if burning_H then "Core_H_burning" else "non_burning")
        else if burning_He then "Core_He_burning"
        else if burning_H then "Shell_H_burning"
        else "non_burning" in
      Ok (rich ++ "_" ++ burning))))))).

  (** The attributes of a SingleStar used here, current values and histories. *)
  Record star_row := Row {
    r_mass : pnum; r_surface_h1 : pnum; r_center_h1 : pnum; r_center_he4 : pnum;
    r_center_c12 : pnum; r_log_LH : pnum; r_log_LHe : pnum; r_log_Lnuc : pnum }.
  (** Row histories are kept aligned by SingleStar.append_state, so one list of rows stands
      for the eight history lists; the state history is separate. *)
  Record sstar := SStar {
    s_state : option string; s_now : star_row;
    s_state_hist : list (option string); s_hist : list star_row }.

  Definition infer_row (r : star_row) : result string :=
    infer_star_state (r_mass r) (r_surface_h1 r) (r_center_h1 r) (r_center_he4 r)
      (r_center_c12 r) (r_log_LH r) (r_log_LHe r) (r_log_Lnuc r) false.

  Definition idx {A} (l : list A) (i : Z) : result A :=
    match py_nth l i with Some x => Ok x | None => Raise IndexError end.

  Definition opt_str_eqb (a : option string) (b : string) : bool :=
    match a with Some s => String.eqb s b | None => false end.

  (** common_functions.py:1052-1106 *)
  Definition check_state_of_star (star : sstar) (i : option Z) (star_CO : bool) : result string :=
    rbind (match i with Some k => idx (s_hist star) k | None => Ok (s_now star) end) (fun r =>
    if star_CO then
      rbind (idx (s_state_hist star) (-1)) (fun last =>
      if opt_str_eqb last "WD" || opt_str_eqb (s_state star) "WD" then Ok "WD"
      else infer_star_state (r_mass r) None None None None None None None true)
    else infer_row r).

  (** [f(i) for i in range(-N, 0)] with the first exception propagating. *)
  Fixpoint collect {A} (l : list (result A)) : result (list A) :=
    match l with
    | [] => Ok []
    | x :: l' => rbind x (fun a => rbind (collect l') (fun r => Ok (a :: r)))
    end.
  Definition range_neg (N : Z) : list Z :=
    map (fun k => Z.of_nat k - N)%Z (seq 0 (Z.to_nat N)).

  (** common_functions.py:1109-1127 *)
  Definition check_state_of_star_history_array (star : sstar) (N : Z) (star_CO : bool)
    : result (list string) :=
    collect (map (fun i => check_state_of_star star (Some i) star_CO) (range_neg N)).

  (** common_functions.py:1752-1784, get_i_He_depl; [has_columns] says whether the seven columns
      exist.  Columns hold floats. *)
  Fixpoint first_He_depl (i : Z) (l : list star_row) : result Z :=
    match l with
    | [] => Ok (-1)%Z
    | r :: l' => rbind (infer_row r) (fun s =>
                 if py_in "Core_He_depleted" s then Ok i else first_He_depl (i + 1)%Z l')
    end.
  Definition get_i_He_depl (has_columns : bool) (l : list star_row) : result Z :=
    if has_columns then first_He_depl 0 l else Ok (-1)%Z.
End StarState.

(** [sub in state]; a state that is None raises TypeError. *)
Definition in_state (sub : string) (st : option string) : result bool :=
  match st with Some s => Ok (py_in sub s) | None => Raise TypeError end.

(** common_functions.py:1533-1587 ([verbose] only prints). *)
Definition infer_mass_transfer_case (rl rate : pnum) (donor_state : option string)
    (dominating_star : bool) : result Z :=
  match rl, rate with
  | Some o, Some m =>
    if nle o RL_RELATIVE_OVERFLOW_THRESHOLD
       && (nle m LG_MTRANSFER_RATE_THRESHOLD || negb dominating_star)
    then Ok MT_CASE_NO_RLO
    else match donor_state with
    | None => Raise TypeError
    | Some s =>
      Ok (if py_in "non_burning" s then MT_CASE_NONBURNING
          else if py_in "H-rich" s then
            if py_in "Core_H_burning" s then MT_CASE_A
            else if py_in "Core_He_burning" s || py_in "Shell_H_burning" s then MT_CASE_B
            else if py_in "Core_He_depleted" s || py_in "Core_C_depleted" s then MT_CASE_C
            else MT_CASE_UNDETERMINED
          else if py_in "stripped_He" s then
            if py_in "Core_He_burning" s then MT_CASE_BA
            else if py_in "Core_He_depleted" s || py_in "Core_C_depleted" s then MT_CASE_BB
            else MT_CASE_UNDETERMINED
          else MT_CASE_UNDETERMINED)
    end
  | _, _ => Ok MT_CASE_NO_RLO
  end.

(** An entry of the list of cases: an integer flag or a string. *)
Inductive cval := CI (z : Z) | CS (s : string).
Definition cval_eqb (a b : cval) : bool :=
  match a, b with CI x, CI y => Z.eqb x y | CS x, CS y => String.eqb x y | _, _ => false end.

(** [MT_STR_TO_CASE[case]] *)
Definition str_to_case (c : cval) : result cval :=
  match c with
  | CI _ => Raise KeyError
  | CS s => match dget String.eqb MT_STR_TO_CASE s with
            | Some z => Ok (CI z)
            | None => Raise KeyError
            end
  end.

(** lines 1639-1645: the loop remembering the previous case. *)
Fixpoint changes (prev : cval) (l : list cval) : list cval :=
  match l with
  | [] => []
  | c :: l' => if cval_eqb c prev then changes prev l' else c :: changes c l'
  end.

Definition without (z : Z) (l : list cval) : list cval :=
  filter (fun c => negb (cval_eqb c (CI z))) l.

(** lines 1622-1647, after the conversion to integers *)
Definition summarise (cases : list cval) : list cval :=
  let has9 := inb cval_eqb (CI MT_CASE_UNDETERMINED) cases in
  let result := if has9 then [ CI MT_CASE_UNDETERMINED ] else [] in
  let cases1 := if has9 then without MT_CASE_UNDETERMINED cases else cases in
  if has9 && (length cases1 =? 0)%nat then result
  else
    let has0 := inb cval_eqb (CI MT_CASE_NO_RLO) cases1 in
    let cases2 := if has0 then without MT_CASE_NO_RLO cases1 else cases1 in
    match cases2 with
    | [] => (result ++ (if has0 then [ CI MT_CASE_NO_RLO ] else []))%list
    | c :: l => (result ++ c :: changes c l)%list
    end.

(** common_functions.py:1590-1647.  With neither 9 nor 0 in a non-empty list [cases[0]] exists,
    so the empty match above only happens in the no-RLO branch. *)
Definition cumulative_mass_transfer_numeric (MT_cases : list cval) : result (list cval) :=
  match MT_cases with
  | [] => Ok [ CI MT_CASE_UNDETERMINED ]
  | CS _ :: _ => rbind (collect (map str_to_case MT_cases)) (fun cases => Ok (summarise cases))
  | CI _ :: _ => Ok (summarise MT_cases)
  end.

(** common_functions.py:1650-1698 on integers; the warnings issued for unknown integers are
    returned beside the string. *)
Definition case_word (integer : Z) : option string :=
  match dget Z.eqb MT_CASE_TO_STR integer with
  | Some s => Some (s ++ "1")
  | None => match dget Z.eqb MT_CASE_TO_STR (integer - 10)%Z with
            | Some s => Some (s ++ "2")
            | None => None
            end
  end.
Fixpoint mt_string_loop (l : list Z) (result : string) (added_case_word : bool) (warns : list Z)
  : string * list Z :=
  match l with
  | [] => (result, warns)
  | integer :: l' =>
    if (integer =? MT_CASE_UNDETERMINED)%Z then
      mt_string_loop l' (result ++ "?") added_case_word warns
    else if (integer =? MT_CASE_NO_RLO)%Z then
      mt_string_loop l' (result ++ "no_RLO") added_case_word warns
    else match case_word integer with
    | Some w => mt_string_loop l' (result ++ (if added_case_word then "/" else "case_") ++ w) true warns
    | None => mt_string_loop l' result added_case_word (warns ++ [ integer ])
    end
  end.
Definition cumulative_mass_transfer_string (l : list Z) : string * list Z :=
  match l with [] => ("?", []) | _ => mt_string_loop l "" false [] end.

(** common_functions.py:1717-1746 on integers; the warnings for unknown donors are returned. *)
Fixpoint shift_loop (l : list Z) (min1 min2 : Z) : list Z * list Z :=
  match l with
  | [] => ([], [])
  | MT :: l' =>
    if (MT <=? 9)%Z then
      let '(r, w) := shift_loop l' (if (MT >? min1)%Z then MT else min1) min2 in
      ((if (MT <? min1)%Z then min1 else MT) :: r, w)
    else if (MT <=? 19)%Z then
      let '(r, w) := shift_loop l' min1 (if (MT >? min2)%Z then MT else min2) in
      ((if (MT <? min2)%Z then min2 else MT) :: r, w)
    else
      let '(r, w) := shift_loop l' min1 min2 in (MT :: r, MT :: w)
  end.
Definition corrected_cases (shift_cases : bool) (l : list Z) : list Z * list Z :=
  if shift_cases then shift_loop l 0 10 else (l, []).

(** The integers of a summary (all entries are integers when the input was). *)
Definition ints (l : list cval) : list Z :=
  flat_map (fun c => match c with CI z => [ z ] | CS _ => [] end) l.

(** common_functions.py:1701-1749 *)
Definition cumulative_mass_transfer_flag (l : list Z) (shift_cases : bool)
  : result (string * list Z) :=
  let '(c, w) := corrected_cases shift_cases l in
  rbind (cumulative_mass_transfer_numeric (map CI c)) (fun n =>
  let '(s, w') := cumulative_mass_transfer_string (ints n) in Ok (s, (w ++ w')%list)).

(** The attributes used by get_binary_state_and_event_and_mt_case. *)
Record mstar := MStar {
  ms_state : option string; ms_gamma : pnum;
  ms_state_hist : list (option string); ms_gamma_hist : list pnum }.
Record mbin := MBin {
  mb_rate : pnum; mb_rl1 : pnum; mb_rl2 : pnum;
  mb_rate_hist : list pnum; mb_rl1_hist : list pnum; mb_rl2_hist : list pnum;
  mb_star1 : mstar; mb_star2 : mstar }.

Definition bsem := (option string * option string * string)%type.

(** lines 1224-1227 and 1232-1235 *)
Definition simple_companion (s : mstar) : bool :=
  match ms_state s with
  | None => false
  | Some n => inb String.eqb n
      [ "H-rich_Core_H_burning"; "stripped_He_Core_He_burning"; "WD"; "NS"; "BH" ]
  end.

(** lines 1252-1254: the core is depleted or degenerate *)
Definition core_done (st : option string) (gamma : pnum) : result bool :=
  r_or (in_state "Core_C_depleted" st)
  (r_or (in_state "Core_He_depleted" st)
        (Ok (match gamma with Some g => nge g (Fin 10) | None => false end))).

Definition cls_is (c : option string) (s : string) : bool := opt_str_eqb c s.

(** lines 1252-1261 *)
Definition late_event (state1 state2 : option string) (gamma1 gamma2 : pnum) (st mt : string)
  : result bsem :=
  rbind (core_done state1 gamma1) (fun d1 =>
  if d1 then Ok (Some st, Some "CC1", mt)
  else rbind (core_done state2 gamma2) (fun d2 =>
  Ok (Some st, if d2 then Some "CC2" else None, mt))).

(** lines 1195-1261, once the values have been read *)
Definition bsem_body (cls : option string) (lg_mtransfer rl1 rl2 : pnum)
    (state1 state2 : option string) (gamma1 gamma2 : pnum) (star1 star2 : mstar)
  : result bsem :=
  let dominating_star1 := match rl1, rl2 with
    | Some a, Some b => nge a b
    | None, Some _ => false
    | _, None => true
    end in
  rbind (infer_mass_transfer_case rl1 lg_mtransfer state1 dominating_star1) (fun f1 =>
  rbind (infer_mass_transfer_case rl2 lg_mtransfer state2 (negb dominating_star1)) (fun f2 =>
  let str1 := fst (cumulative_mass_transfer_string [ f1 ]) in
  let str2 := fst (cumulative_mass_transfer_string
                 [ if inb Z.eqb f2 ALL_RLO_CASES then (f2 + 10)%Z else f2 ]) in
  let rlof1 := inb Z.eqb f1 ALL_RLO_CASES in
  let rlof2 := inb Z.eqb f2 ALL_RLO_CASES in
  let no_rlof := (f1 =? MT_CASE_NO_RLO)%Z && (f2 =? MT_CASE_NO_RLO)%Z in
  let unstable := cls_is cls "unstable_MT" in
  let finish := late_event state1 state2 gamma1 gamma2 in
  if rlof1 && rlof2 then
    if unstable then
      if (match rl1, rl2 with Some a, Some b => nge a b | _, _ => false end)
      then Ok (Some "contact", Some (if simple_companion star2 then "oCE1" else "oDoubleCE1"), "None")
      else Ok (Some "contact", Some (if simple_companion star1 then "oCE2" else "oDoubleCE2"), "None")
    else finish "contact" "None"
  else if no_rlof then finish "detached" "None"
  else if rlof1 && negb rlof2 then
    if unstable then Ok (Some "RLO1", Some "oCE1", str1) else finish "RLO1" str1
  else if rlof2 && negb rlof1 then
    if unstable then Ok (Some "RLO2", Some "oCE2", str2) else finish "RLO2" str2
  else finish "undefined" "None")).

(** lines 1186-1193: a missing entry of center_gamma_history is None *)
Definition gamma_at (l : list pnum) (i : Z) : pnum :=
  match py_nth l i with Some g => g | None => None end.

(** common_functions.py:1130-1261 *)
Definition get_binary_state_and_event_and_mt_case (binary : option mbin) (cls : option string)
    (i : option Z) : result bsem :=
  match binary with
  | None => Ok (None, None, "None")
  | Some b =>
    if cls_is cls "not_converged" then Ok (None, None, "None")
    else if cls_is cls "initial_MT" then Ok (Some "initial_RLOF", None, "None")
    else match i with
    | None =>
      bsem_body cls (mb_rate b) (mb_rl1 b) (mb_rl2 b)
        (ms_state (mb_star1 b)) (ms_state (mb_star2 b))
        (ms_gamma (mb_star1 b)) (ms_gamma (mb_star2 b)) (mb_star1 b) (mb_star2 b)
    | Some k =>
      rbind (idx (mb_rate_hist b) k) (fun rate =>
      rbind (idx (mb_rl1_hist b) k) (fun o1 =>
      rbind (idx (mb_rl2_hist b) k) (fun o2 =>
      rbind (idx (ms_state_hist (mb_star1 b)) k) (fun s1 =>
      rbind (idx (ms_state_hist (mb_star2 b)) k) (fun s2 =>
      bsem_body cls rate o1 o2 s1 s2
        (gamma_at (ms_gamma_hist (mb_star1 b)) k) (gamma_at (ms_gamma_hist (mb_star2 b)) k)
        (mb_star1 b) (mb_star2 b))))))
    end
  end.

(** common_functions.py:1264-1299 with [N] given: the three lists, here as a list of triples. *)
Definition get_bsem_array (binary : option mbin) (N : Z) : result (list bsem) :=
  collect (map (fun i => get_binary_state_and_event_and_mt_case binary None (Some i))
               (range_neg N)).
