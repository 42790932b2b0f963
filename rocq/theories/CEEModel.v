(** The common envelope step, posydon/binary_evol/CE/step_CEE.py, with period_change_stable_MT of posydon/utils/common_functions.py, over the
    real numbers.

    Quotients by zero, logarithms and powers of numbers that are not positive, and arithmetic on attributes that are not numbers are not
    modelled (the latter is [NotModelled]).  Warnings and printed text are left out.  The integration of stellar profiles, the
    matching to single star tracks and check_state_of_star are parameters ([env]). *)
From Coq Require Import Reals String Bool List.
From Verif Require Import PyBase KickModel OrbitModel.
From Verif Require MergeModel.
Import ListNotations.
Open Scope string_scope.
Open Scope R_scope.
Open Scope list_scope.

Definition NotModelled := OtherError "NotModelled".
(** What an attribute holds; [VProfile] is any other object, a stellar profile. *)
Inductive val := VNone | VNaN | VNum (x : R) | VText (s : string) | VProfile.
Definition star := string -> val.
Definition mem (k : string) (l : list string) : bool := existsb (String.eqb k) l.
Definition is_in (v : val) (l : list string) : bool := match v with VText s => mem s l | _ => false end.
Definition put (f : string -> val) (k : string) (v : val) : string -> val := fun k' => if String.eqb k' k then v else f k'.
Definition rd (f : string -> val) (k : string) : result R := match f k with VNum x => Ok x | _ => Raise NotModelled end.
Definition Reqb (x y : R) : bool := if Req_EM_T x y then true else false.
Definition log10 (x : R) : R := ln x / ln 10.

(** A BinaryStar: its own attributes and the two stars. *)
Record binary := Bin { attr : string -> val; star_1 : star; star_2 : star }.
(** [d] tells whether the donor is star 1. *)
Definition donor_of (d : bool) (b : binary) : star := if d then star_1 b else star_2 b.
Definition comp_of (d : bool) (b : binary) : star := if d then star_2 b else star_1 b.
Definition make (d : bool) (a : string -> val) (donor comp : star) : binary := if d then Bin a donor comp else Bin a comp donor.

(** The arguments of StepCEE, lines 127-145. *)
Record config := Config {
  prescription : string; efficiency : R; lambda_default : R; option_for_lambda : string; option_for_HG : string;
  H_fraction : R; He_fraction : R; tolerance : R; option_after : string; loss_when_merged : bool }.
(** [profile_lambda]: calculate_lambda_from_profile of a star with a core fraction; [ejected]: calculate_Mejected_for_integrated_binding_energy
    of a star, an energy, core mass, core radius, mass and radius; [rematch]: do_matching and then interp1d at the time of the binary
    (lines 1460-1464), None if there is no interp1d; changes to other attributes by do_matching are not modelled. *)
Record env := Env {
  profile_lambda : star -> R -> result (option R * R * R);
  ejected : star -> R -> R -> R -> R -> R -> result R;
  rematch : binary -> result (option R);
  check_state : star -> result string }.

(** flow_chart.py:42, 52-68, 72-89 *)
Definition STATES_CO := ["BH"; "NS"; "WD"].
Definition POST_MS := ["H-rich_Core_H_burning"; "H-rich_Shell_H_burning"; "H-rich_Core_He_burning"; "H-rich_Core_He_depleted";
  "H-rich_Core_C_depleted"; "H-rich_non_burning"; "accreted_He_non_burning"].
Definition POST_HeMS := ["accreted_He_Core_He_burning"; "stripped_He_Core_He_burning"; "stripped_He_Core_He_depleted";
  "stripped_He_Core_C_depleted"; "stripped_He_non_burning"].
Definition H_RICH := MergeModel.names_of FlowChartModel.STAR_STATES_H_RICH.
Definition HE_RICH := MergeModel.names_of FlowChartModel.STAR_STATES_HE_RICH.

(** ** common_functions.py:2184-2236, period_change_stable_MT *)
Definition period_change_stable_MT (period_i Mdon_i Mdon_f Macc_i alpha beta : R) : result R :=
  let DM_don := Mdon_i - Mdon_f in
  if Rltb DM_don 0 then Raise ValueError
  else
    let Macc_f := Macc_i + (1 - beta) * (1 - alpha) * DM_don in
    if Rltb alpha 0 || Rltb beta 0 || Rltb 1 alpha || Rltb 1 beta then Raise ValueError
    else if negb (Reqb beta 1)
    then Ok (period_i * Rpower (Mdon_f / Mdon_i) (3 * (alpha - 1)) * Rpower (Macc_f / Macc_i) (3 / (beta - 1))
             * ((Mdon_i + Macc_i) / (Mdon_f + Macc_f)) ^ 2)
    else Ok (period_i * Rpower (Mdon_f / Mdon_i) (3 * (alpha - 1)) * exp (3 * (1 - alpha) * (Mdon_f - Mdon_i) / Macc_f)
             * ((Mdon_i + Macc_i) / (Mdon_f + Macc_f)) ^ 2).

(** ** Lines 228-370, calculate_lambda_CE *)
(** lambda (None: NaN or None, which pd.isna treats alike), core mass, core radius and type. *)
Record core := Core { c_lambda : option R; c_mass : R; c_radius : R; c_type : string }.
Definition lambda_of (v : val) : result (option R) :=
  match v with VNum x => Ok (Some x) | VNaN | VNone => Ok None | _ => Raise NotModelled end.
Definition core_type (c : config) (donor : star) : result (string * R) :=
  if is_in (donor "state") POST_MS then
    let f := H_fraction c in
    if Reqb f 0.01 || Reqb f 0.1 || Reqb f 0.3 then Ok ("He_core", f) else Raise ValueError
  else if is_in (donor "state") POST_HeMS then
    let f := He_fraction c in
    if Reqb f 0.1 then Ok ("CO_core", f) else Raise ValueError
  else Raise ValueError.
Definition default_core (c : config) (donor : star) (type : string) : result core :=
  let p := if String.eqb type "He_core" then ("he_core_mass", "he_core_radius") else ("co_core_mass", "co_core_radius") in
  rbind (rd donor (fst p)) (fun m => rbind (rd donor (snd p)) (fun r => Ok (Core (Some (lambda_default c)) m r type))).
Definition grid_core (donor : star) (type : string) (f : R) : result core :=
  let suffix := if String.eqb type "CO_core" then "pure_He_star_10cent"
    else if Reqb f 0.01 then "1cent" else if Reqb f 0.1 then "10cent" else "30cent" in
  rbind (lambda_of (donor ("lambda_CE_" ++ suffix)%string)) (fun l =>
  rbind (rd donor ("m_core_CE_" ++ suffix)%string) (fun m =>
  rbind (rd donor ("r_core_CE_" ++ suffix)%string) (fun r => Ok (Core l m r type)))).
Definition PROFILE_OPTIONS := ["lambda_from_profile_gravitational"; "lambda_from_profile_gravitational_plus_internal";
  "lambda_from_profile_gravitational_plus_internal_minus_recombination"].
Definition no_profile (s : star) : bool := match s "profile" with VNone => true | _ => false end.
Definition calculate_lambda_CE (c : config) (e : env) (donor : star) : result core :=
  rbind (core_type c donor) (fun tf =>
  let type := fst tf in let f := snd tf in
  if String.eqb (option_for_lambda c) "default_lambda" then default_core c donor type
  else if String.eqb (option_for_lambda c) "lambda_from_grid_final_values" then grid_core donor type f
  else if no_profile donor then default_core c donor type
  else if negb (mem (option_for_lambda c) PROFILE_OPTIONS) then Raise ValueError
  else rbind (profile_lambda e donor f) (fun x => Ok (Core (fst (fst x)) (snd (fst x)) (snd x) type))).

(** ** Lines 372-466, CEE_adjust_post_CE_core_masses: mass and radius of the donor, mass and radius of the companion *)
(** The types are 'He_core' and 'CO_core' here. *)
Definition post_CE_core_masses (donor : star) (k1 : core) (comp : star) (k2 : core) (double_CE : bool) : result (R * R * (R * R)) :=
  let names t := if String.eqb t "He_core" then ("he_core_mass", "he_core_radius") else ("co_core_mass", "co_core_radius") in
  rbind (rd donor (fst (names (c_type k1)))) (fun m1 => rbind (rd donor (snd (names (c_type k1)))) (fun r1 =>
  let m1 := if Rltb (c_mass k1) m1 then c_mass k1 else m1 in
  if negb double_CE then Ok (m1, r1, (c_mass k2, c_radius k2))
  else
    rbind (rd comp (fst (names (c_type k2)))) (fun m2 => rbind (rd donor (snd (names (c_type k2)))) (fun r2 =>
    let m2 := if Rltb (c_mass k2) m2 then c_mass k2 else m2 in
    Ok (m1, r1, (m2, r2)))))).

(** ** Lines 468-781, what is left after the envelope has gone: masses, radii, separation (Rsun), period (days) and whether the cores merge *)
Record left := Left { l_m1 : R; l_r1 : R; l_m2 : R; l_r2 : R; l_sep : R; l_period : R; l_merger : bool }.
Definition overflow (c : config) (m1 r1 m2 r2 a : R) : bool := check_for_RLO (Some m1) (Some r1) (Some m2) (Some r2) (Some a) (tolerance c).
Definition one_phase (c : config) (k1 k2 : core) (separation_postCEE : R) : left :=
  let m1 := c_mass k1 in let r1 := c_radius k1 in let m2 := c_mass k2 in let r2 := c_radius k2 in
  let a := separation_postCEE / Rsun in
  Left m1 r1 m2 r2 a (orbital_period_from_separation a m1 m2) (overflow c m1 r1 m2 r2 a).
Definition windloss (c : config) (donor : star) (k1 : core) (comp : star) (k2 : core) (double_CE : bool) (separation_postCEE : R) : result left :=
  rbind (post_CE_core_masses donor k1 comp k2 double_CE) (fun x =>
  let m1 := fst (fst x) in let r1 := snd (fst x) in let m2 := fst (snd x) in let r2 := snd (snd x) in
  let a := separation_postCEE / Rsun in
  let P := orbital_period_from_separation a (c_mass k1) (c_mass k2) in
  if overflow c (c_mass k1) r1 (c_mass k2) r2 a then Ok (Left (c_mass k1) r1 (c_mass k2) r2 a P true)
  else
    rbind (period_change_stable_MT P (c_mass k1) m1 (c_mass k2) 1 0) (fun P1 =>
    rbind (if double_CE then period_change_stable_MT P1 (c_mass k2) m2 m1 1 0 else Ok P1) (fun Pf =>
    let af := orbital_separation_from_period Pf m1 m2 in
    Ok (Left m1 r1 m2 r2 af Pf (overflow c m1 r1 m2 r2 af))))).
Definition stableMT (c : config) (donor : star) (k1 : core) (comp : star) (k2 : core) (double_CE : bool) (separation_postCEE : R) : result left :=
  if double_CE then windloss c donor k1 comp k2 double_CE separation_postCEE
  else
  rbind (post_CE_core_masses donor k1 comp k2 double_CE) (fun x =>
  let m1 := fst (fst x) in let r1 := snd (fst x) in let m2 := fst (snd x) in let r2 := snd (snd x) in
  let a := separation_postCEE / Rsun in
  let P := orbital_period_from_separation a (c_mass k1) (c_mass k2) in
  if overflow c (c_mass k1) r1 (c_mass k2) r2 a then Ok (Left (c_mass k1) r1 (c_mass k2) r2 a P true)
  else
    rbind (period_change_stable_MT P (c_mass k1) m1 (c_mass k2) 0 1) (fun Pf =>
    let af := orbital_separation_from_period Pf m1 m2 in
    Ok (Left m1 r1 m2 r2 af Pf (overflow c m1 r1 m2 r2 af)))).

(** Lines 928-956 *)
Definition phase (c : config) (donor : star) (k1 : core) (comp : star) (k2 : core) (double_CE : bool) (a : R) : result left :=
  if String.eqb (option_after c) "one_phase_variable_core_definition" then Ok (one_phase c k1 k2 a)
  else if String.eqb (option_after c) "two_phases_stableMT" then stableMT c donor k1 comp k2 double_CE a
  else if String.eqb (option_after c) "two_phases_windloss" then windloss c donor k1 comp k2 double_CE a
  else Raise ValueError.

(** ** Lines 887-908, the energy budget; separations in cm *)
Definition ebind (lam : option R) (m mc radius : R) : R :=
  match lam with
  | None => 0
  | Some l => - standard_cgrav / l * (m * Msun * (m - mc) * Msun) / (radius * Rsun)
  end.
Definition separation_before (period_i m1_i m2_i : R) : R := Rsun * orbital_separation_from_period period_i m1_i m2_i.
Definition separation_after (alpha period_i m1_i radius1 : R) (k1 : core) (m2_i radius2 : R) (k2 : core) (double_CE : bool) : R :=
  let ebind_i := ebind (c_lambda k1) m1_i (c_mass k1) radius1 + (if double_CE then ebind (c_lambda k2) m2_i (c_mass k2) radius2 else 0) in
  let eorb_i := - 0.5 * standard_cgrav * m1_i * Msun * m2_i * Msun / separation_before period_i m1_i m2_i in
  let eorb_postCEE := eorb_i + ebind_i / alpha in
  - 0.5 * standard_cgrav * c_mass k1 * Msun * c_mass k2 * Msun / eorb_postCEE.

(** ** Lines 1405-1474, adjust_secondary_radius *)
Definition adjust_secondary_radius (c : config) (e : env) (b : binary) (comp : star) (k1 k2 : core) (separation_postCEE : R) : result R :=
  let a := Some (separation_postCEE / Rsun) in
  let RL1 := roche_of (Some (c_mass k1)) (Some (c_mass k2)) a in
  let RL2 := roche_of (Some (c_mass k2)) (Some (c_mass k1)) a in
  if flt (lift2 Rminus (Some (c_radius k1)) RL1) (tolerance c)
     && match RL2 with Some r => Rltb (tolerance c) (c_radius k2 - r) | None => false end
  then
    if is_in (comp "state") H_RICH || is_in (comp "state") HE_RICH
    then rbind (rematch e b) (fun r => Ok (match r with Some r => r | None => c_radius k2 end))
    else Raise ValueError
  else Ok (c_radius k2).

(** ** Lines 991-1187, CEE_adjust_binary_upon_ejection *)
(** binary_evol/binarystar.py:88-118 *)
Definition BINARYPROPERTIES := ["state"; "event"; "time"; "separation"; "orbital_period"; "eccentricity"; "V_sys"; "rl_relative_overflow_1";
  "rl_relative_overflow_2"; "lg_mtransfer_rate"; "mass_transfer_case"; "trap_radius"; "acc_radius"; "t_sync_rad_1"; "t_sync_conv_1";
  "t_sync_rad_2"; "t_sync_conv_2"; "nearest_neighbour_distance"].
Definition BINARY_SET := ["separation"; "orbital_period"; "eccentricity"; "state"; "event"].
Definition BINARY_KEPT := ["time"; "V_sys"; "mass_transfer_case"; "nearest_neighbour_distance"].
(** Writing NaN to the members of a list of attributes that are not in another one. *)
Definition nan_except (keep props : list string) (f : string -> val) : string -> val :=
  fun k => if mem k props && negb (mem k keep) then VNaN else f k.
Definition ejection_attrs (d : bool) (donor : star) (separation_f orbital_period_f : R) (f : string -> val) : string -> val :=
  let f := put (put (put (put (put f "separation" (VNum separation_f)) "orbital_period" (VNum orbital_period_f)) "eccentricity" (VNum 0))
                 "state" (VText "detached")) "event" VNone in
  let f := if is_in (donor "state") ["stripped_He_Core_He_depleted"] then put f "event" (VText (if d then "CC1" else "CC2")) else f in
  nan_except (BINARY_SET ++ BINARY_KEPT) BINARYPROPERTIES f.
Definition Zsun : R := 0.0142.
Definition STAR_KEPT := ["surface_h1"; "surface_he4"; "log_LH"; "log_LHe"; "he_core_mass"; "he_core_radius"; "co_core_mass"; "co_core_radius";
  "center_h1"; "center_he4"; "center_c12"; "center_o16"; "center_n14"; "metallicity"; "log_LZ"; "log_Lnuc"; "c12_c12"; "center_gamma";
  "avg_c_in_c_core"].
(** Lines 1098-1186 for one star. *)
Definition eject_star (c : config) (e : env) (s : star) (type : string) (m r : R) : result star :=
  let one := String.eqb (option_after c) "one_phase_variable_core_definition" in
  let s := put (put s "mass" (VNum m)) "log_R" (VNum (log10 r)) in
  rbind
    (if String.eqb type "He_core" then
       let h1 := if one then H_fraction c else 0.01 in
       let s := put (put (put s "surface_h1" (VNum h1)) "he_core_mass" (VNum m)) "he_core_radius" (VNum r) in
       rbind (match s "metallicity" with
              | VNone => Ok (VNum (1 - h1 - Zsun))
              | VNum z => Ok (VNum (1 - h1 - z * Zsun))
              | VNaN => Ok VNaN
              | _ => Raise NotModelled
              end) (fun he4 =>
       Ok (put (put s "surface_he4" he4) "log_LH" (VNum (- 1e99))))
     else if String.eqb type "CO_core" then
       let s := put (put (put (put s "he_core_mass" (VNum m)) "he_core_radius" (VNum r)) "co_core_mass" (VNum m)) "co_core_radius" (VNum r) in
       Ok (put (put (put (put s "surface_h1" (VNum 0)) "surface_he4" (VNum (if one then He_fraction c else 0.1)))
                  "log_LH" (VNum (- 1e99))) "log_LHe" (VNum (- 1e99)))
     else Raise ValueError)
    (fun s => rbind (check_state e s) (fun st =>
     Ok (nan_except (["mass"; "log_R"; "state"] ++ STAR_KEPT) MergeModel.STARPROPERTIES (put s "state" (VText st))))).
Definition upon_ejection (c : config) (e : env) (d : bool) (b : binary) (k1 k2 : core) (double_CE : bool) (l : left) : result binary :=
  let donor := donor_of d b in let comp := comp_of d b in
  let a := ejection_attrs d donor (l_sep l) (l_period l) (attr b) in
  rbind (eject_star c e donor (c_type k1) (l_m1 l) (l_r1 l)) (fun donor' =>
  rbind (if double_CE then eject_star c e comp (c_type k2) (l_m2 l) (l_r2 l) else Ok comp) (fun comp' =>
  Ok (make d a donor' comp'))).

(** ** Lines 1189-1347, CEE_adjust_mass_loss_during_CEE_merged
    With a single common envelope and a profile, lines 1328-1339 read M_envelope_donor and Mejected_comp, which have no value. *)
Definition UnboundLocalError := OtherError "UnboundLocalError".
Definition mass_loss (c : config) (e : env) (donor comp : star) (m1_i radius1 : R) (k1 : core) (m2_i radius2 : R) (k2 : core)
    (separation_i : R) (double_CE : bool) : result (R * R) :=
  if (negb double_CE && no_profile donor) || (double_CE && (no_profile donor || no_profile comp)) then Ok (0, 0)
  else
    let mc1 := c_mass k1 in let mc2 := c_mass k2 in
    match roche_of (Some mc1) (Some mc2) (Some 1), roche_of (Some mc2) (Some mc1) (Some 1) with
    | Some rl1, Some rl2 =>
        let separation_before_merger := Rmax (c_radius k1 / rl1) (c_radius k2 / rl2) * Rsun in
        let E_orb_initial := - standard_cgrav * m1_i * Msun * m2_i * Msun / (2 * separation_i) in
        let E_orb_final := - standard_cgrav * mc1 * Msun * mc2 * Msun / (2 * separation_before_merger) in
        let released := efficiency c * (E_orb_initial - E_orb_final) in
        if negb double_CE then
          rbind (ejected e donor released mc1 (c_radius k1) m1_i radius1) (fun _ => Raise UnboundLocalError)
        else
          let env1 := m1_i - mc1 in let env2 := m2_i - mc2 in
          let weight := env1 / (env1 + env2) in
          rbind (ejected e donor (released * weight) mc1 (c_radius k1) m1_i radius1) (fun x1 =>
          rbind (ejected e comp (released * (1 - weight)) mc2 (c_radius k2) m2_i radius2) (fun x2 =>
          Ok (if Rltb env1 x1 then env1 - 0.01 else x1, if Rltb env2 x2 then env2 - 0.01 else x2)))
    | _, _ => Raise NotModelled
    end.

(** ** Lines 1349-1403, CEE_adjust_binary_upon_merger *)
Definition merge_star (s : star) (type : string) (m : R) : star :=
  let s := put (put s "mass" (VNum m)) "log_R" VNaN in
  if String.eqb type "CO_core" then put (put s "he_core_mass" (VNum m)) "he_core_radius" VNaN else s.
Definition merged_attrs (d : bool) (f : string -> val) : string -> val :=
  put (put f "state" (VText "merged")) "event" (VText (if d then "oMerging1" else "oMerging2")).
Definition upon_merger (d : bool) (b : binary) (m1_i m2_i : R) (k1 k2 : core) (lost1 lost2 : R) : binary :=
  make d (merged_attrs d (attr b)) (merge_star (donor_of d b) (c_type k1) (m1_i - lost1)) (merge_star (comp_of d b) (c_type k2) (m2_i - lost2)).

(** ** Lines 783-987, CEE_simple_alpha_prescription *)
Definition simple_alpha_prescription (c : config) (e : env) (d : bool) (b : binary) (k1 k2 : core) (double_CE : bool) : result binary :=
  let donor := donor_of d b in let comp := comp_of d b in
  rbind (rd donor "mass") (fun m1_i => rbind (rd donor "log_R") (fun log_R1 =>
  rbind (rd comp "mass") (fun m2_i => rbind (rd comp "log_R") (fun log_R2 =>
  rbind (rd (attr b) "orbital_period") (fun period_i =>
  let radius1 := Rpower 10 log_R1 in let radius2 := Rpower 10 log_R2 in
  let a := separation_after (efficiency c) period_i m1_i radius1 k1 m2_i radius2 k2 double_CE in
  if Rltb a (- tolerance c) then Raise ValueError
  else
  rbind (if negb double_CE && negb (is_in (comp "state") STATES_CO) then adjust_secondary_radius c e b comp k1 k2 a else Ok (c_radius k2)) (fun rc2 =>
  let k2 := Core (c_lambda k2) (c_mass k2) rc2 (c_type k2) in
  rbind (phase c donor k1 comp k2 double_CE a) (fun l =>
  if l_merger l then
    rbind (if loss_when_merged c
           then mass_loss c e donor comp m1_i radius1 k1 m2_i radius2 k2 (separation_before period_i m1_i m2_i) double_CE
           else Ok (0, 0)) (fun x =>
    Ok (upon_merger d b m1_i m2_i k1 k2 (fst x) (snd x)))
  else upon_ejection c e d b k1 k2 double_CE l))))))).

(** ** Lines 163-226, __call__ *)
Definition MERGEABLE := ["H-rich_Core_H_burning"; "stripped_He_Core_He_burning"; "accreted_He_Core_He_burning"].
Definition call (c : config) (e : env) (b : binary) : result binary :=
  rbind (if is_in (attr b "event") ["oCE1"; "oDoubleCE1"] then Ok true
         else if is_in (attr b "event") ["oCE2"; "oDoubleCE2"] then Ok false
         else Raise ValueError) (fun d =>
  let double_CE := is_in (attr b "event") ["oDoubleCE1"; "oDoubleCE2"] in
  let donor := donor_of d b in let comp := comp_of d b in
  let mergeable_donor := is_in (donor "state") MERGEABLE in
  let mergeable_HG_donor := String.eqb (option_for_HG c) "pessimistic" && is_in (donor "state") ["H-rich_Shell_H_burning"] in
  if mergeable_donor || mergeable_HG_donor then Ok (Bin (merged_attrs d (attr b)) (star_1 b) (star_2 b))
  else if String.eqb (prescription c) "alpha-lambda" then
    rbind (calculate_lambda_CE c e donor) (fun k1 =>
    rbind (if double_CE then calculate_lambda_CE c e comp
           else rbind (rd comp "mass") (fun m => rbind (rd comp "log_R") (fun r => Ok (Core None m (Rpower 10 r) "not_giant_companion")))) (fun k2 =>
    simple_alpha_prescription c e d b k1 k2 double_CE))
  else Raise ValueError).

(** ** Lines 147-161, __init__: the names of the keyword arguments *)
Definition KEYWORDS := ["prescription"; "common_envelope_efficiency"; "common_envelope_lambda_default"; "common_envelope_option_for_lambda";
  "common_envelope_option_for_HG_star"; "common_envelope_alpha_thermal"; "core_definition_H_fraction"; "core_definition_He_fraction";
  "CEE_tolerance_err"; "verbose"; "common_envelope_option_after_succ_CEE"; "mass_loss_during_CEE_merged"; "metallicity"; "track_matcher"].
Definition init_ok (kwargs : list string) : bool := forallb (fun k => mem k KEYWORDS) kwargs.
Definition DEFAULTS : config := Config "alpha-lambda" 1 0.5 "lambda_from_grid_final_values" "optimistic" 0.3 0.1 0.001 "two_phases_stableMT" false.
