(** Merging two stars, posydon/binary_evol/DT/step_merged.py, and the steps for isolated stars, posydon/binary_evol/DT/step_isolated.py,
    step_disrupted.py, step_initially_single.py and posydon/binary_evol/step_end.py. *)
From Coq Require Import String List Bool ZArith QArith.
From Verif Require Import PyBase PyNum PyStr MTModel FlowChartModel BinaryModel.
Import ListNotations.
Open Scope string_scope.
Open Scope list_scope.

Definition ModelError := OtherError "ModelError".
(** singlestar.py:40-108, without 'state' *)
Definition STARPROPERTIES :=
  [ "metallicity"; "mass"; "log_R"; "log_L"; "lg_mdot"; "lg_system_mdot"; "lg_wind_mdot"; "he_core_mass"; "he_core_radius"; "c_core_mass";
    "c_core_radius"; "o_core_mass"; "o_core_radius"; "co_core_mass"; "co_core_radius"; "center_h1"; "center_he4"; "center_c12"; "center_n14";
    "center_o16"; "surface_h1"; "surface_he4"; "surface_c12"; "surface_n14"; "surface_o16"; "log_LH"; "log_LHe"; "log_LZ"; "log_Lnuc"; "c12_c12";
    "center_gamma"; "avg_c_in_c_core"; "surf_avg_omega"; "surf_avg_omega_div_omega_crit"; "total_moment_of_inertia"; "log_total_angular_momentum";
    "spin"; "conv_env_top_mass"; "conv_env_bot_mass"; "conv_env_top_radius"; "conv_env_bot_radius"; "conv_env_turnover_time_g";
    "conv_env_turnover_time_l_b"; "conv_env_turnover_time_l_t"; "envelope_binding_energy"; "mass_conv_reg_fortides"; "thickness_conv_reg_fortides";
    "radius_conv_reg_fortides"; "lambda_CE_1cent"; "lambda_CE_10cent"; "lambda_CE_30cent"; "lambda_CE_pure_He_star_10cent"; "profile";
    "total_mass_h1"; "total_mass_he4" ].
(** A SingleStar: its state and its other attributes, numbers or None (also 'profile', which is only overwritten here).  Every star has
    all attributes in STARPROPERTIES, so the defaults of getattr are not used. *)
Record star := Star { sstate : string; attr : string -> pnum }.
Definition setattr (s : star) (k : string) (v : pnum) : star := Star (sstate s) (fun k' => if String.eqb k' k then v else attr s k').
Definition mem (k : string) (l : list string) : bool := existsb (String.eqb k) l.

(** singlestar.py:122-133 *)
Definition convert_star_to_massless_remnant (s : star) : star :=
  Star "massless_remnant" (fun k => if String.eqb k "mass" then Some (Fin 0) else if mem k STARPROPERTIES then Some NaN else attr s k).
(** step_merged.py:215-220 *)
Definition NAN_SUBSTRINGS := [ "log_"; "lg_"; "surf_"; "conv_"; "lambda"; "profile" ].
Definition NAN_KEYS := [ "c12_c12"; "total_moment_of_inertia"; "spin" ].
Definition apply_nan_attributes (s : star) (extra_nan_keys : list string) : star :=
  fold_left (fun s k => if existsb (fun sub => py_in sub k) NAN_SUBSTRINGS || mem k extra_nan_keys || mem k NAN_KEYS then setattr s k (Some NaN) else s)
    STARPROPERTIES s.

(** step_merged.py:28-35 and the lists of flow_chart.py *)
Definition names_of (l : list star_state) : list string := map star_name l.
Definition FOR_HMS := [ "H-rich_Core_H_burning" ].
Definition FOR_HeMS := [ "stripped_He_Core_He_burning" ].
Definition FOR_POSTMS := filter (fun s => negb (mem s FOR_HMS)) (names_of STAR_STATES_H_RICH).
Definition FOR_POSTHeMS := filter (fun s => negb (mem s FOR_HeMS)) (names_of STAR_STATES_HE_RICH).
Definition HE_RICH := names_of STAR_STATES_HE_RICH.
(** flow_chart.py:46-47 *)
Definition NOT_CO := names_of (star_minus STAR_STATES_ALL STAR_STATES_CO).

(** The two objects star_base and comp; merged_star is one of them. *)
Record pair := Pair { base : star; comp : star }.
Inductive side := Base | Comp.
Definition the (d : side) (p : pair) : star := match d with Base => base p | Comp => comp p end.
Definition upd (d : side) (f : star -> star) (p : pair) : pair := match d with Base => Pair (f (base p)) (comp p) | Comp => Pair (base p) (f (comp p)) end.

Definition CENTERS := [ "center_h1"; "center_he4"; "center_c12"; "center_n14"; "center_o16" ].
Definition SURFACES := [ "surface_h1"; "surface_he4"; "surface_c12"; "surface_n14"; "surface_o16" ].
Definition CENTERS_C := CENTERS ++ [ "avg_c_in_c_core" ].
Definition MASSES := [ "mass"; "he_core_mass"; "c_core_mass"; "o_core_mass"; "co_core_mass" ].

(** [x == 0] and [x > 0] for a number or None *)
Definition is0 (x : pnum) : bool := match x with Some (Fin q) => Qeq_bool q 0 | _ => false end.
Definition gt0 (x : pnum) : result bool := p_gt x (Some (Fin 0)).
Definition isfinite (x : num) : bool := match x with Fin _ => true | _ => false end.
Definition or_nan (x : pnum) : num := match x with Some v => v | None => NaN end.

Section Merge.
  (** Float arithmetic; round10 and rel as in `MTModel`. *)
  Variables (fadd fsub fmul fdiv : num -> num -> num) (round10 : num -> num) (rel : num).
  (** Parameters of the step, lines 43-50: merger_critical_rot and 1. - rel_mass_lost_HMS_HMS. *)
  Variables (critical_rot kept_mass : num).
  Definition p_op (f : num -> num -> num) (a b : pnum) : result pnum := match a, b with Some x, Some y => Ok (Some (f x y)) | _, _ => Raise TypeError end.
  (** Lines 152-174. *)
  Definition weight (s : star) (w : string) : result num :=
    if String.eqb w "H-rich_envelope_mass" then rbind (p_op fsub (attr s "mass") (attr s "he_core_mass")) (fun m => Ok (or_nan m))
    else if String.eqb w "He-rich_envelope_mass" then rbind (p_op fsub (attr s "he_core_mass") (attr s "co_core_mass")) (fun m => Ok (or_nan m))
    else Ok (or_nan (attr s w)).
  (** Lines 144-194. *)
  Definition mass_weighted_avg (p : pair) (name w1 w2 : string) : result pnum :=
    let a1 := or_nan (attr (base p) name) in
    let a2 := or_nan (attr (comp p) name) in
    rbind (weight (base p) w1) (fun m1 => rbind (weight (comp p) w2) (fun m2 =>
    let den := fadd m1 m2 in
    Ok (Some (if negb (isfinite a1 && isfinite a2 && isfinite m1 && isfinite m2) then NaN
              else if is0 (Some den) then NaN
              else fdiv (fadd (fmul a1 m1) (fmul a2 m2)) den)))).
  (** The loops over abundances, e.g. 252-258, and over masses, e.g. 392-394. *)
  Fixpoint for_each (d : side) (f : pair -> string -> result pnum) (names : list string) (p : pair) : result pair :=
    match names with
    | [] => Ok p
    | k :: names' => rbind (f p k) (fun v => for_each d f names' (upd d (fun s => setattr s k v) p))
    end.
  Definition mix (d : side) (names : list string) (w1 w2 : string) : pair -> result pair := for_each d (fun p k => mass_weighted_avg p k w1 w2) names.
  Definition copy_from (src d : side) (names : list string) : pair -> result pair := for_each d (fun p k => Ok (attr (the src p) k)) names.
  Definition add_masses (d : side) : pair -> result pair := for_each d (fun p k => p_op fadd (attr (base p) k) (attr (comp p) k)) MASSES.
  Definition gamma_nan (d : side) (p : pair) : pair := upd d (fun s => setattr s "center_gamma" (Some NaN)) p.
  Definition gamma_from (src d : side) (p : pair) : pair := upd d (fun s => setattr s "center_gamma" (attr (the src p) "center_gamma")) p.
  Definition r_pure {A B} (f : A -> B) (x : result A) : result B := rbind x (fun a => Ok (f a)).
  (** Lines 337-379, 489-528 and 606-643 (merged_star is star_base) and 552-585 (it is comp).  The warning is left out. *)
  Definition mix_cores (d : side) (p : pair) : result pair :=
    let b := attr (base p) "co_core_mass" in let c := attr (comp p) "co_core_mass" in
    if is0 b && is0 c then r_pure (gamma_nan d) (mix d CENTERS_C "he_core_mass" "he_core_mass" p)
    else rbind (r_and (gt0 b) (Ok (is0 c))) (fun b_only =>
    if b_only then match d with Base => Ok p | Comp => r_pure (gamma_from Base Comp) (copy_from Base Comp CENTERS_C p) end
    else rbind (r_and (gt0 c) (Ok (is0 b))) (fun c_only =>
    if c_only then match d with Base => r_pure (gamma_from Comp Base) (copy_from Comp Base CENTERS_C p) | Comp => Ok p end
    else rbind (r_and (gt0 b) (gt0 c)) (fun both =>
    if both then r_pure (gamma_nan d) (mix d CENTERS_C "co_core_mass" "co_core_mass" p) else Ok p))).
  (** Lines 412-429 and 451-467. *)
  Definition mix_cores_HeMS (d : side) (p : pair) : result pair :=
    let b := attr (base p) "co_core_mass" in let c := attr (comp p) "co_core_mass" in
    if is0 b && is0 c then r_pure (gamma_nan d) (mix d CENTERS_C "he_core_mass" "he_core_mass" p)
    else rbind (match d with Base => r_and (gt0 b) (Ok (is0 c)) | Comp => r_and (Ok (is0 b)) (gt0 c) end) (fun _ => Ok p).
  (** Lines 676-697. *)
  Definition mix_cores_WD (p : pair) : result pair :=
    let b := attr (base p) "co_core_mass" in let c := attr (comp p) "co_core_mass" in
    match c with
    | None => Ok p
    | Some _ =>
      if is0 b then r_pure (gamma_from Comp Base) (copy_from Comp Base CENTERS_C p)
      else rbind (gt0 b) (fun g => if g then r_pure (gamma_nan Base) (mix Base CENTERS_C "co_core_mass" "co_core_mass" p) else Ok p)
    end.
  (** e.g. lines 397-400 *)
  Definition check_state (s : star) : result star :=
    rbind (infer_star_state fsub round10 rel (attr s "mass") (attr s "surface_h1") (attr s "center_h1") (attr s "center_he4") (attr s "center_c12")
             (attr s "log_LH") (attr s "log_LHe") (attr s "log_Lnuc") false) (fun st => Ok (Star st (attr s))).
  (** Line 721: the returned objects merged_star and massless_remnant. *)
  Definition returned (d : side) (p : pair) : star * star :=
    let merged := setattr (the d p) "surf_avg_omega_div_omega_crit" (Some critical_rot) in
    match d with Base => (merged, convert_star_to_massless_remnant (comp p)) | Comp => (merged, convert_star_to_massless_remnant (base p)) end.
  (** e.g. lines 396-401: NaN attributes, state, remnant *)
  Definition finish (d : side) (p : pair) : result (star * star) :=
    let p := upd d (fun s => apply_nan_attributes s []) p in
    rbind (check_state (the d p)) (fun s => Ok (returned d (upd d (fun _ => s) p))).
  (** Lines 272-326: after the attributes were set to NaN, merged_star.log_LHe = star_base.log_LHe reads the same object. *)
  Definition post_and_MS (d : side) (w1 w2 : string) (p : pair) : result (star * star) :=
    rbind (mix d SURFACES w1 w2 p) (fun p =>
    rbind (p_op fadd (attr (base p) "mass") (attr (comp p) "mass")) (fun m =>
    let p := upd d (fun s => apply_nan_attributes (setattr s "mass" m) []) p in
    let p := upd d (fun s => setattr s "log_LHe" (attr (the d p) "log_LHe")) p in
    let p := upd d (fun s => setattr s "log_LZ" (attr (the d p) "log_LZ")) p in
    rbind (check_state (the d p)) (fun s => Ok (returned d (upd d (fun _ => s) p))))).
  (** merged_star_properties, lines 238-723. *)
  Definition merged_star_properties (star_base companion : star) : result (star * star) :=
    let p := Pair star_base companion in
    let s1 := sstate star_base in let s2 := sstate companion in
    if mem s1 FOR_HMS && mem s2 FOR_HMS then
      rbind (mix Base (CENTERS ++ SURFACES) "mass" "mass" p) (fun p =>
      rbind (p_op fadd (attr (base p) "mass") (attr (comp p) "mass")) (fun m =>
      let p := upd Base (fun s => setattr s "mass" (Some (fmul (or_nan m) kept_mass))) p in
      Ok (returned Base (upd Base (fun s => apply_nan_attributes s [ "center_gamma"; "avg_c_in_c_core"; "envelope_binding_energy" ]) p))))
    else if mem s1 FOR_POSTMS && mem s2 FOR_HMS then post_and_MS Base "H-rich_envelope_mass" "mass" p
    else if mem s1 FOR_HMS && mem s2 FOR_POSTMS then post_and_MS Comp "mass" "H-rich_envelope_mass" p
    else if mem s1 FOR_POSTMS && mem s2 FOR_POSTMS then
      rbind (mix_cores Base p) (fun p => rbind (mix Base SURFACES "H-rich_envelope_mass" "H-rich_envelope_mass" p) (fun p =>
      rbind (add_masses Base p) (finish Base)))
    else if mem s1 FOR_POSTMS && mem s2 FOR_HeMS then rbind (mix_cores_HeMS Base p) (fun p => rbind (add_masses Base p) (finish Base))
    else if mem s1 FOR_HeMS && mem s2 FOR_POSTMS then rbind (mix_cores_HeMS Comp p) (fun p => rbind (add_masses Comp p) (finish Comp))
    else if mem s1 FOR_POSTMS && mem s2 FOR_POSTHeMS then rbind (mix_cores Base p) (fun p => rbind (add_masses Base p) (finish Base))
    else if mem s1 FOR_POSTHeMS && mem s2 FOR_POSTMS then rbind (mix_cores Comp p) (fun p => rbind (add_masses Comp p) (finish Comp))
    else if mem s1 HE_RICH && mem s2 HE_RICH then
      rbind (mix_cores Base p) (fun p => rbind (add_masses Base p) (fun p =>
      rbind (mix Base SURFACES "He-rich_envelope_mass" "He-rich_envelope_mass" p) (finish Base)))
    else if mem s1 NOT_CO && mem s2 [ "WD" ] then
      rbind (mix_cores_WD p) (fun p =>
      rbind (for_each Base (fun p k => p_op fadd (attr (base p) k) (attr (comp p) "mass")) MASSES p) (finish Base))
    else if mem s1 NOT_CO && mem s2 [ "NS"; "BH" ] then Ok (convert_star_to_massless_remnant star_base, companion)
    else Raise ModelError.

  (** A binary as these steps see it: event None is Python's None. *)
  Record binary := Binary { bstate : string; bevent : option string; star_1 : star; star_2 : star; orbital_period : pnum; eccentricity : pnum; separation : pnum }.
  Definition with_stars (b : binary) (s1 s2 : star) : binary := Binary (bstate b) (bevent b) s1 s2 (orbital_period b) (eccentricity b) (separation b).
  Definition with_orbit (b : binary) (p e a : pnum) : binary := Binary (bstate b) (bevent b) (star_1 b) (star_2 b) p e a.
  Definition is_event (b : binary) (e : string) : bool := match bevent b with Some x => String.eqb x e | None => false end.
  (** orbital_separation_from_period (C17) and the detached step on an isolated star are parameters. *)
  Variables (separation_of : num -> pnum -> pnum -> result pnum) (detached : binary -> result binary).
  (** step_isolated.py:58-71 and 33-55 *)
  Definition isolated_step (b : binary) : result binary :=
    rbind (separation_of (Fin (inject_Z (10 ^ 99))) (attr (star_1 b) "mass") (attr (star_2 b) "mass")) (fun a =>
    let b := with_orbit b (Some (Fin (inject_Z (10 ^ 99)))) (Some (Fin 0)) a in
    if String.eqb (bstate b) "initially_single_star" || String.eqb (bstate b) "merged" || String.eqb (bstate b) "disrupted"
    then rbind (detached b) (fun b => Ok (with_orbit b (Some NaN) (Some NaN) (Some NaN)))
    else Raise FlowError).
  (** step_disrupted.py:32-44 *)
  Definition disrupted_step (b : binary) : result binary := isolated_step b.
  (** step_initially_single.py:34-39; line 38 compares and does not assign. *)
  Definition initially_single_step (b : binary) : result binary :=
    if negb (String.eqb (bstate b) "initially_single_star") then Raise AttributeError else isolated_step b.
  (** step_merged.py:77-95 *)
  Definition merge_stars (b : binary) : result binary :=
    if String.eqb (bstate b) "merged" then
      if is_event b "oMerging1" then rbind (merged_star_properties (star_1 b) (star_2 b)) (fun r => Ok (with_stars b (fst r) (snd r)))
      else if is_event b "oMerging2" then rbind (merged_star_properties (star_2 b) (star_1 b)) (fun r => Ok (with_stars b (snd r) (fst r)))
      else Raise ValueError
    else if mem (sstate (star_1 b)) HE_RICH && mem (sstate (star_2 b)) HE_RICH then
      let b := Binary "merged" (bevent b) (star_1 b) (star_2 b) (orbital_period b) (eccentricity b) (separation b) in
      if is_event b "oRLO1" then rbind (merged_star_properties (star_1 b) (star_2 b)) (fun r => Ok (with_stars b (fst r) (snd r)))
      else if is_event b "oRLO2" then rbind (merged_star_properties (star_2 b) (star_1 b)) (fun r => Ok (with_stars b (snd r) (fst r)))
      else Raise ValueError
    else Raise ValueError.
  (** step_merged.py:54-123 *)
  Definition merged_step (b : binary) : result binary := rbind (merge_stars b) isolated_step.
  (** step_end.py:14-18; [update] is update_star_states. *)
  Definition end_step (update : binary -> result binary) (b : binary) : result binary :=
    rbind (if String.eqb (bstate b) "disrupted" then update b else Ok b) (fun b =>
    Ok (Binary (bstate b) (Some "END") (star_1 b) (star_2 b) (orbital_period b) (eccentricity b) (separation b))).
End Merge.
