(** The supernova step: the collapse of one star, the kick and the bookkeeping of the binary
    (posydon/binary_evol/SN/step_SN.py:443-520 and 1458-2053), over the real numbers.

    The collapse of the star itself is modelled in SNModel, the size of a kick in GravModel, the new orbit in KickModel.  Here the collapse, the
    generation of kicks, the draws of the random number generator and the search for the eccentric anomaly are parameters. *)
From Coq Require Import Reals String Bool List.
From Verif Require Import PyBase MergeModel KickModel.
From Verif Require OrbitModel.
Import ListNotations.
Open Scope string_scope.
Open Scope R_scope.
Open Scope list_scope.

Definition NotModelled := OtherError "NotModelled".
(** None, NaN or a number. *)
Inductive val := VNone | VNaN | V (x : R).
(** natal_kick_mean_anomaly, where it is given: a float or something else. *)
Inductive anomaly := AFloat (x : R) | AOther.

(** What the step reads and writes of a star: state, SN_type, mass, state_history[-1], mass_history[-1], the four natal_kick attributes, the two
    spin-orbit tilts, lg_mdot and lg_system_mdot. *)
Record star := Star {
  s_state : string; s_type : option string; s_mass : val; s_last_state : string; s_last_mass : val;
  s_kick : option R; s_phi : option R; s_theta : option R; s_mean : option anomaly;
  tilt_first : val; tilt_second : val; lg_mdot : val; lg_system_mdot : val }.
Definition with_state (s : star) x := Star x (s_type s) (s_mass s) (s_last_state s) (s_last_mass s) (s_kick s) (s_phi s) (s_theta s) (s_mean s) (tilt_first s) (tilt_second s) (lg_mdot s) (lg_system_mdot s).
Definition with_kick (s : star) v p t m := Star (s_state s) (s_type s) (s_mass s) (s_last_state s) (s_last_mass s) v p t m (tilt_first s) (tilt_second s) (lg_mdot s) (lg_system_mdot s).
Definition with_first (s : star) x := Star (s_state s) (s_type s) (s_mass s) (s_last_state s) (s_last_mass s) (s_kick s) (s_phi s) (s_theta s) (s_mean s) x (tilt_second s) (lg_mdot s) (lg_system_mdot s).
Definition with_second (s : star) x := Star (s_state s) (s_type s) (s_mass s) (s_last_state s) (s_last_mass s) (s_kick s) (s_phi s) (s_theta s) (s_mean s) (tilt_first s) x (lg_mdot s) (lg_system_mdot s).
(** _reset_other_star_properties, lines 430-441. *)
Definition reset_other (s : star) := Star (s_state s) (s_type s) (s_mass s) (s_last_state s) (s_last_mass s) (s_kick s) (s_phi s) (s_theta s) (s_mean s) (tilt_first s) (tilt_second s) VNone VNone.

(** The binary: [b_rest] are the members of BINARYPROPERTIES (binary_evol/binarystar.py:88-118) without a field of their own;
    [b_nu1], [b_nu2] are true_anomaly_first_SN and true_anomaly_second_SN, None while the attribute does not exist (binarystar.py:209-212
    initialises other names); [b_last_time], [b_last_ecc] are time_history[-1] and eccentricity_history[-1]. *)
Record binary := Binary {
  star_1 : star; star_2 : star; b_state : string; b_event : option string; b_time : val; b_sep : val; b_period : val; b_ecc : val;
  b_V : option vec; b_mt_case : option string; b_rest : list (string * val); b_nearest : val;
  b_first : bool; b_nu1 : option R; b_nu2 : option R; b_inspiral : val; b_last_time : val; b_last_ecc : val }.
Definition with_stars (b : binary) x y :=
  Binary x y (b_state b) (b_event b) (b_time b) (b_sep b) (b_period b) (b_ecc b) (b_V b) (b_mt_case b) (b_rest b) (b_nearest b) (b_first b) (b_nu1 b) (b_nu2 b) (b_inspiral b) (b_last_time b) (b_last_ecc b).
Definition with_event (b : binary) x :=
  Binary (star_1 b) (star_2 b) (b_state b) x (b_time b) (b_sep b) (b_period b) (b_ecc b) (b_V b) (b_mt_case b) (b_rest b) (b_nearest b) (b_first b) (b_nu1 b) (b_nu2 b) (b_inspiral b) (b_last_time b) (b_last_ecc b).
Definition with_inspiral (b : binary) x :=
  Binary (star_1 b) (star_2 b) (b_state b) (b_event b) (b_time b) (b_sep b) (b_period b) (b_ecc b) (b_V b) (b_mt_case b) (b_rest b) (b_nearest b) (b_first b) (b_nu1 b) (b_nu2 b) x (b_last_time b) (b_last_ecc b).
Definition clear (l : list (string * val)) : list (string * val) := map (fun kv => (fst kv, VNone)) l.

(** flow_chart.py:41, 80 and 105-116. *)
Definition STATES_CO := ["BH"; "NS"; "WD"].
Definition STATES_C_DEPLETED := ["H-rich_Core_C_depleted"; "stripped_He_Core_C_depleted"].
Definition STATES_CC := ["H-rich_Core_C_depleted"; "H-rich_Core_He_depleted"; "stripped_He_Core_He_depleted"; "stripped_He_Core_C_depleted";
  "stripped_He_non_burning"; "H-rich_non_burning"; "H-rich_Shell_H_burning"; "accreted_He_Shell_H_burning"; "accreted_He_non_burning"].

(** ** Orbits with wind mass loss *)
Definition arg (v : val) : result (option R) := match v with VNone => Raise TypeError | VNaN => Ok None | V x => Ok (Some x) end.
Definition pos (x : R) : bool := Rltb 0 x.
(** separation_evol_wind_loss, utils/common_functions.py:2153-2181: 10 to the sum of logarithms is a quotient for positive arguments; others
    are not modelled. *)
Definition separation_evol_wind_loss (M_current M_init Mcomp A : val) : result val :=
  rbind (arg M_current) (fun m => rbind (arg M_init) (fun i => rbind (arg Mcomp) (fun c => rbind (arg A) (fun a =>
  match m, i, c, a with
  | Some m, Some i, Some c, Some a => if pos (m + c) && pos (i + c) && pos a then Ok (V (a * (i + c) / (m + c))) else Raise NotModelled
  | _, _, _, _ => Ok VNaN
  end)))).
(** orbital_period_from_separation, utils/common_functions.py:338-365. *)
Definition orbital_period_from_separation (A m1 m2 : val) : result val :=
  rbind (arg A) (fun a => rbind (arg m1) (fun x => rbind (arg m2) (fun y =>
  match a, x, y with
  | Some a, Some x, Some y => if pos a && pos (x + y) then Ok (V (OrbitModel.orbital_period_from_separation a x y)) else Raise NotModelled
  | _, _, _ => Ok VNaN
  end))).
Definition number (v : val) : result R := match v with V x => Ok x | _ => Raise NotModelled end.

(** The options of StepSN that are read here (lines 247-262). *)
Record config := Config {
  kick : bool; sigma_ECSN : option R; mean_ECSN : option R; sigma_NS : option R; mean_NS : option R; sigma_BH : option R; mean_BH : option R }.

Section Step.
  Variable c : consts.
  Variable generate_kick : star -> option R -> option R -> result R.
  Variables draw_phi draw_cos draw_mean : R.
  Variable brentq : R -> R -> result R.
  Variable cfg : config.

  (** Lines 1547-1610 for star 1 and 1653-1710 for star 2: the kick, given or drawn, and the star with the four attributes set. *)
  Definition kick_size (s : star) : result R :=
    match s_kick s with
    | Some v => Ok v
    | None =>
      match s_type s with
      | Some t =>
        if String.eqb t "ECSN" then generate_kick s (sigma_ECSN cfg) (mean_ECSN cfg)
        else if mem t ["CCSN"; "PPISN"; "PISN"] then
          if String.eqb (s_state s) "NS" then generate_kick s (sigma_NS cfg) (mean_NS cfg)
          else if String.eqb (s_state s) "BH" then generate_kick s (sigma_BH cfg) (mean_BH cfg)
          else if String.eqb (s_state s) "massless_remnant" then generate_kick s None None
          else Raise ValueError
        else Raise ValueError
      | None => Raise ValueError
      end
    end.
  Definition draw_kick (s : star) : result (star * (R * R * R * R)) :=
    rbind (kick_size s) (fun v =>
    let p := match s_phi s with Some p => p | None => draw_phi end in
    let ct := match s_theta s with Some t => cos t | None => draw_cos end in
    let th := match s_theta s with Some t => t | None => acos draw_cos end in
    rbind (match s_mean s with Some (AFloat m) => Ok m | Some AOther => Raise ValueError | None => Ok draw_mean end) (fun m =>
    Ok (with_kick s (Some v) (Some p) (Some th) (Some (AFloat m)), (v, p, ct, m)))).

  (** Lines 1716-1728, 1742-1749 and 2046-2053: the attributes of a binary without an orbit; [rest] are the remaining properties. *)
  Definition no_orbit (b : binary) (state : string) (rest : list (string * val)) : binary :=
    Binary (star_1 b) (star_2 b) state None (b_last_time b) VNaN VNaN VNaN (Some (0, 0, 0)) (Some "None") rest (b_nearest b) true (b_nu1 b) (b_nu2 b) (b_inspiral b) (b_last_time b) (b_last_ecc b).
  (** Lines 1734-1740 and 2037-2042. *)
  Definition nan_tilts (b : binary) : binary :=
    if b_first b then with_stars b (with_second (star_1 b) VNaN) (with_second (star_2 b) VNaN)
    else with_stars b (with_first (star_1 b) VNaN) (with_first (star_2 b) VNaN).
  (** Lines 1998-2019 (and 2217-2247 for tilts that are None or NaN): the combined tilt. *)
  Definition combined (t1 : val) (t2 : R) (nu1 : option R) (nu2 : R) : result val :=
    match nu1 with
    | None => Raise AttributeError
    | Some n1 => rbind (arg t1) (fun t => match t with
        | None => Ok VNaN
        | Some t => match get_combined_tilt t t2 n1 nu2 with Some x => Ok (V x) | None => Raise ValueError end
        end)
    end.

  (** Lines 1712-2053 with the star that collapsed ([first]: star 1), the mass before the collapse and the kick.  Masses, separation and
      eccentricity of a bound binary that are no numbers are not modelled. *)
  Definition update_orbit (first : bool) (b : binary) (k : R * R * R * R) : result binary :=
    let '(v, p, ct, m) := k in
    let s := if first then star_1 b else star_2 b in
    let o := if first then star_2 b else star_1 b in
    if mem (b_state b) ["disrupted"; "initially_single_star"; "merged"] then Ok (no_orbit b (b_state b) (clear (b_rest b)))
    else if String.eqb (s_state (star_1 b)) "massless_remnant" || String.eqb (s_state (star_2 b)) "massless_remnant"
    then Ok (no_orbit (nan_tilts b) "disrupted" (b_rest b))
    else
      rbind (number (b_ecc b)) (fun e => rbind (number (b_sep b)) (fun A => rbind (brentq m e) (fun E =>
      rbind (number (s_last_mass s)) (fun M0 => rbind (number (s_mass o)) (fun M2 => rbind (number (s_mass s)) (fun M1 =>
      let nu := true_anomaly e E in
      match kick_orbit c (SN M0 M2 M1 A e E v ct p) with
      | None => Ok (no_orbit (nan_tilts b) "disrupted" (clear (b_rest b)))
      | Some orb =>
        let t := o_tilt orb in
        rbind (if b_first b
               then rbind (combined (tilt_first (star_1 b)) t (b_nu1 b) nu) (fun w =>
                    Ok (if first then with_second (star_1 b) (V t) else with_second (star_1 b) w,
                        if first then with_second (star_2 b) w else with_second (star_2 b) (V t), b_nu1 b, Some nu))
               else Ok (with_first (star_1 b) (V t), with_first (star_2 b) (V t), Some nu, b_nu2 b)) (fun q =>
        let '(x, y, n1, n2) := q in
        rbind (orbital_period_from_separation (V (o_separation orb)) (s_mass x) (s_mass y)) (fun P =>
        Ok (Binary x y "detached" None (b_last_time b) (V (o_separation orb)) P (V (o_eccentricity orb)) (Some (o_V orb)) (Some "None")
              (clear (b_rest b)) (b_nearest b) true n1 n2 (b_inspiral b) (b_last_time b) (b_last_ecc b))))
      end)))))).

  (** Lines 1507-1531 and 1613-1636: a star that became a white dwarf. *)
  Definition white_dwarf (first : bool) (b : binary) : result binary :=
    let s := if first then star_1 b else star_2 b in
    let o := if first then star_2 b else star_1 b in
    rbind (separation_evol_wind_loss (s_mass s) (s_last_mass s) (s_mass o) (b_sep b)) (fun A =>
    rbind (orbital_period_from_separation A (s_mass (star_1 b)) (s_mass (star_2 b))) (fun P =>
    Ok (Binary (star_1 b) (star_2 b) (if mem (b_state b) ["disrupted"; "initially_single_star"; "merged"] then b_state b else "detached") None
          (b_last_time b) A P (b_last_ecc b) (b_V b) (Some "None") (clear (b_rest b)) (b_nearest b) (b_first b) (b_nu1 b) (b_nu2 b)
          (b_inspiral b) (b_last_time b) (b_last_ecc b)))).

  (** orbital_kick, lines 1458-2053. *)
  Definition orbital_kick (b : binary) : result binary :=
    match (match b_event b with Some e => if String.eqb e "CC1" then Some true else if String.eqb e "CC2" then Some false else None | None => None end) with
    | None => Raise ValueError
    | Some first =>
      let s := if first then star_1 b else star_2 b in
      if (match s_type s with Some t => String.eqb t "WD" | None => false end) then white_dwarf first b
      else if negb (mem (s_last_state s) STATES_CC) then Raise ValueError
      else rbind (draw_kick s) (fun r => let '(s', k) := r in
           update_orbit first (if first then with_stars b s' (star_2 b) else with_stars b (star_1 b) s') k)
    end.

  (** ** The step *)
  (** collapse_star: an error message or the star afterwards; check_state_of_star for a star that is no compact object. *)
  Variable collapse : star -> result (string + star).
  Variable normal_state : star -> result string.
  Variable inspiral_timescale : val -> val -> val -> val -> result val.

  (** update_star_states, binarystar.py:403-410, with check_state_of_star and infer_star_state for compact objects
      (utils/common_functions.py:1072-1077 and 1480-1494; limits_thresholds.py:79-80).  pd.isna holds of None and NaN. *)
  Definition update_state (s : star) : result star :=
    if String.eqb (s_state s) "massless_remnant" then Ok s
    else if mem (s_state s) ["WD"; "NS"; "BH"] then
      Ok (with_state s (if String.eqb (s_last_state s) "WD" || String.eqb (s_state s) "WD" then "WD"
        else match s_mass s with
             | V m => if Rleb m 0 then "massless_remnant" else if Rltb m (11 / 10) then "WD" else if Rleb m (5 / 2) then "NS" else "BH"
             | _ => "massless_remnant"
             end))
    else rbind (normal_state s) (fun x => Ok (with_state s x)).

  (** The step returns the binary, or raises ModelError with the binary it leaves behind (lines 465, 475: set_binary_to_failed,
      utils/common_functions.py:1464-1474; append_state is not modelled). *)
  Inductive outcome := Done (b : binary) | Failed (b : binary) (msg : string).
  Definition failed (b : binary) : binary :=
    Binary (star_1 b) (star_2 b) "ERR" (Some "FAILED") (b_time b) (b_sep b) (b_period b) (b_ecc b) (b_V b) (b_mt_case b) (b_rest b) (b_nearest b) (b_first b) (b_nu1 b) (b_nu2 b) (b_inspiral b) (b_last_time b) (b_last_ecc b).
  (** Lines 487-499. *)
  Definition no_kick (b : binary) : result binary :=
    rbind (separation_evol_wind_loss (s_mass (star_1 b)) (s_last_mass (star_1 b)) (s_mass (star_2 b)) (b_sep b)) (fun A =>
    rbind (orbital_period_from_separation A (s_mass (star_1 b)) (s_mass (star_2 b))) (fun P =>
    Ok (Binary (star_1 b) (star_2 b) "detached" None (b_time b) A P (b_ecc b) (b_V b) (b_mt_case b) (b_rest b) (b_nearest b) (b_first b) (b_nu1 b) (b_nu2 b) (b_inspiral b) (b_last_time b) (b_last_ecc b)))).
  (** Lines 501-517. *)
  Definition finish (b : binary) : result binary :=
    let s1 := s_state (star_1 b) in let s2 := s_state (star_2 b) in
    if String.eqb (b_state b) "disrupted" || String.eqb s1 "massless_remnant" || String.eqb s2 "massless_remnant" then Ok (with_inspiral b VNaN)
    else if mem s1 STATES_CO && mem s2 STATES_CO
    then rbind (inspiral_timescale (s_mass (star_1 b)) (s_mass (star_2 b)) (b_sep b) (b_ecc b)) (fun t => Ok (with_inspiral b t))
    else if mem s1 STATES_CO && mem s2 STATES_C_DEPLETED then Ok (with_event b (Some "CC2"))
    else if mem s1 STATES_C_DEPLETED && mem s2 STATES_CO then Ok (with_event b (Some "CC1"))
    else Ok b.
  (** __call__, lines 443-520.  A failing collapse_star changes no attribute that is modelled here. *)
  Definition step (b : binary) : result outcome :=
    match (match b_event b with Some e => if String.eqb e "CC1" then Some true else if String.eqb e "CC2" then Some false else None | None => None end) with
    | None => Raise ValueError
    | Some first =>
      rbind (collapse (if first then star_1 b else star_2 b)) (fun r =>
      match r with
      | inl msg => Ok (Failed (failed b) msg)
      | inr s' =>
        let o := reset_other (if first then star_2 b else star_1 b) in
        rbind (update_state (if first then s' else o)) (fun x => rbind (update_state (if first then o else s')) (fun y =>
        rbind ((if kick cfg then orbital_kick else no_kick) (with_stars b x y)) (fun b' => rbind (finish b') (fun b'' => Ok (Done b'')))))
      end)
    end.
End Step.
