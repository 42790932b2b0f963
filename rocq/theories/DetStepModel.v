(** Model of the detached step: which star plays which role (posydon/binary_evol/track_match.py, determine_star_states and the spins in calc_omega
    and update_rotation_info), and how the step ends (posydon/binary_evol/DT/step_detached.py, detached_step.__call__ and get_time_after_evo).
    Real numbers for orbits and spins, rational ones for stored times; None is NaN or None. *)
From Coq Require Import String Bool List ZArith QArith Qround Reals.
From Verif Require Import PyBase FlowChartModel OrbitModel InspiralModel DetachedModel.
Import ListNotations.
Open Scope string_scope.
Open Scope R_scope.
Open Scope list_scope.

(** ** Roles, track_match.py:2028-2182 *)
Inductive who := Star1 | Star2.
Record roles := Roles {
  r_primary : who;        (* the other star is the secondary *)
  p_co : bool; p_htrack : bool; s_co : bool; s_htrack : bool;
  r_only_CO : bool }.

(** binarystar.py:320-355: which companion does not exist, None if both do. *)
Inductive missing := NoneMissing | Missing1 | Missing2 | BothMissing.
Definition check_who_exists (s1 s2 : star_state) : missing :=
  if negb (star_eqb s1 massless_remnant) then
    if negb (star_eqb s2 massless_remnant) then NoneMissing else Missing2
  else if negb (star_eqb s2 massless_remnant) then Missing1 else BothMissing.

(** Lines 2077-2083. *)
Definition is_CO (s : star_state) : bool := star_in s STAR_STATES_CO.
Definition is_H (s : star_state) : bool := star_in s STAR_STATES_H_RICH.
Definition is_He (s : star_state) : bool := star_in s STAR_STATES_HE_RICH.
Definition valid (s : star_state) : bool := is_H s || is_He s || is_CO s || star_eqb s massless_remnant.
Definition htrack (s : star_state) : bool := is_H s && negb (is_CO s).

(** Lines 2066-2182.  The state of the star in a role. *)
Definition of_star (w : who) {A} (x y : A) : A := match w with Star1 => x | Star2 => y end.
Definition other (w : who) : who := match w with Star1 => Star2 | Star2 => Star1 end.
Definition determine_star_states (s1 s2 : star_state) : result roles :=
  match check_who_exists s1 s2 with
  | BothMissing => Raise (OtherError "POSYDONError")
  | m =>
    if negb (valid s1 && valid s2) then Raise ValueError else
    match m with
    | NoneMissing =>
      if ((htrack s1 && htrack s2) || (negb (htrack s1) && negb (htrack s2))) && negb (is_CO s1 || is_CO s2) then
        Ok (Roles Star1 (is_CO s1) (htrack s1) (is_CO s2) (htrack s2) false)
      else if negb (is_CO s1 || is_CO s2) then
        let p := if htrack s1 then Star2 else Star1 in
        Ok (Roles p (of_star p (is_CO s1) (is_CO s2)) (of_star p (htrack s1) (htrack s2))
                  (of_star (other p) (is_CO s1) (is_CO s2)) (of_star (other p) (htrack s1) (htrack s2)) false)
      else if negb (is_CO s1 && is_CO s2) then
        let p := if is_CO s1 then Star1 else Star2 in
        Ok (Roles p (of_star p (is_CO s1) (is_CO s2)) (of_star (other p) (htrack s1) (htrack s2))
                  (of_star (other p) (is_CO s1) (is_CO s2)) (of_star (other p) (htrack s1) (htrack s2)) false)
      else Ok (Roles Star1 (is_CO s1) (htrack s1) (is_CO s2) (htrack s2) false)
    | Missing1 => Ok (Roles Star1 true (htrack s2) (is_CO s2) (htrack s2) (is_CO s2))
    | _ => Ok (Roles Star2 true (htrack s1) (is_CO s1) (htrack s1) (is_CO s1))
    end
  end.

(** ** Spins at the match, track_match.py:1618-1828 *)
Definition log10 (x : R) : R := ln x / ln 10.
Definition pow10 (x : R) : R := Rpower 10 x.
Record rotation := Rot {
  lg_J : option R;        (* log_total_angular_momentum, g cm^2 / s *)
  moi : option R;         (* total_moment_of_inertia, g cm^2 *)
  omega_s : option R;     (* surf_avg_omega, rad / s *)
  omega_crit : option R;  (* surf_avg_omega_div_omega_crit *)
  rot_log_R : option R; rot_mass : R;
  track_R : R; track_mass : R   (* of the matched track *)
  }.
(** Critical rotation rate in rad / yr, lines 1673-1677, 1686-1689. *)
Definition critical (m r : R) : R := sqrt (standard_cgrav * m * Msun / (r * Rsun) ^ 3) * secyer.
(** Lines 1650-1700: rad / yr. *)
Definition calc_omega (s : rotation) : R :=
  match lg_J s, moi s with
  | Some lj, Some i => pow10 lj / i * secyer
  | _, _ =>
    match omega_s s with
    | Some w => w * secyer
    | None =>
      match omega_crit s with
      | Some f => match rot_log_R s with
                  | Some lr => f * critical (rot_mass s) (pow10 lr)
                  | None => f * critical (track_mass s) (track_R s)
                  end
      | None => 0
      end
    end
  end.
(** Lines 1747-1771, for a matched star; the ratio, the moment of inertia are numbers where the surface rotates. *)
Definition rotation_after_match (s : rotation) : rotation :=
  let w := calc_omega s / secyer in
  match omega_s s with
  | Some w0 =>
    if Rlt_dec 0 w0 then
      Rot (option_map (fun i => log10 (w * i)) (moi s)) (moi s) (Some w) (option_map (fun f => w / (w0 / f)) (omega_crit s))
          (rot_log_R s) (rot_mass s) (track_R s) (track_mass s)
    else Rot (Some 0) (moi s) (Some 0) (Some 0) (rot_log_R s) (rot_mass s) (track_R s) (track_mass s)
  | None => Rot (Some 0) (moi s) (Some 0) (Some 0) (rot_log_R s) (rot_mass s) (track_R s) (track_mass s)
  end.
(** Lines 2209-2222 for what concerns rotation: the mass, radius and moment of inertia become those of the track, the spin stays. *)
Definition star_after_match (track_moi : R) (s : rotation) : rotation :=
  let r := rotation_after_match s in
  Rot (lg_J r) (Some track_moi) (omega_s r) (omega_crit r) (Some (log10 (track_R r))) (track_mass r) (track_R r) (track_mass r).

(** ** Times stored in the history, step_detached.py:554-567 *)
(** numpy.arange: ceil((stop - start) / step) numbers. *)
Definition arange (start stop step : Q) : list Q :=
  map (fun k => (start + inject_Z (Z.of_nat k) * step)%Q) (seq 0 (Z.to_nat (Qceiling ((stop - start) / step)%Q))).
Definition spaced (start stop step : Q) : result (list Q) :=
  let t := tl (arange start (stop + step / 2)%Q step) in
  match t with
  | [] => Raise IndexError
  | _ => Ok (if negb (Qle_bool stop (last t 0%Q)) then t ++ [stop] else t)
  end.
Definition positive (x : option Q) : option Q :=
  match x with Some d => if negb (Qle_bool d 0) then Some d else None | None => None end.
Definition get_time_after_evo (dt n_o_steps_history : option Q) (start stop : Q) : result (list Q) :=
  match positive dt, positive n_o_steps_history with
  | Some d, _ => spaced start stop d
  | None, Some n => spaced start stop ((stop - start) / n)%Q
  | None, None => Ok [stop]
  end.

(** ** How the step ends, step_detached.py:303-310 and 363-472 *)
Record orbit := Orbit { o_sep : R; o_period : R; o_ecc : R }.
(** Lines 367-377: e is the eccentricity at the end of the integration, the orbit the stored one. *)
Definition circularized (same_am : bool) (e : R) (o : orbit) : orbit :=
  let f := if same_am then 1 - e ^ 2 else 1 - e in
  Orbit (o_sep o * f) (o_period o * Rpower f 1.5) 0.
(** Lines 379-395. *)
Definition abs_diff_porb (o : orbit) (m_sec m_pri : R) : R :=
  Rabs (o_period o - orbital_period_from_separation (o_sep o) m_sec m_pri) / o_period o.

(** What the integration found: times of the events (at most one each, they are terminal), the final eccentricity. *)
Record found := Found { at_sec_RLO : option R; at_pri_RLO : option R; at_sec_end : option R; at_pri_end : option R; e_end : R }.
(** The truth value of an array of at most one time. *)
Definition happened (t : option R) : bool := match t with Some x => if Req_EM_T x 0 then false else true | None => false end.

Record ending := Ending {
  d_state : bin_state; d_event : event; d_orbit : orbit;
  d_final1 : bool; d_final2 : bool;     (* values and profile of the end of the track stored at the star *)
  d_error : option exn }.

Definition failed (o : orbit) (e : exn) : ending := Ending (BOther "ERR") EvFAILED o false false (Some e).
Definition evolvable_H (s : star_state) : bool := star_in s STAR_STATES_H_RICH_EVOLVABLE.
Definition evolvable_He (s : star_state) : bool := star_in s STAR_STATES_HE_RICH_EVOLVABLE.

(** Lines 397-431: overflow of star [w]. *)
Definition overflow (HMS_HMS_RLO : bool) (w : who) (s1 s2 : star_state) (o : orbit) : ending :=
  if negb HMS_HMS_RLO && ((evolvable_He s1 && evolvable_H s2) || (evolvable_H s1 && evolvable_He s2)) then failed o FlowError
  else if negb HMS_HMS_RLO && (evolvable_H s1 && evolvable_H s2) then failed o (OtherError "ClassificationError")
  else match w with
       | Star1 => Ending RLO1 oRLO1 o false false None
       | Star2 => Ending RLO2 oRLO2 o false false None
       end.

Record setup := Setup {
  primary : who; pri_co : bool; sec_co : bool;          (* roles *)
  state1 : star_state; state2 : star_state;              (* at the end *)
  mass1 : R; mass2 : R; m_time1 : R; m_time2 : R;        (* masses, t_max + t_offset of the tracks, at the end *)
  bstate : bin_state; bevent : event; borbit : orbit;    (* of the binary, the orbit at the last stored time *)
  time_end : R; max_simulation_time : R;
  with_HMS_HMS_RLO : bool; same_am : bool }.
(** Lines 363-472.  [t_max + t_offset - t] of the two stars are compared, the same t being subtracted. *)
Definition finish (x : setup) (f : found) : ending :=
  let sec := other (primary x) in
  let m w := of_star w (mass1 x) (mass2 x) in
  if pri_co x && sec_co x then Ending (bstate x) (bevent x) (borbit x) false false None
  else if happened (at_sec_RLO f) || happened (at_pri_RLO f) then
    let o := circularized (same_am x) (e_end f) (borbit x) in
    if Rlt_dec (abs_diff_porb o (m sec) (m (primary x))) 0.01 then
      overflow (with_HMS_HMS_RLO x) (if happened (at_sec_RLO f) then sec else primary x) (state1 x) (state2 x) o
    else Ending (bstate x) (bevent x) (Orbit (o_sep o) (o_period o) (o_ecc (borbit x))) false false (Some (OtherError "AssertionError"))
  else if happened (at_sec_end f) then
    let both := negb (pri_co x) && star_in (of_star (primary x) (state1 x) (state2 x)) STAR_STATES_CC in
    let same := both && (if Req_EM_T (m_time1 x) (m_time2 x) then true else false) in
    let is w := match w, sec with Star1, Star1 => true | Star2, Star2 => true | _, _ => same end in
    Ending (bstate x) (match sec with Star1 => CC1 | Star2 => CC2 end) (borbit x) (is Star1) (is Star2)
      (if both && (if Req_EM_T (m (primary x)) (m sec) then false else true) then Some (OtherError "POSYDONError") else None)
  else if happened (at_pri_end f) then
    match primary x with
    | Star1 => Ending (bstate x) CC1 (borbit x) true false None
    | Star2 => Ending (bstate x) CC2 (borbit x) false true None
    end
  else Ending (bstate x) (if Rlt_dec (max_simulation_time x - time_end x) 0 then MaxTime_exceeded else maxtime) (borbit x) false false None.

(** Lines 296-310: the beginning.  A comparison with NaN is false. *)
Inductive beginning := InitialRLOF | Stops (e : exn) | Integrates.
Definition ge0 (x : fl) : bool := match x with Some v => if Rle_dec 0 v then true else false | None => false end.
Definition begin (pri sec : latest) (sep ecc : R) (only_CO : bool) (max_time time : R) : beginning :=
  if (ge0 (ev_rlo1 pri sec sep ecc) || ge0 (ev_rlo2 pri sec sep ecc)) && negb only_CO then InitialRLOF
  else if Rlt_dec 0 (max_time - time) then Integrates else Stops ValueError.
