(** The differential equations of the detached step: posydon/binary_evol/DT/winds/default_winds.py, tides/default_tides.py,
    magnetic_braking/prescriptions.py and the class detached_evolution of step_detached.py, over the real numbers.

    Results that are not finite, which the step replaces by zero (step_detached.py:1293-1407), do not occur here: a division by zero gives
    zero times something in Coq and is replaced by zero there.  Powers with exponents that are not whole numbers are [Rpower], of positive
    numbers, or [zpow] where zero is possible. *)
From Coq Require Import Reals String Bool List.
From Verif Require Import PyBase OrbitModel InspiralModel.
Open Scope string_scope.
Open Scope R_scope.

(** What SingleStar.latest holds, by name; None is NaN.
    mass, R, omega (rad/yr), mdot, inertia, Idot, mass_conv_reg_fortides, thickness_conv_reg_fortides, radius_conv_reg_fortides,
    conv_mx1_top_r, conv_mx1_bot_r, surface_h1, L, conv_env_turnover_time_l_b (yr) *)
Record latest := Latest { mass : R; radius : R; omega : R; mdot : R; inertia : R; Idot : R; m_env : option R; dr_env : option R; rmid_env : option R;
  rtop_env : R; rbot_env : R; Xsurf : option R; lum : R; tau_turn : R }.

(** ** default_winds.py *)
(** Lines 42-95, default_spin_from_winds: (secondary, primary) *)
Definition spin_wind (s : latest) : R :=
  2 / 3 * radius s ^ 2 * omega s * mdot s / inertia s + Rmin (- omega s * Idot s / inertia s) 100.
Definition default_spin_from_winds (primary secondary : latest) : R * R := (spin_wind secondary, spin_wind primary).
(** Lines 136-161, default_sep_from_winds *)
Definition default_sep_from_winds (a : R) (primary secondary : latest) : R :=
  let m2 := mass secondary in let mdot_2 := mdot secondary in
  let m1 := mass primary in let mdot_1 := mdot primary in
  let q1 := m2 / m1 in
  let k11 := (1 / (1 + q1)) * (mdot_2 / m2) in
  let k21 := mdot_2 / m2 in
  let k31 := mdot_2 / (m1 + m2) in
  let da_mt_sec := a * (2 * k11 - 2 * k21 + k31) in
  let q2 := m1 / m2 in
  let k12 := (1 / (1 + q2)) * (mdot_1 / m1) in
  let k22 := mdot_1 / m1 in
  let k32 := mdot_1 / (m1 + m2) in
  let da_mt_pri := a * (2 * k12 - 2 * k22 + k32) in
  da_mt_sec + da_mt_pri.

(** ** default_tides.py *)
(** Lines 66-83 *)
Definition P_orb (a m1 m2 : R) : R := sqrt ((a / aursun) ^ 3 / (m1 + m2)).
Definition mean_motion (a m1 m2 : R) : R := 2 * c_pi / P_orb a m1 m2.
Definition f1 (e : R) : R := 1 + (31 / 2) * e ^ 2 + (255 / 8) * e ^ 4 + (185 / 16) * e ^ 6 + (25 / 64) * e ^ 8.
Definition f2 (e : R) : R := 1 + (15 / 2) * e ^ 2 + (45 / 8) * e ^ 4 + (5 / 16) * e ^ 6.
Definition f3 (e : R) : R := 1 + (15 / 4) * e ^ 2 + (15 / 8) * e ^ 4 + (5 / 64) * e ^ 6.
Definition f4 (e : R) : R := 1 + (3 / 2) * e ^ 2 + (1 / 8) * e ^ 4.
Definition f5 (e : R) : R := 1 + 3 * e ^ 2 + (3 / 8) * e ^ 4.
(** Lines 85-109, the same for both stars *)
Definition usable (x : option R) : option R := match x with Some v => if Req_EM_T v 0 then None else Some v | None => None end.
Definition tau_conv (s : latest) : R :=
  match usable (m_env s), usable (dr_env s), usable (rmid_env s) with
  | Some m, Some dr, Some r => 0.431 * Rpower (m * dr * r / (3 * lum s)) (1 / 3)
  | _, _, _ => 1e99
  end.
(** Lines 110-126, the same for both stars; the tidal period is infinite if the star corotates, and 1 / P_spin is omega / 2 pi. *)
Definition f_conv (s : latest) (P : R) : R :=
  let beat := 1 / P - omega s / (2 * c_pi) in
  if Req_EM_T beat 0 then 1 else Rmin 1 ((Rabs (1 / beat) / (2 * tau_conv s)) ^ 2).
Definition kT_conv (s : latest) (P : R) : R :=
  match m_env s with Some m => (2 / 21) * (f_conv s P / tau_conv s) * (m / mass s) | None => 0 end.
(** Lines 159-228, the same for both stars *)
Definition E2 (s : latest) : R :=
  let R_conv := rtop_env s - rbot_env s in
  if Rlt_dec (radius s) R_conv then 1.592e-9 * Rpower (mass s) 2.84
  else if Rle_dec R_conv 0 then 1.592e-9 * Rpower (mass s) 2.84
  else if Rlt_dec 0.1 (rbot_env s / radius s) then 1.592e-9 * Rpower (mass s) 2.84
  else if Rle_dec (radius s) 0 then 0
  else match Xsurf s with
       | Some x => if Rlt_dec 0.4 x then Rpower 10 (- 0.42) * Rpower (R_conv / radius s) 7.5 else Rpower 10 (- 0.93) * Rpower (R_conv / radius s) 6.7
       | None => 1.592e-9 * Rpower (mass s) 2.84
       end.
(** Lines 229-240 *)
Definition kT_rad (s companion : latest) (a : R) : R :=
  sqrt (standard_cgrav * (mass s * Msun) * (radius s * Rsun) ^ 2 / (a * Rsun) ^ 5) * Rpower (1 + mass companion / mass s) (5 / 6) * E2 s * secyer.
(** Lines 255-256 *)
Definition kT (s companion : latest) (a : R) : R := Rmax (kT_conv s (P_orb a (mass companion) (mass s))) (kT_rad s companion a).
(** Lines 262-318: the effect of the tides in one star on separation, eccentricity and its spin; the same for both stars *)
Definition tide (a e n : R) (s companion : latest) : R * R * R :=
  let q := mass companion / mass s in
  let k := kT s companion a in
  (- (6) * 1 * k * q * (1 + q) * (radius s / a) ^ 8 * (a / Rpower (1 - e ^ 2) (15 / 2)) * (f1 e - Rpower (1 - e ^ 2) (3 / 2) * f2 e * omega s / n),
   - (27) * 1 * k * q * (1 + q) * (radius s / a) ^ 8 * (e / Rpower (1 - e ^ 2) (13 / 2)) * (f3 e - (11 / 18) * Rpower (1 - e ^ 2) (3 / 2) * f4 e * omega s / n),
   (3 * 1 * k * q ^ 2 * mass s * radius s ^ 2 / inertia s) * (radius s / a) ^ 6 * n / (1 - e ^ 2) ^ 6 * (f2 e - Rpower (1 - e ^ 2) (3 / 2) * f5 e * omega s / n)).
(** Lines 324-329: (da, de, dOmega_sec, dOmega_pri) *)
Definition default_tides (a e : R) (primary secondary : latest) : R * R * R * R :=
  let n := mean_motion a (mass primary) (mass secondary) in
  let '(da2, de2, dO2) := tide a e n secondary primary in
  let '(da1, de1, dO1) := tide a e n primary secondary in
  (da2 + da1, de2 + de1, dO2, dO1).

(** ** magnetic_braking/prescriptions.py: (secondary, primary) *)
Definition clip01 (x : R) : R := Rmin (Rmax x 0) 1.
Definition fade (m : R) : R := clip01 ((1.5 - m) / (1.5 - 1.3)).
(** Lines 48-81 *)
Definition RVJ83_star (s : latest) : R :=
  - 3.8e-30 * (Rsun ^ 2 / secyer) * mass s * radius s ^ 4 * omega s ^ 3 / inertia s * fade (mass s).
Definition RVJ83_braking (primary secondary : latest) : R * R := (RVJ83_star secondary, RVJ83_star primary).
(** Lines 130-196; a Rossby number with a turnover time or a rotation of zero is infinite. *)
Definition M15_K : R := - 1.4e30 * secyer ^ 2 / (Msun * Rsun ^ 2).
Definition omega_sol : R := 2.6e-6 * secyer.
Definition chi : R := 2.0 / 0.14.
Definition tau_conv_sol : R := 12.9 / 365.25.
Definition saturated (s : latest) : bool :=
  if Req_EM_T (omega s * tau_turn s) 0 then false else if Rlt_dec (2 * c_pi / omega s / tau_turn s) 0.14 then true else false.
Definition M15_T0 (s : latest) : R :=
  let Omega_crit := sqrt (standard_cgrav * mass s * Msun / (radius s * Rsun) ^ 3) * secyer in
  let wdivwc := omega s / Omega_crit in
  let gamma := Rpower (1 + (wdivwc / 0.072) ^ 2) 0.5 in
  M15_K * Rpower (radius s) 3.1 * Rpower (mass s) 0.5 * Rpower gamma (- (2) * 0.22).
Definition M15_unsaturated (s : latest) : R :=
  M15_T0 s * zpow (tau_turn s / tau_conv_sol) 2.6 * zpow (omega s / omega_sol) (2.6 + 1) / inertia s * fade (mass s).
Definition M15_sec (s : latest) : R :=
  if saturated s then M15_T0 s * Rpower chi 2.6 * (omega s / omega_sol) / inertia s * fade (mass s) else M15_unsaturated s.
Definition M15_pri (s : latest) : R :=
  if saturated s then M15_T0 s * Rpower chi 2.6 * (omega s / 2.6e-6) / inertia s * fade (mass s) else M15_unsaturated s.
Definition M15_braking (primary secondary : latest) : R * R := (M15_sec secondary, M15_pri primary).
(** Lines 243-271 *)
Definition G18_c : R := - 3e41 / (Msun * Rsun ^ 2).
Definition G18_star (s : latest) : R :=
  let Rossby := 2 * c_pi / omega s / tau_turn s in
  let n := 0.03 / Rossby + 0.5 * Rossby + 1 in
  let Qn := 4.05 * exp (- 1.4 * n) in
  G18_c * omega s ^ 3 * tau_turn s * Qn / inertia s * fade (mass s).
Definition G18_braking (primary secondary : latest) : R * R := (G18_star secondary, G18_star primary).
(** Lines 319-378 *)
Definition CARB_alfven (s : latest) : R :=
  let rot_ratio := omega s / (3e-6 * secyer) in
  let tau_ratio := tau_turn s / (2.8e6 / secyer) in
  let v_esc2 := (2 * standard_cgrav * mass s / radius s) * (Msun * secyer ^ 2 / Rsun ^ 3) in
  let v_mod2 := v_esc2 + (2 * omega s ^ 2 * radius s ^ 2) / 0.07 ^ 2 in
  let R_alfven_div_R3 :=
    if Rlt_dec 0 (Rabs (mdot s)) then
      radius s ^ 4 * rot_ratio ^ 4 * tau_ratio ^ 4 / (mdot s ^ 2 * v_mod2) * (Rsun ^ 2 * secyer / Msun ^ 2)
    else 0 in
  radius s * zpow R_alfven_div_R3 (1 / 3).
Definition CARB_star (s : latest) (m : R) : R := - Rabs (2 / 3 * omega s * mdot s * CARB_alfven s ^ 2 / inertia s * fade m).
Definition CARB_braking (primary secondary : latest) : R * R := (CARB_star secondary (mass secondary), CARB_star primary (mass secondary)).

(** ** step_detached.py, detached_evolution *)
Record options := Options { do_wind_loss : bool; do_tides : bool; do_magnetic_braking : bool; magnetic_braking_mode : string; do_spin_from_winds : bool; do_gravitational_radiation : bool }.
(** Lines 1360-1395; for other modes Pwarn is called with a text as stacklevel, which raises TypeError (posydonwarning.py:579-580). *)
Definition magnetic_braking (mode : string) (primary secondary : latest) : result (R * R) :=
  if String.eqb mode "RVJ83" then Ok (RVJ83_braking primary secondary)
  else if String.eqb mode "M15" then Ok (M15_braking primary secondary)
  else if String.eqb mode "G18" then Ok (G18_braking primary secondary)
  else if String.eqb mode "CARB" then Ok (CARB_braking primary secondary)
  else Raise TypeError.
(** Lines 1130-1183, update_props: y = (separation, eccentricity, spin of secondary and primary); the stars without spin come from the tracks *)
Definition with_omega (s : latest) (w : R) : latest :=
  Latest (mass s) (radius s) w (mdot s) (inertia s) (Idot s) (m_env s) (dr_env s) (rmid_env s) (rtop_env s) (rbot_env s) (Xsurf s) (lum s) (tau_turn s).
Definition used_e (e : R) : R :=
  let e' := Rmax e 0 in if Rlt_dec 0 e' then if Rlt_dec e' (/ 10 ^ 3) then 0 else e' else e'.
(** Lines 1185-1291, __call__, with 1293-1407 *)
Definition on (b : bool) (x : R) : R := if b then x else 0.
Definition derivatives (o : options) (primary secondary : latest) (y : R * R * R * R) : result (R * R * R * R) :=
  let '(y0, y1, y2, y3) := y in
  let a := Rmax y0 0 in
  let e := used_e y1 in
  let sec := with_omega secondary (Rmax y2 0) in
  let pri := with_omega primary (Rmax y3 0) in
  let '(ta, te, t2, t1) := default_tides a e pri sec in
  let '(ga, ge) := default_gravrad a e (mass pri) (mass sec) in
  let '(w2, w1) := default_spin_from_winds pri sec in
  rbind (if do_magnetic_braking o then magnetic_braking (magnetic_braking_mode o) pri sec else Ok (0, 0)) (fun mb =>
  Ok (on (do_tides o) ta + on (do_gravitational_radiation o) ga + on (do_wind_loss o) (default_sep_from_winds a pri sec),
      on (do_tides o) te + on (do_gravitational_radiation o) ge,
      on (do_tides o) t2 + fst mb + on (do_spin_from_winds o) w2,
      on (do_tides o) t1 + snd mb + on (do_spin_from_winds o) w1)).
(** Lines 906-1096, the events that end the integration; the first is for the secondary.  None: the lobe is NaN. *)
Definition ev_rlo (s companion : latest) (sep ecc : R) : fl :=
  match roche_of (Some (mass s)) (Some (mass companion)) (Some ((1 - ecc) * sep)) with Some RL => Some (radius s - 0.95 * RL) | None => None end.
Definition ev_rel_rlo (s companion : latest) (sep ecc : R) : fl :=
  match roche_of (Some (mass s)) (Some (mass companion)) (Some ((1 - ecc) * sep)) with Some RL => Some ((radius s - RL) / RL) | None => None end.
Definition ev_rlo1 (primary secondary : latest) := ev_rlo secondary primary.
Definition ev_rlo2 (primary secondary : latest) := ev_rlo primary secondary.
Definition ev_rel_rlo1 (primary secondary : latest) := ev_rel_rlo secondary primary.
Definition ev_rel_rlo2 (primary secondary : latest) := ev_rel_rlo primary secondary.
Definition ev_max_time (t_max t_offset t : R) : R := t_max - t + t_offset.
