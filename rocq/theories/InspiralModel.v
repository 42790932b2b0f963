(** Gravitational radiation: posydon/binary_evol/DT/gravitational_radiation/default_gravrad.py, posydon/binary_evol/DT/double_CO.py and the
    timescales and radii of posydon/utils/common_functions.py, over the real numbers (no rounding).

    Powers with exponents that are not whole numbers are [Rpower], meant for positive bases. *)
From Coq Require Import Reals String Bool List.
From Coquelicot Require Import Coquelicot.
From Verif Require Import PyBase OrbitModel.
Import ListNotations.
Open Scope string_scope.
Open Scope R_scope.
Open Scope list_scope.

(** constants.py:32 and 84 *)
Definition clight : R := 2.99792458e10.
Definition secyer : R := 3.1558149984e7.

(** ** default_gravrad.py:42-76: changes of separation (Rsun/yr) and eccentricity (1/yr) *)
Definition default_gravrad (a e m1 m2 : R) : R * R :=
  let v := m1 * m2 / (m1 + m2) ^ 2 in
  let da_gr :=
    (- 2 * clight / 15) * (v / Rpower (1 - e ^ 2) (9 / 2))
    * (standard_cgrav * (m1 + m2) * Msun / (a * Rsun * clight ^ 2)) ^ 3
    * ((96 + 292 * e ^ 2 + 37 * e ^ 4) * (1 - e ^ 2)
       - (1 / 28 * standard_cgrav * (m1 + m2) * Msun / (a * Rsun * clight ^ 2))
         * ((14008 + 4707 * v) + (80124 + 21560 * v) * e ^ 2
            + (17325 + 10458) * e ^ 4 - 0.5 * (5501 - 1036 * v) * e ^ 6))
    * secyer / Rsun in
  let de_gr :=
    (- 1 / 15) * ((v * clight ^ 3) / (standard_cgrav * (m1 + m2) * Msun))
    * (standard_cgrav * (m1 + m2) * Msun / (a * Rsun * clight ^ 2)) ^ 4
    * (e / Rpower (1 - e ^ 2) (7 / 2))
    * ((304 + 121 * e ^ 2) * (1 - e ^ 2)
       - (1 / 56 * standard_cgrav * (m1 + m2) * Msun / (a * Rsun * clight ^ 2))
         * (8 * (16705 + 4676 * v) + 12 * (9082 + 2807 * v) * e ^ 2
            - (25211 - 3388 * v) * e ^ 4))
    * secyer in
  (da_gr, de_gr).

(** ** common_functions.py:909-985, inspiral_timescale_from_separation (Myr)
    scipy's quad is the exact integral; a power of zero is zero (numpy), unlike [Rpower]. *)
Definition zpow (x y : R) : R := if Req_EM_T x 0 then 0 else Rpower x y.
Definition integrand (e : R) : R :=
  zpow e (29 / 19) * Rpower (1 + (121 / 304) * e ^ 2) (1181 / 2299) / Rpower (1 - e ^ 2) (3 / 2).
Definition c_0 (a0 e0 : R) : R :=
  (a0 * (1 - e0 ^ 2)) * Rpower e0 (- (12) / 19) * Rpower (1 + (121 / 304) * e0 ^ 2) (- (870) / 2299).
Definition inspiral_timescale_from_separation (star1_mass star2_mass separation ecc : R) : result R :=
  let m1 := star1_mass * Msun in
  let m2 := star2_mass * Msun in
  let a := separation * Rsun in
  if Rle_dec m1 0 then Raise ValueError
  else if Rle_dec m2 0 then Raise ValueError
  else if Rle_dec a 0 then Raise ValueError
  else if Rlt_dec ecc 0 then Raise ValueError
  else if Rle_dec 1 ecc then Raise ValueError
  else
    let beta := (64 / 5) * standard_cgrav ^ 3 * m1 * m2 * (m1 + m2) / clight ^ 5 in
    let T_merger :=
      if Req_EM_T ecc 0 then a ^ 4 / (4 * beta)
      else (12 / 19) * (c_0 a ecc ^ 4 / beta) * RInt integrand 0 ecc in
    Ok (T_merger / (secyer * 1e6)).
(** Lines 988-1024 *)
Definition inspiral_timescale_from_orbital_period (star1_mass star2_mass orbital_period ecc : R) : result R :=
  inspiral_timescale_from_separation star1_mass star2_mass (orbital_separation_from_period orbital_period star1_mass star2_mass) ecc.

(** Lines 1302-1337 and 1367-1388, CO_radius and Schwarzschild_Radius (Rsun) *)
Definition Schwarzschild_Radius (M : R) : R := 2 * standard_cgrav * M * Msun / (clight ^ 2 * Rsun).
Definition CO_radius (M : R) (COtype : string) : result R :=
  if Rle_dec M 0 then Raise ValueError
  else if String.eqb COtype "BH" then Ok (Schwarzschild_Radius M)
  else if String.eqb COtype "NS" then Ok (12.5e5 / Rsun)
  else if String.eqb COtype "WD" then Ok (2.9e8 * Rpower M (- (1) / 3) / Rsun)
  else Raise ValueError.

(** ** double_CO.py *)
(** Lines 299-346, double_CO_evolution: _g, _f and rhs; the two spins, whose derivatives are 0, are left out. *)
Definition g_of (e2 : R) : R := 1 + (73 / 24) * e2 + (37 / 96) * e2 * e2.
Definition f_of (e2 : R) : R := 1 + (121 / 304) * e2.
Definition rhs (s l : R) : R * R :=
  let e := exp l in
  let e2 := e * e in
  if Rle_dec 1 e2 then (0, 0)
  else
    let one_minus_e2 := 1 - e2 in
    let G := g_of e2 in
    let F := f_of e2 in
    (- (19 / 12) * one_minus_e2 * F / G, exp (- 4 * s) * Rpower one_minus_e2 3.5 / G).
(** The binary as solve_ODEs sees it: time (yr), separation (Rsun), eccentricity, and mass and state of the stars. *)
Record orbit := Orbit { t_0 : R; a_0 : R; e_0 : R; mass_1 : R; state_1 : string; mass_2 : R; state_2 : string }.
(** Lines 174-186 *)
Definition t_scale (o : orbit) : R :=
  let a0_cgs := a_0 o * Rsun / 1e5 * 1e5 in
  let m1 := mass_1 o * Msun in
  let m2 := mass_2 o * Msun in
  5 / 64 * clight ^ 5 * a0_cgs ^ 4 / (standard_cgrav ^ 3 * (m1 + m2) * m1 * m2) / secyer.
(** Lines 188-200 *)
Definition alpha_contact (o : orbit) : result R :=
  rbind (CO_radius (mass_1 o) (state_1 o)) (fun r1 =>
  rbind (CO_radius (mass_2 o) (state_2 o)) (fun r2 =>
  let a0_km := a_0 o * Rsun / 1e5 in
  Ok ((r1 * Rsun / 1e5 + r2 * Rsun / 1e5) / a0_km))).
Definition tau_max (o : orbit) (max_time : R) : R := (max_time - t_0 o) / t_scale o.
(** Lines 210-211; np.finfo(float).tiny is 2^-1022. *)
Definition tiny : R := / 2 ^ 1022.
Definition l_0 (o : orbit) : R := if Rlt_dec 0 (e_0 o) then ln (e_0 o) else ln tiny.

(** Lines 213-222: solve_ivp, taken to be exact: [l] and [tau] solve the equations from s = 0 to the end of the integration; a time that is reached,
    from below, before or at the contact ends it (status 1), otherwise, also when it is already over, it goes to the contact (status 0). *)
Definition solution (l0 s1 : R) (l tau : R -> R) : Prop :=
  l 0 = l0 /\ tau 0 = 0 /\
  forall s, Rmin 0 s1 <= s <= Rmax 0 s1 ->
    derivable_pt_lim l s (fst (rhs s (l s))) /\ derivable_pt_lim tau s (snd (rhs s (l s))).
Inductive solve_ivp (l0 s_contact tau_max : R) : nat -> R -> (R -> R) -> (R -> R) -> Prop :=
  | Ends_at_contact l tau : solution l0 s_contact l tau ->
      (tau_max < 0 \/ forall s, 0 <= s <= s_contact -> tau s < tau_max) -> solve_ivp l0 s_contact tau_max 0 s_contact l tau
  | Ends_at_time s l tau : solution l0 s l tau -> 0 <= s <= s_contact -> tau s = tau_max ->
      (forall s', 0 <= s' < s -> tau s' < tau_max) -> solve_ivp l0 s_contact tau_max 1 s l tau.
(** Lines 230-262: the status for __call__, and times, separations and eccentricities of the result. *)
Definition status_of (status : nat) : nat := match status with 0%nat => 1%nat | 1%nat => 0%nat | n => n end.
Definition time_at (o : orbit) (tau : R) : R := tau * t_scale o + t_0 o.
Definition separation_at (o : orbit) (s : R) : R := exp (- s) * a_0 o.
(** Lines 28-124, _SBrentqDenseOutput.__call__ for one time: the place s of the state that is returned.  [brentq] is given the function and the
    bracket. *)
Definition dense (brentq : (R -> R) -> R -> R -> R) (o : orbit) (tau : R -> R) (s_lo s_hi t : R) : result R :=
  let target := (t - t_0 o) / t_scale o in
  let tau_lo := tau s_lo in
  let tau_hi := tau s_hi in
  let tau_scale := Rmax (Rmax 1 (Rabs tau_lo)) (Rabs tau_hi) in
  let eps := 1e4 * / 2 ^ 52 * tau_scale in
  let fa := tau_lo - target in
  let fb := tau_hi - target in
  if Rle_dec (Rabs fa) eps then Ok s_lo
  else if Rle_dec (Rabs fb) eps then Ok s_hi
  else if Rlt_dec 0 (fa * fb) then Raise ValueError
  else Ok (brentq (fun s => tau s - target) s_lo s_hi).

(** Lines 145-159, __call__ after the step of the parent class, which reads the state at the last time of the solution (the default without dt and
    n_o_steps_history) and sets values below zero to zero (step_detached.py:474, 540-543, 600-602). *)
Record final := Final { f_time : R; f_separation : R; f_ecc : R; f_state : string; f_event : string }.
Definition nonneg (x : R) : R := if Rlt_dec x 0 then 0 else x.
Definition finish (o : orbit) (max_time : R) (status : nat) (s_end s_read : R) (l tau : R -> R) : final :=
  let t := time_at o (tau s_end) in
  let a := nonneg (separation_at o s_read) in
  let e := nonneg (exp (l s_read)) in
  match status_of status with
  | 1%nat => Final (nonneg t) a 0 "contact" "CO_contact"
  | _ => Final max_time a (exp (l s_end)) "detached" "maxtime"
  end.
