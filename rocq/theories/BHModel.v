(** Spinning black holes: spin_stable_mass_transfer of posydon/utils/common_functions.py (lines 1027-1049), compute_isco_properties and BZ_jet_power of
    posydon/binary_evol/SN/profile_collapse.py (lines 309-352 and 713-747), over the real numbers; and the rates of accretion that the step with a grid
    of MESA models records (posydon/binary_evol/MESA/step_mesa.py, lines 805-852).

    NaN as an input is not modelled.  The roots of negative numbers (spins above 1), which are complex numbers or NaN, are excluded by the hypotheses
    of the theorems. *)
From Coq Require Import Reals Bool.
From Verif Require Import PyBase OrbitModel InspiralModel.
Open Scope R_scope.

Definition lt (x y : R) : bool := if Rlt_dec x y then true else false.
Definition le (x y : R) : bool := if Rle_dec x y then true else false.

(** x**(1/3), of x >= 0 *)
Definition cbrt (x : R) : R := if Rlt_dec 0 x then Rpower x (1 / 3) else 0.

(** common_functions.py:1037-1039 and profile_collapse.py:334-337 *)
Definition z1 (a : R) : R := 1 + cbrt (1 - a ^ 2) * (cbrt (1 + a) + cbrt (1 - a)).
Definition z2 (a : R) : R := sqrt (3 * a ^ 2 + z1 a ^ 2).
Definition r_isco (a : R) : R := 3 + z2 a - sqrt ((3 - z1 a) * (3 + z1 a + 2 * z2 a)).

(** ** spin_stable_mass_transfer, lines 1027-1049: [NoSpin] is None *)
Inductive spin_value := NoSpin | NaNSpin | Spin (a : R).
Definition nothing (x : option R) (refused : R -> bool) : bool := match x with None => true | Some v => refused v end.
Definition value (x : option R) : R := match x with Some v => v | None => 0 end.
Definition spin_stable_mass_transfer (spin_i pre post : option R) : spin_value :=
  if nothing pre (fun m => le m 0) || nothing post (fun m => le m 0) || nothing spin_i (fun a => lt a 0) then NoSpin
  else
    let a := value spin_i in let m := value pre in let m' := value post in
    let r := r_isco a in
    if le 1 (m' / m) && le (m' / m) (sqrt r) then Spin (sqrt r / 3 * (m / m') * (4 - sqrt (3 * r * m ^ 2 / m' ^ 2 - 2)))
    else if lt (sqrt r) (m' / m) then Spin 1
    else NaNSpin.

(** ** compute_isco_properties: (r_isco, j_isco, efficiency) *)
Definition compute_isco_properties (a m_BH : R) : R * R * R :=
  let r := r_isco a in
  let j := standard_cgrav * m_BH / clight * (r ^ 2 - 2 * a * sqrt r + a ^ 2) / (Rpower r (3 / 4) * sqrt (Rpower r (3 / 2) - 3 * sqrt r + 2 * a)) in
  let efficiency := sqrt (1 - 2 / (3 * r)) in
  (standard_cgrav * m_BH / clight ^ 2 * r, j, efficiency).

(** ** BZ_jet_power *)
Definition BZ_jet_power (m_dot eta_phi eta_a : R) : R := m_dot * clight ^ 2 * eta_phi * eta_a.

(** ** Rates of accretion of the compact object of a grid step *)
Definition log10 (x : R) : R := ln x / ln 10.
(** Lines 816-824, the final model, and 826-835, the initial one: [lg] is MESA's log10 of the rate, [captured] what bondi_hoyle adds (Msun/yr),
    [edd] the limit (Msun/yr) *)
Definition recorded_rate (lg captured edd : R) : R :=
  let x := log10 (Rpower 10 lg + captured) in
  if Rlt_dec edd (Rpower 10 x) then log10 edd else x.
(** Lines 837-852: the rows of the track; [x > y] compares the logarithm with the limit itself *)
Definition tracked_rate (lg captured edd : R) : R :=
  let x := log10 (Rpower 10 lg + captured) in
  if Rlt_dec edd x then edd else x.
