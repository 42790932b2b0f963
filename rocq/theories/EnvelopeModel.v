(** Core and envelope of a star from its profile: calculate_core_boundary, linear_interpolation_between_two_cells, calculate_lambda_from_profile
    and the energies it needs, calculate_Mejected_for_integrated_binding_energy of posydon/utils/common_functions.py, over the real numbers.

    A profile starts at the surface.  Columns that are missing are None; all others have one number per shell (no NaN).  Warnings and the
    printed messages are left out. *)
From Coq Require Import Reals String Bool List ZArith.
From Verif Require Import PyBase PyStr OrbitModel InspiralModel.
From Verif Require CEEModel.
Import ListNotations.
Open Scope string_scope.
Open Scope R_scope.
Open Scope list_scope.

Record profile := Profile { p_mass : option (list R); p_radius : option (list R); p_log_R : option (list R); p_dm : option (list R); p_energy : option (list R);
  p_X : option (list R); p_Y : option (list R); p_Z : option (list R); p_neutral_H : option (list R); p_neutral_He : option (list R); p_charge_He : option (list R) }.
Definition column (c : option (list R)) : result (list R) := match c with Some l => Ok l | None => Raise ValueError end.
Definition get (l : list R) (i : nat) : R := nth i l 0.
Definition lt (x y : R) : bool := if Rlt_dec x y then true else false.
Definition le (x y : R) : bool := if Rle_dec x y then true else false.
(** numpy.argmax and argmin of booleans: the first True (False), or 0 *)
Fixpoint first_true (l : list bool) : option nat := match l with [] => None | b :: l => if b then Some O else option_map S (first_true l) end.
Definition argmax (l : list bool) : nat := match first_true l with Some i => i | None => O end.
Definition argmin (l : list bool) : nat := argmax (map negb l).
Definition zip_with (f : R -> R -> R) (a b : list R) : list R := map (fun x => f (fst x) (snd x)) (combine a b).

(** ** calculate_core_boundary, lines 2028-2123 *)
Definition envelope_and_core (state : string) (p : profile) (CO_core : bool) : option (list R * list R) :=
  match p_X p, p_Y p, p_Z p with
  | Some x, Some y, Some z =>
      if CEEModel.mem state CEEModel.H_RICH then Some (if CO_core then (zip_with Rplus x y, z) else (x, zip_with Rplus y z))
      else if CEEModel.mem state CEEModel.HE_RICH then Some (zip_with Rplus x y, z)
      else None
  | _, _, _ => None
  end.
Definition both_conditions (fraction : R) (ec : list R * list R) : list bool :=
  map (fun x => le (fst x) fraction && le 0.1 (snd x)) (combine (fst ec) (snd ec)).
Definition calculate_core_boundary (mass : list R) (state : string) (p : profile) (mc : option R) (fraction : option R) (CO_core : bool) : result Z :=
  match fraction with
  | Some fraction =>
      match envelope_and_core state p CO_core with
      | None => Ok (-1)%Z
      | Some ec => match first_true (both_conditions fraction ec) with None => Ok (-1)%Z | Some i => Ok (Z.of_nat i) end
      end
  | None => match mc with Some mc => Ok (Z.of_nat (argmin (map (le mc) mass))) | None => Raise ValueError end
  end.

(** ** linear_interpolation_between_two_cells, lines 2239-2291; [top] and [bot] are None if NaN or None *)
Definition linear_interpolation (y x : list R) (target : R) (top : option nat) (bot : option nat) : R :=
  let '(top, bot) := match top, bot with
    | None, None => let t := argmax (map (le target) x) in (t, Z.of_nat t - 1)%Z
    | Some t, None => (t, Z.of_nat t - 1)%Z
    | None, Some b => (S b, Z.of_nat b)
    | Some t, Some b => (t, Z.of_nat b)
    end in
  let top := if Nat.leb (length y) top then (length y - 1)%nat else top in
  if Nat.leb (length x) top then get y top
  else
    let bot := if Z.ltb bot 0 then 0%Z else bot in
    if Z.leb (Z.of_nat top) bot then get y top
    else
      let b := Z.to_nat bot in
      let slope := (get y top - get y b) / (get x top - get x b) in
      let const := (get y top * get x b - get y b * get x top) / (get x top - get x b) in
      slope * target - const.

(** ** get_mass_radius_dm_from_profile, lines 2442-2515 *)
Fixpoint shells (mass : list R) : list R :=
  match mass with [] => [] | [m] => [m] | m :: ((m' :: _) as r) => - (1) * (m' - m) :: shells r end.
Definition radii (p : profile) : option (list R) :=
  match p_radius p with Some r => Some r | None => option_map (map (Rpower 10)) (p_log_R p) end.
Definition mass_radius_dm (p : profile) : result (list R * list R * list R) :=
  match p_mass p, radii p with
  | Some m, Some r =>
      match m, r with
      | [], _ | _, [] => Raise IndexError
      | _, _ => Ok (m, r, match p_dm p with Some dm => map (fun x => x / Msun) dm | None => shells m end)
      end
  | _, _ => Raise ValueError
  end.

(** ** The energies, lines 2518-2726 *)
Definition planck_h : R := 6.62606896e-27.
Definition avo : R := 6.02214129e23.
Definition ev2erg : R := 1.602176565e-12.
Definition inversecm2erg : R := planck_h * clight.
Definition H_weight : R := 1.00782503207.
Definition He_weight : R := 4.002603254131.
(** not (np.any(l > -tolerance)) *)
Definition none_above (tolerance : R) (l : list R) : bool := negb (existsb (fun x => lt (- tolerance) x) l).
Definition checked (tolerance : R) (l : list R) : result (list R) := if none_above tolerance l then Raise ValueError else Ok l.
Definition zeros (p : profile) : result (list R) := rbind (column (p_radius p)) (fun r => Ok (map (fun x => x * 0) r)).
(** Lines 2603-2637, calculate_H2recombination_energy *)
Definition H2_recombination (p : profile) (tolerance : R) : result (list R) :=
  match p_X p with
  | None => zeros p
  | Some x => checked tolerance (map (fun x => 35999.582894 * inversecm2erg / (2 * H_weight) * x * avo) x)
  end.
(** Lines 2694-2726, profile_recomb_energy of one shell *)
Definition recomb (x y HII HeII HeIII : R) : R :=
  (54.4177650 * HeIII / He_weight * y * avo + 24.587388 * (HeII + HeIII) / He_weight * y * avo + 13.598434 * HII / H_weight * x * avo) * ev2erg.
(** Lines 2640-2691, calculate_recombination_energy.  The clipped fractions are also written into the profile; clipping twice is clipping once. *)
Definition shell_recomb (x y nH nHe q : R) : R :=
  let HI := Rmin 1 nH in let HII := 1 - HI in
  let HeI := Rmin 1 nHe in let q := Rmax q 0 in
  let HeII := 2 - 2 * HeI - q in let HeIII := 1 - HeII - HeI in
  recomb x y HII HeII HeIII.
Definition recombination (p : profile) (tolerance : R) : result (list R) :=
  match p_X p, p_Y p, p_neutral_H p, p_neutral_He p, p_charge_He p with
  | Some x, Some y, Some nH, Some nHe, Some q =>
      checked tolerance (map (fun i => shell_recomb (get x i) (get y i) (get nH i) (get nHe i) (get q i)) (seq 0 (length x)))
  | _, _, _, _, _ => zeros p
  end.
Definition GRAVITATIONAL := "lambda_from_profile_gravitational".
Definition PLUS_INTERNAL := "lambda_from_profile_gravitational_plus_internal".
Definition MINUS_RECOMBINATION := "lambda_from_profile_gravitational_plus_internal_minus_recombination".
Definition DEFAULT_CE_OPTION_FOR_LAMBDA := MINUS_RECOMBINATION.
(** Lines 2518-2600, get_internal_energy_from_profile *)
Definition internal_energy (option_ : string) (p : profile) (tolerance : R) : result (list R) :=
  if String.eqb option_ GRAVITATIONAL then zeros p
  else match p_energy p with
  | None => zeros p
  | Some energy =>
      if String.eqb option_ PLUS_INTERNAL then
        rbind (checked tolerance energy) (fun energy =>
        rbind (H2_recombination p tolerance) (fun h2 => checked tolerance (zip_with Rminus energy h2)))
      else if String.eqb option_ MINUS_RECOMBINATION then
        rbind (checked tolerance energy) (fun energy =>
        rbind (H2_recombination p tolerance) (fun h2 =>
        rbind (recombination p tolerance) (fun rec => checked tolerance (zip_with Rminus (zip_with Rminus energy rec) h2))))
      else Raise ValueError
  end.

(** ** calculate_binding_energy, lines 2729-2797 *)
Definition grav_cell (mass radius dm : list R) (i : nat) : R := - standard_cgrav * get mass i * Msun * get dm i * Msun / (get radius i * Rsun).
Definition heat_cell (energy dm : list R) (i : nat) : R := get energy i * get dm i * Msun.
Definition total (f : nat -> R) (n : nat) : R := fold_left (fun acc i => acc + f i) (seq 0 n) 0.
Definition calculate_binding_energy (mass radius dm energy : list R) (n : nat) (factor : R) : result R :=
  let grav := total (grav_cell mass radius dm) n in
  if lt 0 grav && negb (lt grav 0.001) then Raise ValueError
  else Ok (grav + factor * total (heat_cell energy dm) n).

(** ** calculate_lambda_from_profile, lines 2294-2439: (lambda, core mass, core radius); lambda is None if NaN.  [ind] is ind_core, calculated
    if not given.  Masses and radii of the star are those of the profile. *)
Record parts := Parts { lambda : option R; core_mass : R; core_radius : R }.
Definition element_of (state : string) (p : profile) (CO_core : bool) : result (list R) :=
  if py_in "H-rich" state then column (if CO_core then p_Y p else p_X p)
  else if py_in "stripped_He" state then column (p_Y p)
  else Raise ValueError.
Definition lambda_of (m1 mc ebind radius : R) : R := - standard_cgrav * m1 * Msun * (m1 - mc) * Msun / (ebind * radius * Rsun).
Definition accepted (tolerance : R) (r : parts) : result parts :=
  match lambda r with Some l => if lt (- tolerance) l then Ok r else Raise ValueError | None => Ok r end.
Definition calculate_lambda_from_profile (p : profile) (state option_ : string) (fraction : R) (ind : option Z) (alpha_thermal tolerance : R) (CO_core : bool) : result parts :=
  rbind (mass_radius_dm p) (fun mrd =>
  let '(mass, radius, dm) := mrd in
  let m1 := get mass 0 in let radius1 := get radius 0 in
  rbind (internal_energy option_ p tolerance) (fun energy =>
  rbind (match ind with Some i => Ok i | None => calculate_core_boundary mass state p None (Some fraction) CO_core end) (fun ind =>
  if Z.eqb ind 0 then Ok (Parts None m1 radius1)
  else if Z.eqb ind (-1) then
    rbind (calculate_binding_energy mass radius dm energy (length mass) alpha_thermal) (fun e =>
    accepted tolerance (Parts (Some (lambda_of m1 0 e radius1)) 0 0))
  else
    let i := Z.to_nat ind in
    rbind (element_of state p CO_core) (fun element =>
    let mc := linear_interpolation mass element fraction (Some i) (Some (i - 1)%nat) in
    let rc := linear_interpolation radius element fraction (Some i) (Some (i - 1)%nat) in
    rbind (calculate_binding_energy mass radius dm energy i alpha_thermal) (fun top =>
    rbind (calculate_binding_energy mass radius dm energy (i - 1) alpha_thermal) (fun bot =>
    let weight := (fraction - get element (i - 1)) / (get element i - get element (i - 1)) in
    let e := bot + weight * (top - bot) in
    accepted tolerance (Parts (Some (lambda_of m1 mc e radius1)) mc rc))))))).

(** ** calculate_Mejected_for_integrated_binding_energy, lines 2799-2862 *)
(** The loop: [k] shells remain, [i] is the next one; the result is the final i *)
Fixpoint unbind (mass radius dm energy : list R) (threshold factor : R) (k i : nat) (grav heat : R) : nat :=
  match k with
  | O => i
  | S k =>
      if lt (Rabs (grav + factor * heat)) threshold then
        unbind mass radius dm energy threshold factor k (S i) (grav + grav_cell mass radius dm i) (heat + heat_cell energy dm i)
      else i
  end.
Definition calculate_Mejected (p : profile) (threshold mc rc factor tolerance : R) : result R :=
  rbind (mass_radius_dm p) (fun mrd =>
  let '(mass, radius, dm) := mrd in
  rbind (internal_energy MINUS_RECOMBINATION p tolerance) (fun energy =>
  let i := unbind mass radius dm energy threshold factor (length mass) 0 0 0 in
  (* index -1 is the last shell *)
  let ind := match i with O => (length mass - 1)%nat | S j => j end in
  let inner := if lt (get mass ind) mc || lt (get radius ind) rc then mc else get mass ind in
  Ok (get mass 0 - inner))).
