(** Initial mass functions and distributions of initial parameters:
    posydon/popsyn/IMFs.py and posydon/popsyn/distributions.py.

    Real arithmetic instead of floating point.  scipy's quad is taken to return the (improper) Riemann integral
    over the open interval.  A random number in [0,1) is an argument u of the functions rvs; rng.uniform(a, b) is
    a + (b - a) u.  Functions are given for one number, the code maps them over arrays. *)
From Coq Require Import String List Bool Reals.
From Coquelicot Require Import Coquelicot.
From Verif Require Import PyBase OrbitModel.
Open Scope string_scope.
Open Scope R_scope.

Definition quad (f : R -> R) (a b : R) : R := RInt_gen f (at_right a) (at_left b).
Definition rltb (x y : R) : bool := if Rlt_dec x y then true else false.
Definition rleb (x y : R) : bool := if Rle_dec x y then true else false.
Definition reqb (x y : R) : bool := if Req_EM_T x y then true else false.
Definition log10 (x : R) : R := ln x / ln 10.
Definition pow10 (x : R) : R := Rpower 10 x.

(** ** Mass functions.  A mass function raises for masses that are not positive. *)
(** IMFs.py:18-90: IMFBase.__init__, _check_valid, _calculate_normalization and pdf, for positive m_min.
    The result is the density. *)
Definition imf_base (imf : R -> R) (m_min m_max : R) : result (R -> R) :=
  if rleb m_max m_min then Raise ValueError
  else
    let integral := quad imf m_min m_max in
    if negb (rltb 0 integral) then Raise ValueError
    else
      let norm := 1 / integral in
      Ok (fun m => if rleb m_min m && rleb m m_max then imf m * norm else 0).

(** IMFs.py:155-173, 253-271: Salpeter and Kroupa1993 *)
Definition power_imf (alpha : R) (m : R) : R := Rpower m (- alpha).
Definition Salpeter (alpha m_min m_max : R) : result (R -> R) := imf_base (power_imf alpha) m_min m_max.
Definition Kroupa1993 (alpha m_min m_max : R) : result (R -> R) := imf_base (power_imf alpha) m_min m_max.
(** IMFs.py:175-205, 273-303: rvs; a division by zero if alpha is 1 *)
Definition power_imf_rvs (alpha m_min m_max u : R) : result R :=
  let top := Rpower m_max (1 - alpha) - Rpower m_min (1 - alpha) in
  if reqb top 0 then Raise (OtherError "ZeroDivisionError")
  else
    let normalization_constant := (1 - alpha) / top in
    Ok (Rpower (u * (1 - alpha) / normalization_constant + Rpower m_min (1 - alpha)) (1 / (1 - alpha))).

(** IMFs.py:382-413: Kroupa2001.imf; where masks overlap the later assignment counts *)
Record kroupa := Kroupa { k_alpha1 : R; k_alpha2 : R; k_alpha3 : R; k_m1 : R; k_m2 : R; k_min : R }.
Definition kroupa_imf (k : kroupa) (m : R) : R :=
  let const1 := Rpower (k_m1 k / k_min k) (- k_alpha1 k) in
  let const2 := const1 * Rpower (k_m2 k / k_m1 k) (- k_alpha2 k) in
  if rleb (k_m2 k) m then const2 * Rpower (m / k_m2 k) (- k_alpha3 k)
  else if rleb (k_m1 k) m && rltb m (k_m2 k) then const1 * Rpower (m / k_m1 k) (- k_alpha2 k)
  else Rpower (m / k_min k) (- k_alpha1 k).
Definition Kroupa2001 (k : kroupa) (m_max : R) : result (R -> R) := imf_base (kroupa_imf k) (k_min k) m_max.

(** IMFs.py:504-534: Chabrier2003.imf *)
Record chabrier := Chabrier { c_mc : R; c_sigma : R; c_alpha : R; c_break : R }.
Definition chabrier_imf (c : chabrier) (m : R) : R :=
  let s := sqrt (2 * PI) * c_sigma c in
  let log_term x := (log10 x - log10 (c_mc c)) ^ 2 / (2 * c_sigma c ^ 2) in
  let lognormal := 1 / (m * s) * exp (- log_term m) in
  let C := 1 / (c_break c * s) * exp (- log_term (c_break c)) in
  let powerlaw := C * Rpower (m / c_break c) (- c_alpha c) in
  if rltb m (c_break c) then lognormal else powerlaw.
Definition Chabrier2003 (c : chabrier) (m_min m_max : R) : result (R -> R) := imf_base (chabrier_imf c) m_min m_max.

(** ** Mass ratios *)
(** distributions.py:36-131: FlatMassRatio *)
Definition FlatMassRatio (q_min q_max : R) : result (R -> R) :=
  if negb (rleb 0 q_min && rltb q_min 1) then Raise ValueError
  else if negb (rltb 0 q_max && rleb q_max 1) then Raise ValueError
  else if rleb q_max q_min then Raise ValueError
  else
    let integral := quad (fun _ => 1) q_min q_max in
    if reqb integral 0 then Raise ValueError
    else
      let norm := 1 / integral in
      Ok (fun q => if rltb q_min q && rleb q q_max then 1 * norm else 0).
(** distributions.py:133-151, and 1026-1044 for eccentricities: rng.uniform(min, max) *)
Definition uniform_rvs (lo hi u : R) : R := lo + (hi - lo) * u.

(** distributions.py:180-271: PowerLawMassRatio *)
Definition PowerLawMassRatio (alpha q_min q_max : R) : result (R -> R) :=
  if negb (rleb 0 q_min && rltb q_min 1) then Raise ValueError
  else if negb (rltb 0 q_max && rleb q_max 1) then Raise ValueError
  else if rleb q_max q_min then Raise ValueError
  else if rleb alpha (-1) && reqb q_min 0 then Raise ValueError
  else
    let integral := quad (fun q => Rpower q alpha) q_min q_max in
    if reqb integral 0 then Raise ValueError
    else
      let norm := 1 / integral in
      Ok (fun q => if rltb q_min q && rleb q q_max then Rpower q alpha * norm else 0).

(** ** Periods *)
(** x ** y for y > 0 *)
Definition fpow (x y : R) : fl := if rltb x 0 then None else if reqb x 0 then Some 0 else Some (Rpower x y).
(** distributions.py:388-439: Sana12Period.sana12_period for masses above the break; [None] is NaN.
    Dividing by A + B = 0 gives infinity in the code and NaN as density. *)
Definition sana_slope : R := 0.55.
Definition sana_C (p_min p_max : R) : fl :=
  let beta := 1 - sana_slope in
  let A := Rpower (log10 (pow10 0.15)) (- sana_slope) * (log10 (pow10 0.15) - log10 p_min) in
  match fpow (log10 p_max) beta with
  | None => None
  | Some x =>
      let B := 1 / beta * (x - Rpower (log10 (pow10 0.15)) beta) in
      if reqb (A + B) 0 then None else Some (1 / (A + B))
  end.
Definition sana_high (C p_min p_max logp : R) : R :=
  if rleb 0.15 logp && rleb logp (log10 p_max) then C * Rpower logp (- sana_slope)
  else if rleb (log10 p_min) logp && rltb logp 0.15 then C * Rpower 0.15 (- sana_slope)
  else 0.
(** distributions.py:329-386, 442-475: the constructor, the two normalisations and pdf(p, m1) *)
Definition Sana12Period (p_min p_max : R) : result (R -> R -> result fl) :=
  if rleb p_min 0 then Raise ValueError
  else if rleb p_max p_min then Raise ValueError
  else
    let low_integral := quad (fun _ => 1) (log10 p_min) (log10 p_max) in
    let high_integral := lift1 (fun C => quad (sana_high C p_min p_max) (log10 p_min) (log10 p_max)) (sana_C p_min p_max) in
    if reqb low_integral 0 || match high_integral with Some i => reqb i 0 | None => false end then Raise ValueError
    else Ok (fun p m1 =>
      if rleb p_min p && rleb p p_max then
        if rleb m1 0 then Raise ValueError
        else if rleb m1 15 then Ok (Some (1 * (1 / low_integral)))
        else Ok (lift2 (fun C i => sana_high C p_min p_max (log10 p) * (1 / i)) (sana_C p_min p_max) high_integral)
      else Ok (Some 0)).
(** distributions.py:517-525: rvs for masses up to 15, and 788-810 LogUniform.rvs *)
Definition log_uniform_rvs (lo hi u : R) : R := pow10 (uniform_rvs (log10 lo) (log10 hi) u).

(** distributions.py:561-670: PowerLawPeriod *)
Definition power_law_period (slope p_min p_max logp : R) : R :=
  let p := pow10 logp in if rleb p_min p && rleb p p_max then Rpower p slope else 0.
Definition PowerLawPeriod (slope p_min p_max : R) : result (R -> R) :=
  if rleb p_min 0 then Raise ValueError
  else if rleb p_max p_min then Raise ValueError
  else
    let integral := quad (power_law_period slope p_min p_max) (log10 p_min) (log10 p_max) in
    if reqb integral 0 then Raise ValueError
    else
      let norm := 1 / integral in
      Ok (fun p => if rltb 0 p && rleb p_min p && rleb p p_max
                   then power_law_period slope p_min p_max (log10 p) * norm else 0).

(** ** Separations *)
(** distributions.py:708-786: LogUniform *)
Definition LogUniform (lo hi : R) : result (R -> R) :=
  if rleb lo 0 then Raise ValueError
  else if rleb hi lo then Raise ValueError
  else
    let norm := 1 / (log10 hi - log10 lo) in
    Ok (fun x => if rltb 0 x && rleb lo x && rleb x hi then norm / x else 0).
(** distributions.py:1140-1215: LogNormalSeparation.  scipy.stats.truncnorm.pdf(x, a, b, loc, scale) is the normal
    density of z = (x - loc) / scale divided by its integral from a to b and by scale, 0 if z is outside [a,b]. *)
Definition phi (z : R) : R := exp (- (z ^ 2) / 2) / sqrt (2 * PI).
Definition truncnorm_pdf (x a b loc scale : R) : R :=
  let z := (x - loc) / scale in
  if rleb a z && rleb z b then phi z / RInt phi a b / scale else 0.
Definition LogNormalSeparation (mean sigma lo hi : R) : result (R -> R) :=
  if rleb lo 0 then Raise ValueError
  else if rleb hi lo then Raise ValueError
  else if rleb sigma 0 then Raise ValueError
  else
    let a_low := (log10 lo - mean) / sigma in
    let a_high := (log10 hi - mean) / sigma in
    Ok (fun a => if rltb 0 a && rleb lo a && rleb a hi
                 then truncnorm_pdf (log10 a) a_low a_high mean sigma / (a * ln 10) else 0).

(** ** Eccentricities *)
(** distributions.py:838-921, 923-945: ThermalEccentricity *)
Definition ThermalEccentricity (e_min e_max : R) : result (R -> R) :=
  if negb (rleb 0 e_min && rltb e_min 1) then Raise ValueError
  else if negb (rltb 0 e_max && rleb e_max 1) then Raise ValueError
  else if rleb e_max e_min then Raise ValueError
  else
    let integral := e_max ^ 2 - e_min ^ 2 in
    if reqb integral 0 then Raise ValueError
    else
      let norm := 1 / integral in
      Ok (fun e => if rleb e_min e && rleb e e_max then 2 * e * norm else 0).
Definition thermal_rvs (e_min e_max u : R) : R := sqrt (u * (e_max ^ 2 - e_min ^ 2) + e_min ^ 2).
(** distributions.py:971-1024: UniformEccentricity *)
Definition UniformEccentricity (e_min e_max : R) : result (R -> R) :=
  if negb (rleb 0 e_min && rltb e_min 1) then Raise ValueError
  else if negb (rltb 0 e_max && rleb e_max 1) then Raise ValueError
  else if rleb e_max e_min then Raise ValueError
  else
    let norm := 1 / (e_max - e_min) in
    Ok (fun e => if rleb e_min e && rleb e e_max then norm else 0).
(** distributions.py:1047-1104: ZeroEccentricity *)
Definition zero_eccentricity_pdf (e : R) : R := if reqb e 0 then 1 else 0.
Definition zero_eccentricity_rvs (u : R) : R := 0.
