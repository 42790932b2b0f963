(** The effect of a supernova on an orbit (posydon/binary_evol/SN/step_SN.py), over the real numbers. *)
From Coq Require Import Reals String Bool List ZArith.
From Verif Require Import PyBase.
Open Scope R_scope.

(** const.standard_cgrav, Msun, Rsun, km2cm; SNcheck_ERR is 1e-10 (utils/constants.py). *)
Record consts := Consts { G : R; Msun : R; Rsun : R; km2cm : R }.
Definition ERR : R := / 10 ^ 10.
Definition Rleb (x y : R) : bool := if Rle_dec x y then true else false.
Definition Rltb (x y : R) : bool := if Rlt_dec x y then true else false.
(** np.round(x, 5): to the nearest multiple of 1e-5, a half to the even one. *)
Definition rint (x : R) : Z :=
  let n := Int_part x in let d := x - IZR n in
  if Rltb d (1 / 2) then n else if Rltb (1 / 2) d then (n + 1)%Z else if Z.even n then n else (n + 1)%Z.
Definition round5 (x : R) : R := IZR (rint (x * 10 ^ 5)) / 10 ^ 5.

(** Line 1763: the function whose zero in [0, 2 pi] is the eccentric anomaly.  The search for the zero is not modelled; the eccentric anomaly
    is an argument of the following definitions. *)
Definition kepler (mean_anomaly e x : R) : R := mean_anomaly - x + e * sin x.
(** Lines 1769-1771. *)
Definition true_anomaly (e E : R) : R := 2 * atan (sqrt ((1 + e) / (1 - e)) * tan (E / 2)).

(** What the computation of the orbit reads: masses before and after (solar masses), orbit before (solar radii), eccentric anomaly, kick
    (km/s; cosine of its polar angle, azimuthal angle). *)
Record sn := SN { M_he_star : R; M_companion : R; M_compact_object : R; Apre : R; epre : R; E_ma : R; Vkick : R; cos_theta : R; phi : R }.
(** Separation, eccentricity, systemic velocity, tilt; None if the binary is disrupted. *)
Record orbit := Orbit { o_separation : R; o_eccentricity : R; o_V : R * R * R; o_tilt : R }.

(** SNCheck, lines 1873-1976; epost is None if NaN. *)
Definition SNCheck (c : consts) (Mhe Mcomp Mco rpre Apost : R) (epost : option R) (Vr Vk : R) : bool :=
  let Mtot_pre := Mhe + Mcomp in
  let Mtot_post := Mco + Mcomp in
  match epost with
  | None => false
  | Some e =>
    let SNflag1 := Rleb (1 - e - rpre / Apost) ERR && Rleb (rpre / Apost - (1 + e)) ERR in
    let corr := Vr ^ 2 * rpre / (G c * Mtot_pre) in
    let tmp1 := 2 - Mtot_pre / Mtot_post * (Vk / Vr - 1) ^ 2 * corr in
    let tmp2 := 2 - Mtot_pre / Mtot_post * (Vk / Vr + 1) ^ 2 * corr in
    let SNflag2 := Rltb (rpre / Apost - tmp1) ERR && Rltb (tmp2 - rpre / Apost) ERR in
    let SNflag3 := negb (Rleb 1 e) in
    SNflag1 && SNflag2 && SNflag3
  end.

(** Lines 1767 and 1772-1805: separation, relative velocity and its direction at the explosion, in CGS units. *)
Definition rpre_of (c : consts) (x : sn) : R := Apre x * (1 - epre x * cos (E_ma x)) * Rsun c.
Definition Vr_of (c : consts) (x : sn) : R :=
  sqrt (G c * (M_he_star x * Msun c + M_companion x * Msun c) * (2 / rpre_of c x - 1 / (Apre x * Rsun c))).
Definition sin_psi_of (c : consts) (x : sn) : R :=
  round5 (sqrt (G c * (M_he_star x * Msun c + M_companion x * Msun c) * (1 - epre x ^ 2) * (Apre x * Rsun c)) / (rpre_of c x * Vr_of c x)).
Definition cos_psi_of (c : consts) (x : sn) : R :=
  let s := sqrt (1 - sin_psi_of c x ^ 2) in if Rltb PI (E_ma x) then - s else s.
(** Lines 1786 and 1820-1822: the kick in the coordinate system. *)
Definition Vk_of (c : consts) (x : sn) : R * R * R :=
  let Vk := Vkick x * km2cm c in
  let sin_theta := sqrt (1 - cos_theta x ^ 2) in
  let sp := sin_psi_of c x in let cp := cos_psi_of c x in
  (Vk * (sin_theta * sin (phi x) * sp + cos_theta x * cp), Vk * (- sin_theta * sin (phi x) * cp + cos_theta x * sp), Vk * sin_theta * cos (phi x)).
(** Lines 1814-1871 and 1979-2033.  Where the inverse of line 1816 is that of zero, numpy's infinity gives an eccentricity of 1 and the binary is
    disrupted.  Masses, separation and eccentricity are numbers. *)
Definition kick_orbit (c : consts) (x : sn) : option orbit :=
  let Mhe := M_he_star x * Msun c in
  let Mcomp := M_companion x * Msun c in
  let Mco := M_compact_object x * Msun c in
  let Vk := Vkick x * km2cm c in
  let rpre := rpre_of c x in
  let Mtot_pre := Mhe + Mcomp in
  let Mtot_post := Mco + Mcomp in
  let Vr := Vr_of c x in let sp := sin_psi_of c x in let cp := cos_psi_of c x in
  let '(Vkx, Vky, Vkz) := Vk_of c x in
  let d := 2 / rpre - (Vk ^ 2 + Vr ^ 2 + 2 * (Vk * cos_theta x) * Vr) / (G c * Mtot_post) in
  if Req_EM_T d 0 then None else
  let Apost := / d in
  let y := (Vkz ^ 2 + (Vky + Vr * sp) ^ 2) * rpre ^ 2 / (G c * Mtot_post * Apost) in
  let epost := if Rltb (1 - y) 0 then None else Some (sqrt (1 - y)) in
  let VC0x := Mhe * Vr * cp / Mtot_pre in
  let VC0y := Mhe * Vr * sp / Mtot_pre in
  let VC1x := Mco * (Vkx + Vr * cp) / Mtot_post in
  let VC1y := Mco * (Vky + Vr * sp) / Mtot_post in
  let VC1z := Mco * Vkz / Mtot_post in
  let t := acos ((Vky + Vr * sp) / sqrt (Vkz ^ 2 + (Vky + Vr * sp) ^ 2)) in
  let tilt := if Rltb Vkz 0 then - t else t in
  match epost with
  | Some e => if SNCheck c Mhe Mcomp Mco rpre Apost epost Vr Vk
              then Some (Orbit (Apost / Rsun c) e ((VC1x - VC0x) / km2cm c, (VC1y - VC0y) / km2cm c, (VC1z - 0) / km2cm c) tilt)
              else None
  | None => None
  end.

(** ** Rotations *)
(** utils/common_functions.py:2870-2913 for arrays of length 3; None for the ValueError of a zero axis. *)
Definition vec := (R * R * R)%type.
Definition rotate (axis : vec) (angle : R) : option (vec * vec * vec) :=
  let '(a, b, d) := axis in
  let norm := sqrt (a ^ 2 + b ^ 2 + d ^ 2) in
  if Req_EM_T norm 0 then None else
  let x := a / norm in let y := b / norm in let z := d / norm in
  let co := cos angle in let si := sin angle in
  Some ((co + x ^ 2 * (1 - co), x * y * (1 - co) - z * si, x * z * (1 - co) + y * si),
        (y * x * (1 - co) + z * si, co + y ^ 2 * (1 - co), y * z * (1 - co) - x * si),
        (z * x * (1 - co) - y * si, z * y * (1 - co) + x * si, co + z ^ 2 * (1 - co))).
Definition dot3 (u v : vec) : R := let '(a, b, d) := u in let '(x, y, z) := v in a * x + b * y + d * z.
Definition mdot (m : vec * vec * vec) (v : vec) : vec := let '(p, q, r) := m in (dot3 p v, dot3 q v, dot3 r v).
Definition rotated (axis : vec) (angle : R) (v : vec) : option vec := match rotate axis angle with Some m => Some (mdot m v) | None => None end.
(** get_combined_tilt, step_SN.py:2217-2247. *)
Definition get_combined_tilt (tilt_1 tilt_2 true_anomaly_1 true_anomaly_2 : R) : option R :=
  match rotated (1, 0, 0) tilt_1 (0, 0, 1) with
  | None => None
  | Some z_prime =>
    match rotated z_prime (true_anomaly_2 - true_anomaly_1) (1, 0, 0) with
    | None => None
    | Some x_prime => match rotated x_prime tilt_2 z_prime with Some w => Some (acos (dot3 (0, 0, 1) w)) | None => None end
    end
  end.
