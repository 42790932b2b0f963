(** Properties of the orbit after a supernova. *)
From Coq Require Import Reals String Bool List ZArith Lra Lia.
From Verif Require Import PyBase KickModel.
Open Scope R_scope.

(** ** Specification: orbits of two bodies
    The companion is at the origin, the collapsing star at [p] with velocity [v]; mu is G times the total mass. *)
Definition cross (u v : vec) : vec := let '(a, b, d) := u in let '(x, y, z) := v in (b * z - d * y, d * x - a * z, a * y - b * x).
Definition add3 (u v : vec) : vec := let '(a, b, d) := u in let '(x, y, z) := v in (a + x, b + y, d + z).
Definition scale3 (k : R) (u : vec) : vec := let '(a, b, d) := u in (k * a, k * b, k * d).
Definition norm2 (u : vec) : R := let '(a, b, d) := u in a * a + b * b + d * d.
Definition energy (mu : R) (p v : vec) : R := norm2 v / 2 - mu / sqrt (norm2 p).
(** The Kepler orbit through [p] with velocity [v]: semi-major axis a and eccentricity e. *)
Definition on_orbit (mu : R) (p v : vec) (a e : R) : Prop :=
  energy mu p v < 0 /\ a = - mu / (2 * energy mu p v) /\ 0 <= e /\ e ^ 2 = 1 + 2 * energy mu p v * norm2 (cross p v) / mu ^ 2.

Definition valid (c : consts) (x : sn) : Prop :=
  0 < G c /\ 0 < Msun c /\ 0 < Rsun c /\ 0 < km2cm c /\ 0 < M_he_star x /\ 0 <= M_companion x /\ 0 <= M_compact_object x
  /\ 0 < M_compact_object x + M_companion x /\ 0 < Apre x /\ 0 <= epre x < 1 /\ 0 <= E_ma x <= 2 * PI /\ -1 <= cos_theta x <= 1.
Definition mu_pre (c : consts) (x : sn) : R := G c * (M_he_star x + M_companion x) * Msun c.
Definition mu_post (c : consts) (x : sn) : R := G c * (M_compact_object x + M_companion x) * Msun c.
(** The separation and the velocity (radial, tangential) of the orbit before the supernova at eccentric anomaly E. *)
Definition r_before (c : consts) (x : sn) : R := Apre x * Rsun c * (1 - epre x * cos (E_ma x)).
Definition v_radial (c : consts) (x : sn) : R := epre x * sin (E_ma x) * sqrt (mu_pre c x * (Apre x * Rsun c)) / r_before c x.
Definition v_tangential (c : consts) (x : sn) : R := sqrt (mu_pre c x * (Apre x * Rsun c) * (1 - epre x ^ 2)) / r_before c x.

(** ** Rounding *)
Lemma rint_spec x : Rabs (IZR (rint x) - x) <= 1 / 2.
Proof.
  unfold rint, Rltb. destruct (base_Int_part x) as [A B]. apply Rabs_le.
  destruct (Rlt_dec _ _); [lra|]. destruct (Rlt_dec _ _); [rewrite plus_IZR; lra|]. destruct (Z.even _); [lra|rewrite plus_IZR; lra].
Qed.
Lemma rint_le x (n : Z) : x <= IZR n -> (rint x <= n)%Z.
Proof.
  intros H. destruct (base_Int_part x) as [A B]. unfold rint, Rltb.
  assert (L : (Int_part x <= n)%Z). { apply le_IZR. lra. }
  destruct (Rlt_dec _ _); [exact L|].
  assert (L' : (Int_part x < n)%Z). { apply lt_IZR. lra. }
  destruct (Rlt_dec _ _); [lia|]. destruct (Z.even _); lia.
Qed.
Lemma rint_ge x (n : Z) : IZR n <= x -> (n <= rint x)%Z.
Proof.
  intros H. destruct (base_Int_part x) as [A B]. unfold rint, Rltb.
  assert (L : (n <= Int_part x)%Z). { assert (n - 1 < Int_part x)%Z; [|lia]. apply lt_IZR. rewrite minus_IZR. lra. }
  destruct (Rlt_dec _ _); [exact L|]. destruct (Rlt_dec _ _); [lia|]. destruct (Z.even _); lia.
Qed.
Lemma round5_error x : Rabs (round5 x - x) <= 5 / 10 ^ 6.
Proof.
  unfold round5. pose proof (rint_spec (x * 10 ^ 5)) as H. apply Rabs_le. apply Rabs_le_inv in H || (unfold Rabs in H; destruct (Rcase_abs _) in H); lra.
Qed.
Lemma round5_range x : 0 <= x <= 1 -> 0 <= round5 x <= 1.
Proof.
  intros [A B]. unfold round5. assert (L : (0 <= rint (x * 10 ^ 5))%Z) by (apply rint_ge; simpl; lra).
  assert (U : (rint (x * 10 ^ 5) <= 100000)%Z) by (apply rint_le; lra). apply IZR_le in L, U. lra.
Qed.
Lemma round5_one : round5 1 = 1.
Proof.
  pose proof (rint_ge (1 * 10 ^ 5) 100000 ltac:(lra)). pose proof (rint_le (1 * 10 ^ 5) 100000 ltac:(lra)).
  unfold round5. replace (rint (1 * 10 ^ 5)) with 100000%Z by lia. lra.
Qed.

(** ** The geometry before the supernova *)
Section Geometry.
  Variables (c : consts) (x : sn).
  Hypothesis V : valid c x.
  Let r := rpre_of c x.
  Let A := Apre x * Rsun c.
  Let mu := mu_pre c x.
  Let e := epre x.
  Let k := cos (E_ma x).
  Lemma A_pos : 0 < A.
  Proof using V. unfold valid in V. apply Rmult_lt_0_compat; tauto. Qed.
  Lemma mu_pos : 0 < mu.
  Proof using V. unfold valid in V. unfold mu, mu_pre. repeat apply Rmult_lt_0_compat; lra. Qed.
  Lemma mu_post_pos : 0 < mu_post c x.
  Proof using V. unfold valid in V. unfold mu_post. repeat apply Rmult_lt_0_compat; lra. Qed.
  Lemma r_eq : r = A * (1 - e * k).
  Proof using Type. unfold r, rpre_of, A, e, k. ring. Qed.
  Lemma ek : - e <= e * k <= e /\ 0 <= e < 1.
  Proof using V. unfold valid in V. pose proof (COS_bound (E_ma x)). unfold e, k. nra. Qed.
  Lemma r_pos : 0 < r.
  Proof using V. rewrite r_eq. pose proof A_pos. pose proof ek. apply Rmult_lt_0_compat; lra. Qed.
  Lemma r_below : r < 2 * A.
  Proof using V. rewrite r_eq. pose proof A_pos. pose proof ek. nra. Qed.
  Lemma Vr2 : Vr_of c x ^ 2 = mu * (2 / r - 1 / A) /\ 0 < Vr_of c x.
  Proof using V.
    pose proof mu_pos. pose proof r_pos. pose proof A_pos. pose proof r_below.
    assert (P : 0 < mu * (2 / r - 1 / A)).
    { apply Rmult_lt_0_compat; [assumption|]. replace (2 / r - 1 / A) with ((2 * A - r) / (r * A)) by (field; lra). apply Rdiv_lt_0_compat; [lra|]. apply Rmult_lt_0_compat; lra. }
    assert (E : Vr_of c x = sqrt (mu * (2 / r - 1 / A))). { unfold Vr_of, mu, mu_pre, A, r. f_equal. ring. }
    rewrite E. split; [|apply sqrt_lt_R0; exact P]. rewrite <- Rsqr_pow2. apply Rsqr_sqrt. lra.
  Qed.
  Let raw := sqrt (mu * (1 - e ^ 2) * A) / (r * Vr_of c x).
  Lemma sin_psi_eq : sin_psi_of c x = round5 raw.
  Proof using Type. unfold sin_psi_of, raw, mu, mu_pre, A, r, e. f_equal. f_equal. f_equal. ring. Qed.
  Lemma raw2 : raw ^ 2 * (r ^ 2 * Vr_of c x ^ 2) = mu * (1 - e ^ 2) * A.
  Proof using V.
    pose proof mu_pos. pose proof r_pos. pose proof A_pos. destruct Vr2 as [_ P]. pose proof ek.
    unfold raw. replace ((sqrt (mu * (1 - e ^ 2) * A) / (r * Vr_of c x)) ^ 2 * (r ^ 2 * Vr_of c x ^ 2)) with (Rsqr (sqrt (mu * (1 - e ^ 2) * A))).
    - apply Rsqr_sqrt. apply Rmult_le_pos; [apply Rmult_le_pos; [lra|]|lra]. replace (1 - e ^ 2) with ((1 - e) * (1 + e)) by ring. apply Rmult_le_pos; lra.
    - unfold Rsqr. field. lra.
  Qed.
  Lemma rV2 : r ^ 2 * Vr_of c x ^ 2 = mu * (2 * r - r ^ 2 / A).
  Proof using V. destruct Vr2 as [-> _]. pose proof r_pos. pose proof A_pos. field. lra. Qed.
  Lemma raw_range : 0 <= raw <= 1.
  Proof using V.
    pose proof raw2 as E. pose proof mu_pos. pose proof r_pos. pose proof A_pos. destruct Vr2 as [_ P]. pose proof rV2 as W. pose proof ek as (K1 & K2).
    assert (N : 0 <= raw). { unfold raw. apply Rmult_le_pos; [apply sqrt_pos|]. left. apply Rinv_0_lt_compat. apply Rmult_lt_0_compat; lra. }
    split; [exact N|].
    assert (Q : (1 - e ^ 2) * A <= 2 * r - r ^ 2 / A).
    { rewrite r_eq. replace (2 * (A * (1 - e * k)) - (A * (1 - e * k)) ^ 2 / A) with (A * (1 - (e * k) ^ 2)) by (field; lra).
      rewrite Rmult_comm. apply Rmult_le_compat_l; [lra|]. nra. }
    assert (Z : 0 < r ^ 2 * Vr_of c x ^ 2) by (apply Rmult_lt_0_compat; apply pow_lt; lra).
    assert (raw ^ 2 <= 1). { apply (Rmult_le_reg_r (r ^ 2 * Vr_of c x ^ 2)); [exact Z|]. rewrite E, W. rewrite Rmult_1_l, Rmult_assoc. apply Rmult_le_compat_l; lra. }
    nra.
  Qed.
  Lemma psi_unit : sin_psi_of c x ^ 2 + cos_psi_of c x ^ 2 = 1 /\ 0 <= sin_psi_of c x <= 1.
  Proof using V.
    assert (B : 0 <= sin_psi_of c x <= 1) by (rewrite sin_psi_eq; apply round5_range, raw_range). split; [|exact B].
    unfold cos_psi_of. set (s := sqrt _). assert (S2 : s ^ 2 = 1 - sin_psi_of c x ^ 2). { unfold s. rewrite <- Rsqr_pow2. apply Rsqr_sqrt. nra. }
    destruct (Rltb PI (E_ma x)); [replace ((- s) ^ 2) with (s ^ 2) by ring|]; lra.
  Qed.
End Geometry.

(** ** C81: where the explosion happens *)
(** The mean anomaly determines the point of the orbit. *)
Theorem C81_anomaly : forall M e, 0 <= e < 1 -> 0 <= M <= 2 * PI -> exists! E, 0 <= E <= 2 * PI /\ kepler M e E = 0.
Proof.
  intros M e He HM. set (f := fun x => x - e * sin x - M).
  assert (C : continuity f). { intro z. unfold f. reg. }
  assert (D : forall x y, x < y -> f x < f y).
  { intros a b L. destruct (MVT_cor2 f (fun z => 1 - e * cos z) a b L) as (z & E & _).
    - intros z _. unfold f. replace (1 - e * cos z) with (1 - (0 * sin z + e * cos z) - 0) by ring.
      apply derivable_pt_lim_minus; [apply derivable_pt_lim_minus; [apply derivable_pt_lim_id|apply derivable_pt_lim_mult; [apply derivable_pt_lim_const|apply derivable_pt_lim_sin]]|apply derivable_pt_lim_const].
    - pose proof (COS_bound z). assert (0 < (1 - e * cos z) * (b - a)) by (apply Rmult_lt_0_compat; nra). lra. }
  assert (F0 : f 0 <= 0) by (unfold f; rewrite sin_0; lra). assert (F1 : 0 <= f (2 * PI)) by (unfold f; rewrite sin_2PI; lra).
  pose proof PI_RGT_0. destruct (IVT_cor f 0 (2 * PI) C ltac:(lra)) as (E & HE & ZE); [nra|].
  exists E. split. { split; [exact HE|]. unfold kepler. unfold f in ZE. lra. }
  intros E' (HE' & ZE'). assert (ZF : f E' = 0) by (unfold kepler in ZE'; unfold f; lra).
  destruct (Rtotal_order E E') as [L|[L|L]]; [apply D in L; lra|exact L|apply D in L; lra].
Qed.

Lemma half_angle u : cos u <> 0 -> cos (2 * u) * (1 + tan u ^ 2) = 1 - tan u ^ 2 /\ sin (2 * u) * (1 + tan u ^ 2) = 2 * tan u.
Proof.
  intros H. unfold tan. rewrite cos_2a, sin_2a. pose proof (sin2_cos2 u) as S. unfold Rsqr in S.
  assert (E : 1 + (sin u / cos u) ^ 2 = / (cos u * cos u)). { apply (Rmult_eq_reg_r (cos u * cos u)); [|nra]. rewrite Rinv_l by nra. transitivity (sin u * sin u + cos u * cos u); [field; exact H|exact S]. }
  rewrite E. split; field_simplify_eq; try exact H; nra.
Qed.
(** The true anomaly is the polar angle of the star seen from the companion, with the pericenter at angle 0. *)
Theorem C81_position : forall e E, 0 <= e < 1 -> 0 <= E <= 2 * PI -> E <> PI ->
  (1 - e * cos E) * cos (true_anomaly e E) = cos E - e /\ (1 - e * cos E) * sin (true_anomaly e E) = sqrt (1 - e ^ 2) * sin E.
Proof.
  intros e E He HE N. pose proof PI_RGT_0. unfold true_anomaly. set (t := tan (E / 2)). set (q := sqrt ((1 + e) / (1 - e))).
  assert (CE : cos (E / 2) <> 0).
  { destruct (Rlt_dec E PI). { assert (0 < cos (E / 2)) by (apply cos_gt_0; lra). lra. } assert (cos (E / 2) < 0) by (apply cos_lt_0; lra). lra. }
  destruct (half_angle (E / 2) CE) as [A1 A2]. fold t in A1, A2. replace (2 * (E / 2)) with E in A1, A2 by field.
  destruct (atan_bound (q * t)) as [B1 B2]. assert (CA : cos (atan (q * t)) <> 0). { assert (0 < cos (atan (q * t))) by (apply cos_gt_0; lra). lra. }
  destruct (half_angle _ CA) as [C1 C2]. rewrite tan_atan in C1, C2.
  set (cn := cos (2 * atan (q * t))) in *. set (sn' := sin (2 * atan (q * t))) in *.
  assert (Q2 : q ^ 2 = (1 + e) / (1 - e)). { unfold q. rewrite <- Rsqr_pow2. apply Rsqr_sqrt. apply Rmult_le_pos; [lra|]. left. apply Rinv_0_lt_compat. lra. }
  assert (Q3 : sqrt (1 - e ^ 2) = q * (1 - e)).
  { replace (1 - e ^ 2) with ((1 + e) / (1 - e) * ((1 - e) * (1 - e))) by (field; lra). rewrite sqrt_mult; [|apply Rmult_le_pos; [lra|left; apply Rinv_0_lt_compat; lra]|nra]. rewrite sqrt_square by lra. reflexivity. }
  set (T := 1 + t ^ 2) in *. assert (TP : 0 < T) by (unfold T; nra).
  set (W := (1 - e) + (1 + e) * t ^ 2). assert (WP : 0 < W) by (unfold W; nra).
  assert (X : 1 + (q * t) ^ 2 = W / (1 - e)). { replace ((q * t) ^ 2) with (q ^ 2 * t ^ 2) by ring. rewrite Q2. unfold W. field. lra. }
  assert (R1 : (1 - e * cos E) * T = W). { unfold W. replace ((1 - e * cos E) * T) with (T - e * (cos E * T)) by ring. rewrite A1. unfold T. ring. }
  assert (D1 : cn * W = (1 - e) - (1 + e) * t ^ 2).
  { rewrite X in C1. replace ((q * t) ^ 2) with (q ^ 2 * t ^ 2) in C1 by ring. rewrite Q2 in C1. apply (Rmult_eq_reg_r (/ (1 - e))); [|apply Rinv_neq_0_compat; lra]. replace (cn * W * / (1 - e)) with (cn * (W / (1 - e))) by (field; lra). rewrite C1. field. lra. }
  assert (D2 : sn' * W = 2 * (q * t) * (1 - e)).
  { rewrite X in C2. rewrite <- C2. field. lra. }
  split; apply (Rmult_eq_reg_r T); try lra.
  - replace ((1 - e * cos E) * cn * T) with (cn * ((1 - e * cos E) * T)) by ring. rewrite R1, D1. replace ((cos E - e) * T) with (cos E * T - e * T) by ring. rewrite A1. unfold T. ring.
  - replace ((1 - e * cos E) * sn' * T) with (sn' * ((1 - e * cos E) * T)) by ring. rewrite R1, D2, Q3. replace (q * (1 - e) * sin E * T) with (q * (1 - e) * (sin E * T)) by ring. rewrite A2. ring.
Qed.

(** The velocity before the supernova as used: its size and direction, with the sine of the direction rounded. *)
Definition before (c : consts) (x : sn) (v0 : vec) : Prop :=
  let '(a, b, z) := v0 in let v := sqrt (v_radial c x ^ 2 + v_tangential c x ^ 2) in
  norm2 v0 = v ^ 2 /\ z = 0 /\ b = v * round5 (v_tangential c x / v) /\ (v_radial c x < 0 -> a <= 0) /\ (0 <= v_radial c x -> 0 <= a).
(** The kick: its size, polar angle to the velocity and azimuthal angle. *)
Definition kicked (c : consts) (x : sn) (v0 kick : vec) : Prop :=
  let w := Vkick x * km2cm c in let s := sqrt (1 - cos_theta x ^ 2) in
  let '(a, b, _) := v0 in
  norm2 kick = w ^ 2 /\ dot3 kick v0 = w * sqrt (norm2 v0) * cos_theta x
  /\ dot3 kick (b, - a, 0) = w * sqrt (norm2 v0) * (s * sin (phi x)) /\ dot3 kick (0, 0, 1) = w * (s * cos (phi x)).

Section Velocity.
  Variables (c : consts) (x : sn).
  Hypothesis V : valid c x.
  Lemma r_same : r_before c x = rpre_of c x.
  Proof using Type. unfold r_before, rpre_of. ring. Qed.
  Lemma speed : v_radial c x ^ 2 + v_tangential c x ^ 2 = Vr_of c x ^ 2.
  Proof using V.
    pose proof (mu_pos _ _ V). pose proof (r_pos _ _ V) as RP. pose proof (A_pos _ _ V). destruct (ek _ _ V) as (K1 & K2). destruct (Vr2 _ _ V) as [-> _].
    unfold v_radial, v_tangential. rewrite r_same.
    set (A := Apre x * Rsun c) in *. set (mu := mu_pre c x) in *. set (e := epre x) in *. pose proof (r_eq c x) as RE. fold A e in RE.
    replace ((e * sin (E_ma x) * sqrt (mu * A) / rpre_of c x) ^ 2) with (e ^ 2 * sin (E_ma x) ^ 2 * Rsqr (sqrt (mu * A)) / rpre_of c x ^ 2) by (unfold Rsqr; field; lra).
    replace ((sqrt (mu * A * (1 - e ^ 2)) / rpre_of c x) ^ 2) with (Rsqr (sqrt (mu * A * (1 - e ^ 2))) / rpre_of c x ^ 2) by (unfold Rsqr; field; lra).
    assert (0 < mu * A) by (apply Rmult_lt_0_compat; lra).
    rewrite !Rsqr_sqrt; [|apply Rmult_le_pos; [lra|nra]|lra].
    replace (sin (E_ma x) ^ 2) with (1 - cos (E_ma x) ^ 2) by (pose proof (sin2_cos2 (E_ma x)) as S; unfold Rsqr in S; nra).
    rewrite RE in RP. rewrite RE. set (k := cos (E_ma x)) in *. assert (1 - e * k <> 0) by lra. field. lra.
  Qed.
  Lemma tangential : v_tangential c x = sqrt (mu_pre c x * (1 - epre x ^ 2) * (Apre x * Rsun c)) / (rpre_of c x * Vr_of c x) * Vr_of c x.
  Proof using V.
    destruct (Vr2 _ _ V) as [_ P]. pose proof (r_pos _ _ V). unfold v_tangential. rewrite r_same. replace (mu_pre c x * (Apre x * Rsun c) * (1 - epre x ^ 2)) with (mu_pre c x * (1 - epre x ^ 2) * (Apre x * Rsun c)) by ring. field. lra.
  Qed.
  Lemma size : sqrt (v_radial c x ^ 2 + v_tangential c x ^ 2) = Vr_of c x.
  Proof using V. rewrite speed. destruct (Vr2 _ _ V) as [_ P]. rewrite <- Rsqr_pow2. apply sqrt_Rsqr. lra. Qed.
  Definition v0_of : vec := (Vr_of c x * cos_psi_of c x, Vr_of c x * sin_psi_of c x, 0).
  Lemma radial_sign : (v_radial c x < 0 -> PI < E_ma x) /\ (0 < v_radial c x -> E_ma x < PI).
  Proof using V.
    pose proof PI_RGT_0. pose proof (r_pos _ _ V) as RP. pose proof (mu_pos _ _ V). pose proof (A_pos _ _ V). destruct (ek _ _ V) as (_ & K2). unfold valid in V.
    assert (P : 0 < sqrt (mu_pre c x * (Apre x * Rsun c)) / rpre_of c x). { apply Rdiv_lt_0_compat; [apply sqrt_lt_R0, Rmult_lt_0_compat; lra|lra]. }
    assert (E : v_radial c x = epre x * sin (E_ma x) * (sqrt (mu_pre c x * (Apre x * Rsun c)) / rpre_of c x)) by (unfold v_radial; rewrite r_same; field; lra).
    split; intros L; rewrite E in L.
    - apply Rnot_le_lt. intros Q. assert (0 <= sin (E_ma x)) by (apply sin_ge_0; lra). assert (0 <= epre x * sin (E_ma x)) by nra. nra.
    - apply Rnot_le_lt. intros Q. assert (sin (E_ma x) <= 0) by (apply sin_le_0; lra). assert (epre x * sin (E_ma x) <= 0) by nra. nra.
  Qed.
  Lemma raw_psi : v_tangential c x / Vr_of c x = sqrt (mu_pre c x * (1 - epre x ^ 2) * (Apre x * Rsun c)) / (rpre_of c x * Vr_of c x).
  Proof using V. rewrite tangential. destruct (Vr2 _ _ V) as [_ P]. pose proof (r_pos _ _ V). field. lra. Qed.
  Lemma before_holds : before c x v0_of.
  Proof using V.
    unfold before, v0_of. rewrite size. destruct (Vr2 _ _ V) as [_ P]. destruct (psi_unit _ _ V) as [U B]. split; [|split; [reflexivity|]].
    - unfold norm2. replace (Vr_of c x * cos_psi_of c x * (Vr_of c x * cos_psi_of c x) + Vr_of c x * sin_psi_of c x * (Vr_of c x * sin_psi_of c x) + 0 * 0) with (Vr_of c x ^ 2 * (sin_psi_of c x ^ 2 + cos_psi_of c x ^ 2)) by ring. rewrite U. ring.
    - split; [rewrite raw_psi, <- sin_psi_eq; reflexivity|]. destruct radial_sign as [S1 S2]. split; intros L.
      + apply S1 in L. unfold cos_psi_of, Rltb. destruct (Rlt_dec _ _); [|contradiction]. pose proof (sqrt_pos (1 - sin_psi_of c x ^ 2)). nra.
      + unfold cos_psi_of, Rltb. pose proof (sqrt_pos (1 - sin_psi_of c x ^ 2)). destruct (Rlt_dec _ _) as [Q|Q]; [|nra].
        destruct (Req_dec (v_radial c x) 0) as [Z|Z]; [|assert (E_ma x < PI) by (apply S2; lra); lra].
        assert (O : sin_psi_of c x = 1). { rewrite sin_psi_eq, <- raw_psi. pose proof speed as SP. rewrite Z in SP.
          assert (TV : v_tangential c x = Vr_of c x). { assert (0 <= v_tangential c x). { unfold v_tangential. rewrite r_same. apply Rmult_le_pos; [apply sqrt_pos|]. left. apply Rinv_0_lt_compat, (r_pos _ _ V). } nra. }
          rewrite TV. replace (Vr_of c x / Vr_of c x) with 1 by (field; lra). apply round5_one. }
        rewrite O. replace (1 - 1 ^ 2) with 0 by ring. rewrite sqrt_0. lra.
  Qed.
  Lemma kicked_holds : kicked c x v0_of (Vk_of c x).
  Proof using V.
    unfold kicked, v0_of, Vk_of. destruct (psi_unit _ _ V) as [U _]. destruct (Vr2 _ _ V) as [_ P].
    assert (N : sqrt (norm2 (Vr_of c x * cos_psi_of c x, Vr_of c x * sin_psi_of c x, 0)) = Vr_of c x).
    { unfold norm2. replace (Vr_of c x * cos_psi_of c x * (Vr_of c x * cos_psi_of c x) + Vr_of c x * sin_psi_of c x * (Vr_of c x * sin_psi_of c x) + 0 * 0) with (Rsqr (Vr_of c x) * (sin_psi_of c x ^ 2 + cos_psi_of c x ^ 2)) by (unfold Rsqr; ring). rewrite U, Rmult_1_r. apply sqrt_Rsqr. lra. }
    rewrite N. assert (T : sqrt (1 - cos_theta x ^ 2) ^ 2 = 1 - cos_theta x ^ 2). { rewrite <- Rsqr_pow2. apply Rsqr_sqrt. unfold valid in V. nra. }
    pose proof (sin2_cos2 (phi x)) as F. unfold Rsqr in F.
    set (w := Vkick x * km2cm c). set (s := sqrt (1 - cos_theta x ^ 2)) in *. set (sp := sin_psi_of c x) in *. set (cp := cos_psi_of c x) in *. set (sf := sin (phi x)) in *. set (cf := cos (phi x)) in *. set (ct := cos_theta x) in *. set (Vr := Vr_of c x) in *.
    assert (C : cp ^ 2 = 1 - sp ^ 2) by lra. assert (CF : cf ^ 2 = 1 - sf ^ 2) by nra.
    unfold norm2, dot3. split; [|split; [|split]].
    - replace (_ + _ + _) with (w ^ 2 * ((s ^ 2 * sf ^ 2 + ct ^ 2) * (sp ^ 2 + cp ^ 2) + s ^ 2 * cf ^ 2)) by ring. rewrite U, CF, T. ring.
    - replace (_ + _ + _) with (w * Vr * ct * (sp ^ 2 + cp ^ 2)) by ring. rewrite U. ring.
    - replace (_ + _ + _) with (w * Vr * (s * sf) * (sp ^ 2 + cp ^ 2)) by ring. rewrite U. ring.
    - ring.
  Qed.
End Velocity.

(** The velocity used is the one of the orbit, except that the sine of its direction is rounded to five digits. *)
Theorem C81_velocity : forall c x v0, valid c x -> before c x v0 -> let '(a, b, _) := v0 in
  a ^ 2 + b ^ 2 = v_radial c x ^ 2 + v_tangential c x ^ 2 /\ Rabs (b - v_tangential c x) <= 5 / 10 ^ 6 * sqrt (a ^ 2 + b ^ 2) /\ 0 <= a * v_radial c x
  /\ (epre x = 0 -> a = 0 /\ b = v_tangential c x).
Proof.
  intros c x [[a b] z] V B. unfold before in B. rewrite (size _ _ V) in B. destruct B as (N & -> & BE & L1 & L2). unfold norm2 in N.
  destruct (Vr2 _ _ V) as [_ P]. pose proof (speed _ _ V) as S2. assert (AB : a ^ 2 + b ^ 2 = Vr_of c x ^ 2) by (rewrite <- N; ring).
  split; [lra|]. split; [|split].
  - rewrite AB, <- Rsqr_pow2, sqrt_Rsqr by lra. rewrite BE. pose proof (round5_error (v_tangential c x / Vr_of c x)) as E. set (q := v_tangential c x / Vr_of c x) in *.
    replace (v_tangential c x) with (Vr_of c x * q) by (unfold q; field; lra). rewrite <- Rmult_minus_distr_l, Rabs_mult, (Rabs_right (Vr_of c x)) by lra. rewrite Rmult_comm. apply Rmult_le_compat_r; lra.
  - destruct (Rlt_dec (v_radial c x) 0) as [L|L]; [specialize (L1 L); nra|specialize (L2 ltac:(lra)); nra].
  - intros E0. assert (Z : v_radial c x = 0) by (unfold v_radial; rewrite E0; unfold Rdiv; ring). rewrite Z in S2.
    assert (0 <= v_tangential c x). { unfold v_tangential. rewrite r_same. apply Rmult_le_pos; [apply sqrt_pos|]. left. apply Rinv_0_lt_compat, (r_pos _ _ V). }
    assert (TV : v_tangential c x = Vr_of c x) by nra. rewrite TV in BE. replace (Vr_of c x / Vr_of c x) with 1 in BE by (field; lra). rewrite round5_one in BE. split; [nra|lra].
Qed.

(** ** C82: the orbit after the supernova *)
Section Core.
  Variables (r mu vx vy vz : R).
  Hypotheses (RP : 0 < r) (MP : 0 < mu).
  Let v2 := vx * vx + vy * vy + vz * vz.
  Let d := 2 / r - v2 / mu.
  Let p : vec := (r, 0, 0).
  Let v : vec := (vx, vy, vz).
  Let y := (vz ^ 2 + vy ^ 2) * r ^ 2 / (mu * / d).
  Lemma energy_d : energy mu p v = - mu * d / 2.
  Proof using RP MP. unfold energy, p, v, norm2. replace (r * r + 0 * 0 + 0 * 0) with (Rsqr r) by (unfold Rsqr; ring). rewrite sqrt_Rsqr by lra. unfold d, v2. field. lra. Qed.
  Lemma cross_d : norm2 (cross p v) = r ^ 2 * (vz ^ 2 + vy ^ 2).
  Proof using Type. unfold norm2, cross, p, v. ring. Qed.
  Lemma y_d : d <> 0 -> y = d * norm2 (cross p v) / mu.
  Proof using MP. intros D. rewrite cross_d. unfold y. field. split; [lra|exact D]. Qed.
  Lemma y_le : d <> 0 -> y <= r * d * (2 - r * d) \/ (d < 0 /\ y <= 0).
  Proof using RP MP.
    intros D. rewrite (y_d D), cross_d. destruct (Rlt_dec d 0) as [L|L].
    - right. split; [exact L|]. assert (0 <= r ^ 2 * (vz ^ 2 + vy ^ 2)) by (apply Rmult_le_pos; nra). assert (0 < / mu) by (apply Rinv_0_lt_compat; lra). unfold Rdiv.
      assert (d * (r ^ 2 * (vz ^ 2 + vy ^ 2)) <= 0) by nra. nra.
    - left. replace (2 - r * d) with (r * v2 / mu) by (unfold d; field; lra). unfold Rdiv. rewrite <- !Rmult_assoc.
      assert (0 < / mu) by (apply Rinv_0_lt_compat; lra). apply Rmult_le_compat_r; [lra|]. replace (r * d * r * v2) with (d * r ^ 2 * v2) by ring. apply Rmult_le_compat_l; [apply Rmult_le_pos; nra|]. unfold v2. nra.
  Qed.
  Lemma y_one : d <> 0 -> 0 <= 1 - y.
  Proof using RP MP. intros D. destruct (y_le D) as [L|[_ L]]; [|lra]. assert (r * d * (2 - r * d) <= 1) by (pose proof (pow2_ge_0 (r * d - 1)); nra). lra. Qed.
  Lemma bound_orbit : 0 < d -> on_orbit mu p v (/ d) (sqrt (1 - y)).
  Proof using RP MP.
    intros D. assert (D0 : d <> 0) by lra. unfold on_orbit. rewrite energy_d. assert (0 < mu * d) by (apply Rmult_lt_0_compat; lra).
    split; [nra|]. split; [field; lra|]. split; [apply sqrt_pos|]. rewrite <- Rsqr_pow2, Rsqr_sqrt by (apply y_one; exact D0). rewrite (y_d D0). field. lra.
  Qed.
  Lemma flag1 : 0 < d -> 1 - sqrt (1 - y) - r / / d <= ERR /\ r / / d - (1 + sqrt (1 - y)) <= ERR.
  Proof using RP MP.
    intros D. assert (D0 : d <> 0) by lra. assert (E0 : 0 < ERR) by (unfold ERR; apply Rinv_0_lt_compat, pow_lt; lra).
    replace (r / / d) with (r * d) by (field; exact D0). pose proof (y_one D0) as Y. pose proof (sqrt_pos (1 - y)) as SP. pose proof (Rsqr_sqrt _ Y) as SQ. unfold Rsqr in SQ.
    destruct (y_le D0) as [L|[L _]]; [|lra]. set (w := sqrt (1 - y)) in *. set (u := r * d) in *.
    assert (Q : (1 - u) * (1 - u) <= w * w) by nra. split; nra.
  Qed.
  Lemma flag3 : d <> 0 -> (sqrt (1 - y) < 1 <-> 0 < d /\ norm2 (cross p v) <> 0).
  Proof using RP MP.
    intros D. pose proof (y_one D) as Y. pose proof (sqrt_pos (1 - y)) as SP. pose proof (Rsqr_sqrt _ Y) as SQ. unfold Rsqr in SQ. set (w := sqrt (1 - y)) in *.
    assert (I : w < 1 <-> 0 < y) by (split; intros; nra). rewrite I, (y_d D). clear I SQ. assert (IM : 0 < / mu) by (apply Rinv_0_lt_compat; lra).
    assert (NP : 0 <= norm2 (cross p v)) by (rewrite cross_d; apply Rmult_le_pos; nra). set (n := norm2 (cross p v)) in *. unfold Rdiv. split.
    - intros L. destruct (Rlt_dec 0 d) as [Dp|Dp]; [split; [exact Dp|]; intros Z; rewrite Z in L; lra|]. exfalso. assert (d * n <= 0) by nra. nra.
    - intros [Dp N]. apply Rmult_lt_0_compat; [|exact IM]. apply Rmult_lt_0_compat; lra.
  Qed.
End Core.

(** Velocity of the center of mass gained. *)
Definition com (c : consts) (x : sn) (v0 v : vec) : vec :=
  add3 (scale3 (M_compact_object x / (M_compact_object x + M_companion x)) v) (scale3 (- (M_he_star x / (M_he_star x + M_companion x))) v0).
(** The new orbit with its tilt: the angle by which the angular momentum is turned from the Z axis around the X axis. *)
Definition new_orbit (c : consts) (x : sn) (v0 kick : vec) (o : orbit) : Prop :=
  let p : vec := (r_before c x, 0, 0) in let v := add3 v0 kick in let '(_, ly, lz) := cross p v in
  on_orbit (mu_post c x) p v (o_separation o * Rsun c) (o_eccentricity o) /\ o_eccentricity o < 1
  /\ scale3 (km2cm c) (o_V o) = com c x v0 v
  /\ - PI < o_tilt o <= PI /\ cos (o_tilt o) * sqrt (ly * ly + lz * lz) = lz /\ sin (o_tilt o) * sqrt (ly * ly + lz * lz) = - ly.

Lemma tilt_spec a z : a * a + z * z <> 0 -> let t := acos (a / sqrt (z ^ 2 + a ^ 2)) in let tilt := if Rltb z 0 then - t else t in
  - PI < tilt <= PI /\ cos tilt * sqrt (z ^ 2 + a ^ 2) = a /\ sin tilt * sqrt (z ^ 2 + a ^ 2) = z.
Proof.
  intros N t tilt. pose proof PI_RGT_0. assert (P : 0 < z ^ 2 + a ^ 2) by nra. pose proof (sqrt_lt_R0 _ P) as SP. pose proof (Rsqr_sqrt (z ^ 2 + a ^ 2) ltac:(lra)) as SQ. unfold Rsqr in SQ.
  set (n := sqrt (z ^ 2 + a ^ 2)) in *. set (q := a / n) in *. assert (QN : q * n = a) by (unfold q; field; lra). assert (Q2 : q * q <= 1). { apply (Rmult_le_reg_r (n * n)); [nra|]. replace (q * q * (n * n)) with ((q * n) * (q * n)) by ring. rewrite QN. nra. }
  assert (QB : -1 <= q <= 1) by nra. destruct (acos_bound q) as [T1 T2]. fold t in T1, T2. assert (CT : cos t = q) by (apply cos_acos; exact QB).
  assert (SG : 0 <= sin t) by (apply sin_ge_0; lra). pose proof (sin2_cos2 t) as SC. unfold Rsqr in SC. rewrite CT in SC.
  assert (SN2 : (sin t * n) * (sin t * n) = z * z). { replace ((sin t * n) * (sin t * n)) with (sin t * sin t * (n * n)) by ring. replace (sin t * sin t) with (1 - q * q) by lra. rewrite Rmult_minus_distr_r. replace (q * q * (n * n)) with ((q * n) * (q * n)) by ring. rewrite QN, SQ. ring. }
  assert (SP2 : 0 <= sin t * n) by nra. unfold tilt, Rltb. destruct (Rlt_dec z 0) as [L|L].
  - rewrite cos_neg, sin_neg. split; [|split; [rewrite CT; exact QN|nra]]. split; [|lra]. destruct (Req_dec t PI) as [TP|TP]; [|lra]. exfalso. rewrite TP, sin_PI in SN2. nra.
  - split; [lra|]. split; [rewrite CT; exact QN|nra].
Qed.

Lemma pos5 a b d e f : 0 <= a -> 0 <= b -> 0 <= d -> 0 <= e -> 0 <= f -> 0 <= 2 * a * b * d * e * f.
Proof. intros. repeat apply Rmult_le_pos; lra. Qed.
Lemma pos_neg m d : 0 < m -> (0 < d <-> - m * d / 2 < 0).
Proof. intros. split; intros; nra. Qed.
Section Orbit.
  Variables (c : consts) (x : sn).
  Hypothesis V : valid c x.
  Let v0 := v0_of c x.
  Let kick := Vk_of c x.
  Let p : vec := (r_before c x, 0, 0).
  Lemma speed2 : norm2 (add3 v0 kick) = (Vkick x * km2cm c) ^ 2 + Vr_of c x ^ 2 + 2 * (Vkick x * km2cm c * cos_theta x) * Vr_of c x.
  Proof using V.
    pose proof (kicked_holds _ _ V) as K. pose proof (before_holds _ _ V) as B. unfold before, kicked in K, B. unfold v0, kick.
    destruct (v0_of c x) as [[a b] z] eqn:E0. rewrite (size _ _ V) in B. destruct B as (N & Z & _). destruct K as (K1 & K2 & _). destruct (Vr2 _ _ V) as [_ P].
    rewrite N in K2. rewrite <- Rsqr_pow2, sqrt_Rsqr in K2 by lra. destruct (Vk_of c x) as [[f g] h]. unfold norm2, dot3, add3 in *. subst z.
    replace (_ + _ + _) with ((f * f + g * g + h * h) + (a * a + b * b + 0 * 0) + 2 * (f * a + g * b + h * 0)) by ring. rewrite K1, K2, N. ring.
  Qed.
  Lemma orbit_spec :
    (forall o, kick_orbit c x = Some o -> new_orbit c x v0 kick o)
    /\ (0 <= Vkick x -> ((exists o, kick_orbit c x = Some o) <-> energy (mu_post c x) p (add3 v0 kick) < 0 /\ norm2 (cross p (add3 v0 kick)) <> 0))
    /\ (Vkick x < 0 -> ERR <= 2 * - (Vkick x * km2cm c) * Vr_of c x * (1 + cos_theta x) * rpre_of c x / mu_post c x -> kick_orbit c x = None).
  Proof using V.
    pose proof speed2 as S2. pose proof (mu_post_pos _ _ V) as MP. pose proof (mu_pos _ _ V) as MQ. pose proof (r_pos _ _ V) as RP. destruct (Vr2 _ _ V) as [_ VP].
    assert (VV : 0 < G c /\ 0 < Msun c /\ 0 < Rsun c /\ 0 < km2cm c /\ 0 < M_compact_object x + M_companion x /\ 0 < M_he_star x + M_companion x /\ -1 <= cos_theta x <= 1) by (unfold valid in V; repeat split; try tauto; lra).
    destruct VV as (Gp & Mp & Rp & kp & mp & mq & CT).
    unfold kick_orbit, new_orbit, p, v0, kick in *. rewrite r_same. unfold v0_of in *. destruct (Vk_of c x) as [[kx ky] kz] eqn:EK.
    set (r := rpre_of c x) in *. set (mu := mu_post c x) in *. set (Vr := Vr_of c x) in *. set (sp := sin_psi_of c x) in *. set (cp := cos_psi_of c x) in *. set (w := Vkick x * km2cm c) in *.
    assert (ME : G c * (M_compact_object x * Msun c + M_companion x * Msun c) = mu) by (unfold mu, mu_post; ring). rewrite ME.
    cbn [add3] in *. set (vx := Vr * cp + kx) in *. set (vy := Vr * sp + ky) in *. set (vz := 0 + kz) in *.
    assert (VY : ky + Vr * sp = vy) by (unfold vy; ring). assert (VZ : kz = vz) by (unfold vz; ring). assert (VX : kx + Vr * cp = vx) by (unfold vx; ring). rewrite VX, VY, !VZ.
    change (norm2 (vx, vy, vz)) with (vx * vx + vy * vy + vz * vz) in S2. rewrite <- S2. set (d := 2 / r - (vx * vx + vy * vy + vz * vz) / mu).
    pose proof (energy_d r mu vx vy vz RP MP) as EN. fold d in EN.
    destruct (Req_EM_T d 0) as [D|D].
    { split; [discriminate|]. split; [|reflexivity]. intros _. split; [intros [o E]; discriminate|]. intros [E _]. rewrite EN, D in E. lra. }
    pose proof (y_one r mu vx vy vz RP MP D) as Y1. pose proof (flag3 r mu vx vy vz RP MP D) as F3. pose proof (flag1 r mu vx vy vz RP MP) as F1. pose proof (bound_orbit r mu vx vy vz RP MP) as BO. fold d in Y1, F3, F1, BO.
    set (y := (vz ^ 2 + vy ^ 2) * r ^ 2 / (mu * / d)) in *. assert (NB : Rltb (1 - y) 0 = false) by (unfold Rltb; destruct (Rlt_dec (1 - y) 0); [lra|reflexivity]). rewrite !NB. clear NB.
    unfold SNCheck. set (e := sqrt (1 - y)) in *.
    assert (T : forall s, 2 - (M_he_star x * Msun c + M_companion x * Msun c) / (M_compact_object x * Msun c + M_companion x * Msun c) * (w / Vr + s) ^ 2 * (Vr ^ 2 * r / (G c * (M_he_star x * Msun c + M_companion x * Msun c))) = 2 - (w + s * Vr) ^ 2 * r / mu).
    { intros s. unfold mu, mu_post. field. repeat split; try lra; nra. }
    assert (T1 : 2 - (M_he_star x * Msun c + M_companion x * Msun c) / (M_compact_object x * Msun c + M_companion x * Msun c) * (w / Vr - 1) ^ 2 * (Vr ^ 2 * r / (G c * (M_he_star x * Msun c + M_companion x * Msun c))) = 2 - (w - Vr) ^ 2 * r / mu).
    { replace (w / Vr - 1) with (w / Vr + -1) by ring. rewrite (T (-1)). f_equal. f_equal. f_equal. ring. }
    rewrite T1, (T 1). replace (w + 1 * Vr) with (w + Vr) by ring.
    assert (EP : 0 < ERR) by (unfold ERR; apply Rinv_0_lt_compat, pow_lt; lra). assert (IM : 0 < / mu) by (apply Rinv_0_lt_compat; lra).
    assert (RA : r / / d = 2 - (w ^ 2 + Vr ^ 2 + 2 * (w * cos_theta x) * Vr) * r / mu) by (rewrite <- S2; transitivity (r * d); [field; exact D|unfold d; field; lra]).
    assert (FA : r / / d - (2 - (w - Vr) ^ 2 * r / mu) = - (2 * w * Vr * (1 + cos_theta x) * r / mu)) by (rewrite RA; field; lra).
    assert (FB : 2 - (w + Vr) ^ 2 * r / mu - r / / d = - (2 * w * Vr * (1 - cos_theta x) * r / mu)) by (rewrite RA; field; lra).
    rewrite FA, FB.
    assert (K : forall b, 0 <= b -> 0 <= w -> - (2 * w * Vr * b * r / mu) < ERR). { intros b Hb Hw. assert (0 <= 2 * w * Vr * b * r / mu); [|lra]. unfold Rdiv. apply pos5; lra. }
    assert (DE : 0 < d <-> energy mu (r, 0, 0) (vx, vy, vz) < 0) by (rewrite EN; apply pos_neg; lra).
    split; [|split].
    - intros o H. destruct (_ && _) eqn:Q in H; [|discriminate]. injection H as <-. apply andb_true_iff in Q as [_ Q]. unfold Rleb in Q. destruct (Rle_dec 1 e) as [|E1]; [discriminate|]. apply Rnot_le_lt in E1.
      pose proof (proj1 F3 E1) as [Dp N]. specialize (BO Dp). cbn [o_separation o_eccentricity o_V o_tilt cross].
      assert (NN : vy * vy + vz * vz <> 0) by (rewrite cross_d in N; intros Z; apply N; replace (vz ^ 2 + vy ^ 2) with (vy * vy + vz * vz) by ring; rewrite Z; ring).
      destruct (tilt_spec vy vz NN) as (T2 & T3 & T4). set (tilt := if Rltb vz 0 then _ else _) in *.
      split; [replace (/ d / Rsun c * Rsun c) with (/ d) by (field; lra); exact BO|]. split; [exact E1|]. split; [|split; [exact T2|]].
      + unfold com, scale3, add3. f_equal; [f_equal|]; [unfold vx| unfold vy|unfold vz]; field; repeat split; try lra; nra.
      + assert (SQ : sqrt ((0 * 0 - r * vz + 0 * 0) * (0 * 0 - r * vz + 0 * 0) + (r * vy - 0 * vx) * (r * vy - 0 * vx)) = r * sqrt (vz ^ 2 + vy ^ 2)).
        { replace (_ + _) with (r * r * (vz ^ 2 + vy ^ 2)) by ring. rewrite sqrt_mult by nra. rewrite sqrt_square by lra. reflexivity. }
        replace ((0 * vx - r * vz) * (0 * vx - r * vz) + (r * vy - 0 * vx) * (r * vy - 0 * vx)) with ((0 * 0 - r * vz + 0 * 0) * (0 * 0 - r * vz + 0 * 0) + (r * vy - 0 * vx) * (r * vy - 0 * vx)) by ring. rewrite SQ. split; [transitivity (r * (cos tilt * sqrt (vz ^ 2 + vy ^ 2))); [ring|rewrite T3; ring]|transitivity (r * (sin tilt * sqrt (vz ^ 2 + vy ^ 2))); [ring|rewrite T4; ring]].
    - intros Hk. assert (W : 0 <= w) by (unfold w; nra). rewrite <- DE. split.
      + intros [o H]. destruct (_ && _) eqn:Q in H; [|discriminate]. apply andb_true_iff in Q as [_ Q]. unfold Rleb in Q. destruct (Rle_dec 1 e) as [|E1]; [discriminate|]. apply Rnot_le_lt in E1.
        split; [exact (proj1 (proj1 F3 E1))|]. exact (proj2 (proj1 F3 E1)).
      + intros [Dp N]. assert (E1 : e < 1) by (apply F3; split; assumption). destruct (F1 Dp) as [A1 A2]. destruct (_ && _) eqn:Q; [eexists; reflexivity|exfalso]. revert Q.
        unfold Rleb, Rltb. destruct (Rle_dec _ _) as [_|X]; [|contradiction]. destruct (Rle_dec _ _) as [_|X]; [|contradiction]. destruct (Rlt_dec _ _) as [_|X]; [|exfalso; apply X, K; lra].
        destruct (Rlt_dec _ _) as [_|X]; [|exfalso; apply X, K; lra]. destruct (Rle_dec 1 e) as [X|_]; [exfalso; lra|]. discriminate.
    - intros Hk Q. destruct (_ && _) eqn:B; [|reflexivity]. exfalso. apply andb_true_iff in B as [B _]. apply andb_true_iff in B as [_ B]. apply andb_true_iff in B as [B _]. unfold Rltb in B. destruct (Rlt_dec _ _) as [L|]; [|discriminate].
      replace (2 * - w * Vr * (1 + cos_theta x) * r / mu) with (- (2 * w * Vr * (1 + cos_theta x) * r / mu)) in Q by (field; lra). lra.
  Qed.
End Orbit.
Lemma before_unique c x v0 : valid c x -> before c x v0 -> v0 = v0_of c x.
Proof.
  intros V B. pose proof (before_holds _ _ V) as B'. destruct v0 as [[a b] z], (v0_of c x) as [[a' b'] z']. unfold before in B, B'. rewrite (size _ _ V) in B, B'.
  destruct B as (N & -> & -> & L1 & L2), B' as (N' & -> & -> & L1' & L2'). unfold norm2 in N, N'. f_equal. f_equal.
  assert (Q : a * a = a' * a') by lra. destruct (Rlt_dec (v_radial c x) 0) as [L|L]; [specialize (L1 L); specialize (L1' L)|specialize (L2 ltac:(lra)); specialize (L2' ltac:(lra))]; nra.
Qed.
Lemma kicked_unique c x v0 kick : valid c x -> v0 = v0_of c x -> kicked c x v0 kick -> kick = Vk_of c x.
Proof.
  intros V -> K. pose proof (kicked_holds _ _ V) as K'. pose proof (before_holds _ _ V) as B. unfold kicked, before in *. rewrite (size _ _ V) in B. destruct (Vr2 _ _ V) as [_ P].
  destruct (v0_of c x) as [[a b] z]. destruct kick as [[f g] h], (Vk_of c x) as [[f' g'] h']. destruct B as (N & -> & _), K as (_ & K1 & K2 & K3), K' as (_ & K1' & K2' & K3').
  unfold dot3, norm2 in *. rewrite <- K1' in K1. rewrite <- K2' in K2. rewrite <- K3' in K3. assert (h = h') by lra. subst h'.
  assert (D1 : (f - f') * a + (g - g') * b = 0) by lra. assert (D2 : (f - f') * b - (g - g') * a = 0) by lra.
  assert (P2 : 0 < a * a + b * b) by (assert (0 < Vr_of c x ^ 2) by (apply pow_lt; exact P); lra).
  assert (E1 : (f - f') * (a * a + b * b) = 0). { replace ((f - f') * (a * a + b * b)) with (((f - f') * a + (g - g') * b) * a + ((f - f') * b - (g - g') * a) * b) by ring. rewrite D1, D2. ring. }
  assert (E2 : (g - g') * (a * a + b * b) = 0). { replace ((g - g') * (a * a + b * b)) with (((f - f') * a + (g - g') * b) * b - ((f - f') * b - (g - g') * a) * a) by ring. rewrite D1, D2. ring. }
  apply Rmult_integral in E1, E2. destruct E1; [|lra]. destruct E2; [|lra]. assert (f = f') by lra. assert (g = g') by lra. subst. reflexivity.
Qed.
(** The velocities exist, so the following theorems are not empty. *)
Theorem C82_velocities : forall c x, valid c x -> exists v0 kick, before c x v0 /\ kicked c x v0 kick.
Proof. intros c x V. exists (v0_of c x), (Vk_of c x). split; [apply before_holds|apply kicked_holds]; exact V. Qed.
(** A surviving binary moves on the Kepler orbit through the same point with the kicked velocity; its center of mass moves and its plane tilts accordingly. *)
Theorem C82_orbit : forall c x v0 kick o, valid c x -> before c x v0 -> kicked c x v0 kick -> kick_orbit c x = Some o -> new_orbit c x v0 kick o.
Proof. intros c x v0 kick o V B K H. apply before_unique in B; [|exact V]. apply kicked_unique in K; [|exact V|exact B]. subst. apply (orbit_spec c x V). exact H. Qed.
(** The binary survives exactly if its energy is negative and it does not fall radially. *)
Theorem C82_survival : forall c x v0 kick, valid c x -> 0 <= Vkick x -> before c x v0 -> kicked c x v0 kick ->
  ((exists o, kick_orbit c x = Some o) <-> energy (mu_post c x) (r_before c x, 0, 0) (add3 v0 kick) < 0 /\ norm2 (cross (r_before c x, 0, 0) (add3 v0 kick)) <> 0).
Proof. intros c x v0 kick V P B K. apply before_unique in B; [|exact V]. apply kicked_unique in K; [|exact V|exact B]. subst. apply (orbit_spec c x V). exact P. Qed.
(** Negative kicks, which the linear prescription yields (C77), are reported as disruptions whatever the energy. *)
Theorem C82_negative_refuted : forall c x, valid c x -> Vkick x < 0 ->
  / 10 ^ 10 <= 2 * - (Vkick x * km2cm c) * sqrt (v_radial c x ^ 2 + v_tangential c x ^ 2) * (1 + cos_theta x) * r_before c x / mu_post c x -> kick_orbit c x = None.
Proof. intros c x V P L. apply (orbit_spec c x V); [exact P|]. rewrite (size _ _ V), r_same in L. exact L. Qed.

(** ** C83: mass loss and kicks *)
(** Sudden mass loss without a kick from a circular orbit (Blaauw 1961). *)
Theorem C83_mass_loss : forall c x, valid c x -> epre x = 0 -> Vkick x = 0 -> M_compact_object x <= M_he_star x ->
  let m := M_he_star x + M_companion x in let m' := M_compact_object x + M_companion x in
  (2 * m' <= m -> kick_orbit c x = None)
  /\ (m < 2 * m' -> exists o, kick_orbit c x = Some o /\ o_separation o = Apre x * m' / (2 * m' - m) /\ o_eccentricity o = (m - m') / m' /\ o_tilt o = 0
      /\ o_V o = (0, - (M_companion x * (M_he_star x - M_compact_object x) / (m * m') * sqrt (G c * Msun c * m / (Apre x * Rsun c)) / km2cm c), 0)).
Proof.
  intros c x V E0 K0 ML m m'. pose proof (C82_velocities c x V) as (v0 & kick & B & K). pose proof (C82_survival c x v0 kick V ltac:(lra) B K) as SV. pose proof (C82_orbit c x v0 kick) as OR. specialize (fun o => OR o V B K).
  pose proof (C81_velocity c x v0 V B) as VE. pose proof B as B'. unfold before in B'. destruct v0 as [[a b] z]. destruct VE as (_ & _ & _ & VE). destruct (VE E0) as [-> ->]. clear VE. destruct B' as (_ & -> & _ & _ & _).
  pose proof (mu_post_pos _ _ V) as MP. pose proof (mu_pos _ _ V) as MQ. pose proof (A_pos _ _ V) as AP. assert (RE : r_before c x = Apre x * Rsun c) by (unfold r_before; rewrite E0; ring).
  assert (KZ : kick = (0, 0, 0)). { destruct kick as [[f g] h]. destruct K as (K1 & _). rewrite K0 in K1. unfold norm2 in K1. assert (f * f + g * g + h * h = 0) by lra. assert (f = 0) by nra. assert (g = 0) by nra. assert (h = 0) by nra. subst. reflexivity. }
  subst kick. clear K. cbn [add3] in *. set (A := Apre x * Rsun c) in *. set (v := v_tangential c x) in *.
  assert (V2 : v * v = mu_pre c x / A). { unfold v, v_tangential. rewrite RE, E0. fold A. replace (mu_pre c x * A * (1 - 0 ^ 2)) with (mu_pre c x * A) by ring. assert (0 <= mu_pre c x * A) by nra. pose proof (Rsqr_sqrt _ H) as S. unfold Rsqr in S. replace (sqrt (mu_pre c x * A) / A * (sqrt (mu_pre c x * A) / A)) with (sqrt (mu_pre c x * A) * sqrt (mu_pre c x * A) / (A * A)) by (field; lra). rewrite S. field. lra. }
  assert (VP : 0 < v). { unfold v, v_tangential. rewrite RE, E0. fold A. apply Rdiv_lt_0_compat; [|exact AP]. apply sqrt_lt_R0. replace (mu_pre c x * A * (1 - 0 ^ 2)) with (mu_pre c x * A) by ring. apply Rmult_lt_0_compat; lra. }
  rewrite RE in *. replace (0 + 0) with 0 in * by ring. replace (v + 0) with v in * by ring.
  assert (VAL : 0 < G c /\ 0 < Msun c /\ 0 < Rsun c /\ 0 < km2cm c /\ 0 < m' /\ 0 < m /\ 0 < Apre x /\ 0 <= M_companion x) by (unfold valid in V; unfold m, m'; repeat split; try tauto; lra).
  destruct VAL as (Gp & Mp & Rp & kp & mp' & mp & Ap & cp).
  assert (EN : energy (mu_post c x) (A, 0, 0) (0, v, 0) = G c * Msun c / A * (m / 2 - m')).
  { unfold energy, norm2. replace (A * A + 0 * 0 + 0 * 0) with (Rsqr A) by (unfold Rsqr; ring). rewrite sqrt_Rsqr by lra. replace (0 * 0 + v * v + 0 * 0) with (v * v) by ring. rewrite V2. unfold mu_pre, mu_post, m, m'. field. lra. }
  assert (GA : 0 < G c * Msun c / A) by (apply Rdiv_lt_0_compat; [nra|lra]).
  assert (CR : norm2 (cross (A, 0, 0) (0, v, 0)) = A * A * (v * v)) by (unfold norm2, cross; ring).
  rewrite EN, CR in SV. split.
  - intros L. destruct (kick_orbit c x) as [o|] eqn:Q; [|reflexivity]. exfalso. destruct (proj1 SV (ex_intro _ o eq_refl)) as [L' _]. nra.
  - intros L. destruct (proj2 SV) as [o Q]. { split; [nra|]. assert (0 < A * A * (v * v)) by (apply Rmult_lt_0_compat; apply Rmult_lt_0_compat; assumption). lra. }
    exists o. split; [exact Q|]. specialize (OR o Q). unfold new_orbit in OR. rewrite RE in OR. cbn [cross add3] in OR. replace (0 + 0) with 0 in OR by ring. replace (v + 0) with v in OR by ring. destruct OR as ((_ & O2 & O3 & O4) & _ & O5 & O6 & O7 & O8).
    rewrite EN in O2, O4. rewrite CR in O4. split; [|split; [|split]].
    + apply (Rmult_eq_reg_r (Rsun c)); [|lra]. rewrite O2. unfold mu_post, A. fold m'. replace (M_compact_object x + M_companion x) with m' by reflexivity. field. repeat split; try lra; nra.
    + rewrite V2 in O4. assert (EE : o_eccentricity o ^ 2 = ((m - m') / m') ^ 2). { rewrite O4. unfold mu_post, mu_pre. fold m m'. replace (M_compact_object x + M_companion x) with m' by reflexivity. replace (M_he_star x + M_companion x) with m by reflexivity. field. repeat split; lra. }
      assert (0 <= (m - m') / m') by (apply Rmult_le_pos; [unfold m, m'; lra|left; apply Rinv_0_lt_compat; lra]). nra.
    + replace (sqrt _) with (A * v) in O7, O8 by (symmetry; replace (_ + _) with (Rsqr (A * v)) by (unfold Rsqr; ring); apply sqrt_Rsqr; nra).
      assert (AV : 0 < A * v) by (apply Rmult_lt_0_compat; assumption). assert (C1 : cos (o_tilt o) = 1). { apply (Rmult_eq_reg_r (A * v)); [|lra]. lra. } assert (S0 : sin (o_tilt o) = 0). { apply (Rmult_eq_reg_r (A * v)); [|lra]. lra. }
      pose proof PI_RGT_0. destruct (Rtotal_order (o_tilt o) 0) as [T|[T|T]]; [|exact T|].
      * exfalso. assert (sin (o_tilt o) < 0) by (apply sin_lt_0_var; lra). lra.
      * destruct (Req_dec (o_tilt o) PI) as [TP|TP]; [rewrite TP, cos_PI in C1; lra|]. exfalso. assert (0 < sin (o_tilt o)) by (apply sin_gt_0; lra). lra.
    + destruct (o_V o) as [[ox oy] oz]. unfold scale3, com, add3, scale3 in O5. injection O5 as OX OY OZ.
      assert (VV : v = sqrt (G c * Msun c * m / A)). { symmetry. replace (G c * Msun c * m / A) with (Rsqr v); [apply sqrt_Rsqr; lra|]. unfold Rsqr. rewrite V2. unfold mu_pre, m. field. lra. }
      rewrite <- VV. f_equal; [f_equal|].
      * apply (Rmult_eq_reg_l (km2cm c)); [|lra]. rewrite OX. ring.
      * apply (Rmult_eq_reg_l (km2cm c)); [|lra]. rewrite OY. unfold m, m'. field. repeat split; try lra; unfold m, m' in *; lra.
      * apply (Rmult_eq_reg_l (km2cm c)); [|lra]. rewrite OZ. ring.
Qed.
(** Without mass loss and kick the orbit stays, up to the rounded direction of the velocity. *)
Theorem C83_nothing : forall c x, valid c x -> Vkick x = 0 -> M_compact_object x = M_he_star x -> epre x ^ 2 <= 1 - / 10 ^ 10 ->
  exists o, kick_orbit c x = Some o /\ o_separation o = Apre x /\ Rabs (o_eccentricity o ^ 2 - epre x ^ 2) <= / 10 ^ 5 /\ (epre x = 0 -> o_eccentricity o = 0) /\ o_tilt o = 0 /\ o_V o = (0, 0, 0).
Proof.
  intros c x V K0 ME EC. pose proof (C82_velocities c x V) as (v0 & kick & B & K). pose proof (C82_survival c x v0 kick V ltac:(lra) B K) as SV. pose proof (C82_orbit c x v0 kick) as OR. specialize (fun o => OR o V B K).
  pose proof (C81_velocity c x v0 V B) as VE. pose proof B as B'. unfold before in B'. rewrite (size _ _ V) in B'. destruct v0 as [[a b] z]. destruct B' as (N & -> & BE & _). destruct VE as (V1 & V2 & _ & V3).
  pose proof (mu_post_pos _ _ V) as MP. pose proof (mu_pos _ _ V) as MQ. pose proof (A_pos _ _ V) as AP. pose proof (r_pos _ _ V) as RP. destruct (Vr2 _ _ V) as [W2 WP]. pose proof (rV2 _ _ V) as RV.
  assert (MM : mu_post c x = mu_pre c x) by (unfold mu_post, mu_pre; rewrite ME; reflexivity). rewrite MM in *. rewrite r_same in *. unfold new_orbit in OR. rewrite r_same, MM in OR.
  assert (KZ : kick = (0, 0, 0)). { destruct kick as [[f g] h]. destruct K as (K1 & _). rewrite K0 in K1. unfold norm2 in K1. assert (f * f + g * g + h * h = 0) by lra. assert (f = 0) by nra. assert (g = 0) by nra. assert (h = 0) by nra. subst. reflexivity. }
  subst kick. clear K. cbn [add3] in *. replace (0 + 0) with 0 in * by ring. replace (a + 0) with a in * by ring. replace (b + 0) with b in * by ring.
  pose proof (raw_range _ _ V) as RR. rewrite <- (raw_psi _ _ V) in RR. pose proof (raw2 _ _ V) as R2. rewrite <- (raw_psi _ _ V) in R2. pose proof (round5_error (v_tangential c x / Vr_of c x)) as RE.
  set (q := v_tangential c x / Vr_of c x) in *. set (q' := round5 q) in *. pose proof (round5_range q RR) as QR. fold q' in QR. set (r := rpre_of c x) in *. set (A := Apre x * Rsun c) in *. set (mu := mu_pre c x) in *. set (W := Vr_of c x) in *. set (e := epre x) in *.
  assert (EA : energy mu (r, 0, 0) (a, b, 0) = - mu / (2 * A)).
  { unfold energy. rewrite N, W2. unfold norm2. replace (r * r + 0 * 0 + 0 * 0) with (Rsqr r) by (unfold Rsqr; ring). rewrite sqrt_Rsqr by lra. field. lra. }
  assert (CR : norm2 (cross (r, 0, 0) (a, b, 0)) = r ^ 2 * W ^ 2 * q' ^ 2) by (unfold norm2, cross; rewrite BE; ring).
  assert (RW : r ^ 2 * W ^ 2 <= mu * A). { rewrite RV. apply Rmult_le_compat_l; [lra|]. apply (Rmult_le_reg_r A); [exact AP|]. replace ((2 * r - r ^ 2 / A) * A) with (2 * r * A - r ^ 2) by (field; lra). pose proof (pow2_ge_0 (r - A)). nra. }
  assert (RW0 : 0 < r ^ 2 * W ^ 2) by (apply Rmult_lt_0_compat; apply pow_lt; assumption). assert (MA : 0 < mu * A) by (apply Rmult_lt_0_compat; assumption).
  assert (QQ : Rabs (q' ^ 2 - q ^ 2) <= / 10 ^ 5).
  { replace (q' ^ 2 - q ^ 2) with ((q' - q) * (q' + q)) by ring. rewrite Rabs_mult, (Rabs_right (q' + q)) by lra. assert (U : Rabs (q' - q) * (q' + q) <= 5 / 10 ^ 6 * 2) by (apply Rmult_le_compat; [apply Rabs_pos|lra|exact RE|lra]). lra. }
  assert (QP : 0 < q').
  { assert (Q2 : 1 - e ^ 2 <= q ^ 2). { apply (Rmult_le_reg_r (r ^ 2 * W ^ 2)); [exact RW0|]. rewrite R2. assert (0 <= 1 - e ^ 2) by lra. replace (mu * (1 - e ^ 2) * A) with ((1 - e ^ 2) * (mu * A)) by ring. apply Rmult_le_compat_l; assumption. }
    assert (L5 : / 10 ^ 5 <= q). { assert ((/ 10 ^ 5) * (/ 10 ^ 5) <= q * q) by lra. apply Rnot_lt_le. intros L. assert (0 < / 10 ^ 5) by (apply Rinv_0_lt_compat, pow_lt; lra). nra. }
    assert (T : Rabs (q - q') <= 5 / 10 ^ 6) by (rewrite Rabs_minus_sym; exact RE). pose proof (Rle_abs (q - q')). lra. }
  rewrite EA, CR in SV. destruct (proj2 SV) as [o Q].
  { split. { assert (0 < mu / (2 * A)) by (apply Rdiv_lt_0_compat; lra). replace (- mu / (2 * A)) with (- (mu / (2 * A))) by (field; lra). lra. } assert (0 < q' ^ 2) by (apply pow_lt; exact QP). assert (0 < r ^ 2 * W ^ 2 * q' ^ 2) by (apply Rmult_lt_0_compat; assumption). lra. }
  exists o. split; [exact Q|]. pose proof (OR o Q) as OQ. cbn [cross] in OQ. destruct OQ as ((_ & O2 & O3 & O4) & _ & O5 & O6 & O7 & O8). rewrite EA in O2, O4. rewrite CR in O4.
  assert (VAL : 0 < Rsun c /\ 0 < km2cm c /\ 0 < M_he_star x + M_companion x) by (unfold valid in V; repeat split; try tauto; lra). destruct VAL as (Rp & kp & mp).
  assert (E2 : o_eccentricity o ^ 2 - e ^ 2 = - (q' ^ 2 - q ^ 2) * (r ^ 2 * W ^ 2 / (mu * A))).
  { rewrite O4. replace (e ^ 2) with (1 - q ^ 2 * (r ^ 2 * W ^ 2) / (mu * A)); [field; lra|]. rewrite R2. field. lra. }
  split; [|split; [|split; [|split]]].
  - apply (Rmult_eq_reg_r (Rsun c)); [|lra]. rewrite O2. fold A. field. lra.
  - rewrite E2, Rabs_mult, Rabs_Ropp. assert (0 <= r ^ 2 * W ^ 2 / (mu * A) <= 1).
    { split; [apply Rmult_le_pos; [lra|left; apply Rinv_0_lt_compat; exact MA]|]. apply (Rmult_le_reg_r (mu * A)); [exact MA|]. replace (r ^ 2 * W ^ 2 / (mu * A) * (mu * A)) with (r ^ 2 * W ^ 2) by (field; lra). lra. }
    rewrite (Rabs_right (r ^ 2 * W ^ 2 / (mu * A))) by lra. assert (Rabs (q' ^ 2 - q ^ 2) * (r ^ 2 * W ^ 2 / (mu * A)) <= / 10 ^ 5 * 1); [|lra]. apply Rmult_le_compat; [apply Rabs_pos|lra|exact QQ|lra].
  - intros E0. assert (QE : q' = q). { destruct (V3 E0) as [_ B1]. apply (Rmult_eq_reg_l W); [|lra]. rewrite <- BE, B1. unfold q. field. lra. }
    rewrite QE, E0 in E2. assert (o_eccentricity o ^ 2 = 0) by lra. nra.
  - assert (AV : 0 < r * b). { rewrite BE. apply Rmult_lt_0_compat; [exact RP|]. apply Rmult_lt_0_compat; assumption. }
    replace (sqrt _) with (r * b) in O7, O8 by (symmetry; replace (_ + _) with (Rsqr (r * b)) by (unfold Rsqr; ring); apply sqrt_Rsqr; lra).
    assert (C1 : cos (o_tilt o) = 1). { apply (Rmult_eq_reg_r (r * b)); [|lra]. lra. } assert (S0 : sin (o_tilt o) = 0). { apply (Rmult_eq_reg_r (r * b)); [|lra]. lra. }
    pose proof PI_RGT_0. destruct (Rtotal_order (o_tilt o) 0) as [T|[T|T]]; [|exact T|].
    + exfalso. assert (sin (o_tilt o) < 0) by (apply sin_lt_0_var; lra). lra.
    + destruct (Req_dec (o_tilt o) PI) as [TP|TP]; [rewrite TP, cos_PI in C1; lra|]. exfalso. assert (0 < sin (o_tilt o)) by (apply sin_gt_0; lra). lra.
  - destruct (o_V o) as [[ox oy] oz]. unfold scale3, com, add3, scale3 in O5. rewrite ME in O5. injection O5 as OX OY OZ.
    assert (ox = 0) by (apply (Rmult_eq_reg_l (km2cm c)); [rewrite OX; ring|lra]). assert (oy = 0) by (apply (Rmult_eq_reg_l (km2cm c)); [rewrite OY; ring|lra]). assert (oz = 0) by (apply (Rmult_eq_reg_l (km2cm c)); [rewrite OZ; ring|lra]). subst. reflexivity.
Qed.

Lemma pos3 a b d : 0 <= a -> 0 <= b -> 0 <= d -> 0 <= a * b * d.
Proof. intros. repeat apply Rmult_le_pos; assumption. Qed.
Lemma sq_between u w : 0 <= w -> (1 - u) * (1 - u) <= w * w -> 1 - w <= u <= 1 + w.
Proof. intros. split; nra. Qed.
(** The new orbit passes through the place of the explosion. *)
Theorem C82_through : forall c x o, valid c x -> kick_orbit c x = Some o ->
  o_separation o * Rsun c * (1 - o_eccentricity o) <= r_before c x <= o_separation o * Rsun c * (1 + o_eccentricity o).
Proof.
  intros c x o V H. destruct (C82_velocities c x V) as (v0 & kick & B & K). pose proof (C82_orbit _ _ _ _ _ V B K H) as O. unfold new_orbit in O.
  pose proof (mu_post_pos _ _ V) as MP. rewrite r_same in *. pose proof (r_pos _ _ V) as RP. destruct (add3 v0 kick) as [[vx vy] vz] eqn:EV. cbn [cross] in O. destruct O as ((O1 & O2 & O3 & O4) & O5 & _).
  pose proof (energy_d _ _ vx vy vz RP MP) as EN. pose proof (bound_orbit _ _ vx vy vz RP MP) as BO. pose proof (y_le _ _ vx vy vz RP MP) as YL. pose proof (y_one _ _ vx vy vz RP MP) as Y1.
  set (r := rpre_of c x) in *. set (mu := mu_post c x) in *. set (d := 2 / r - (vx * vx + vy * vy + vz * vz) / mu) in *. set (y := (vz ^ 2 + vy ^ 2) * r ^ 2 / (mu * / d)) in *.
  assert (DP : 0 < d). { rewrite EN in O1. apply (pos_neg mu); assumption. } destruct (BO DP) as (_ & B2 & B3 & B4). destruct (YL ltac:(lra)) as [L|[L _]]; [|lra]. specialize (Y1 ltac:(lra)).
  assert (EE : o_eccentricity o = sqrt (1 - y)). { unfold cross in B4, O4. assert (Q : o_eccentricity o ^ 2 = sqrt (1 - y) ^ 2) by (rewrite O4, B4; reflexivity). nra. }
  rewrite O2, <- B2, EE. pose proof (Rsqr_sqrt _ Y1) as SQ. unfold Rsqr in SQ. set (w := sqrt (1 - y)) in *. set (u := r * d) in *.
  assert (Q : (1 - u) * (1 - u) <= w * w) by nra. assert (U : 1 - w <= u <= 1 + w) by (apply sq_between; assumption). replace r with (/ d * u) by (unfold u; field; lra). assert (0 < / d) by (apply Rinv_0_lt_compat; exact DP). split; apply Rmult_le_compat_l; lra.
Qed.
(** Kicks larger than the sum of escape and orbital velocity disrupt in every direction; small ones never do. *)
Theorem C83_strong_kick : forall c x, valid c x -> 0 <= Vkick x ->
  sqrt (2 * mu_post c x / r_before c x) + sqrt (v_radial c x ^ 2 + v_tangential c x ^ 2) <= Vkick x * km2cm c -> kick_orbit c x = None.
Proof.
  intros c x V P L. destruct (C82_velocities c x V) as (v0 & kick & B & K). pose proof (C82_survival _ _ _ _ V P B K) as SV. apply before_unique in B; [|exact V]. apply kicked_unique in K; [|exact V|exact B]. subst v0 kick.
  destruct (kick_orbit c x) as [o|]; [|reflexivity]. exfalso. destruct (proj1 SV (ex_intro _ o eq_refl)) as [E _]. rewrite r_same in *. rewrite (size _ _ V) in L.
  pose proof (speed2 _ _ V) as S2. pose proof (mu_post_pos _ _ V) as MP. pose proof (r_pos _ _ V) as RP. destruct (Vr2 _ _ V) as [_ WP]. unfold energy in E. rewrite S2 in E. unfold norm2 in E. replace (rpre_of c x * rpre_of c x + 0 * 0 + 0 * 0) with (Rsqr (rpre_of c x)) in E by (unfold Rsqr; ring). rewrite sqrt_Rsqr in E by lra.
  set (r := rpre_of c x) in *. set (mu := mu_post c x) in *. set (W := Vr_of c x) in *. set (w := Vkick x * km2cm c) in *.
  assert (X0 : 0 <= 2 * mu / r) by (left; apply Rdiv_lt_0_compat; lra). pose proof (Rsqr_sqrt _ X0) as SQ. unfold Rsqr in SQ. pose proof (sqrt_pos (2 * mu / r)). set (s := sqrt (2 * mu / r)) in *.
  assert (CT : -1 <= cos_theta x) by (unfold valid in V; tauto). assert (WW : 0 <= w * W * (1 + cos_theta x)) by (apply pos3; lra).
  assert (M2 : 2 * mu / r = 2 * (mu / r)) by (field; lra). assert (Q : s * s <= (w - W) * (w - W)) by (apply Rmult_le_compat; lra). lra.
Qed.
Theorem C83_weak_kick : forall c x, valid c x -> 0 <= Vkick x ->
  Vkick x * km2cm c + sqrt (v_radial c x ^ 2 + v_tangential c x ^ 2) < sqrt (2 * mu_post c x / r_before c x) ->
  Vkick x * km2cm c < v_tangential c x - 5 / 10 ^ 6 * sqrt (v_radial c x ^ 2 + v_tangential c x ^ 2) -> exists o, kick_orbit c x = Some o.
Proof.
  intros c x V P L T. destruct (C82_velocities c x V) as (v0 & kick & B & K). pose proof (C82_survival _ _ _ _ V P B K) as SV. apply SV. pose proof (C81_velocity _ _ _ V B) as VE. pose proof K as K'. apply before_unique in B; [|exact V]. apply kicked_unique in K; [|exact V|exact B].
  assert (S2 : norm2 (add3 v0 kick) = (Vkick x * km2cm c) ^ 2 + Vr_of c x ^ 2 + 2 * (Vkick x * km2cm c * cos_theta x) * Vr_of c x) by (rewrite B, K; apply speed2; exact V).
  clear B K SV. rewrite r_same in *. rewrite (size _ _ V) in L, T. pose proof (speed _ _ V) as SP. pose proof (mu_post_pos _ _ V) as MP. pose proof (r_pos _ _ V) as RP. destruct (Vr2 _ _ V) as [_ WP]. destruct v0 as [[a b] z]. destruct VE as (V1 & V2 & _). destruct K' as (K1 & _).
  rewrite V1, SP in V2. rewrite <- Rsqr_pow2, sqrt_Rsqr in V2 by lra.
  assert (kp : 0 < km2cm c) by (unfold valid in V; tauto). assert (CT : -1 <= cos_theta x <= 1) by (unfold valid in V; tauto).
  unfold energy. rewrite S2. unfold norm2 at 1. replace (rpre_of c x * rpre_of c x + 0 * 0 + 0 * 0) with (Rsqr (rpre_of c x)) by (unfold Rsqr; ring). rewrite sqrt_Rsqr by lra.
  set (r := rpre_of c x) in *. set (mu := mu_post c x) in *. set (W := Vr_of c x) in *. set (w := Vkick x * km2cm c) in *. assert (wp : 0 <= w) by (unfold w; nra).
  assert (X0 : 0 <= 2 * mu / r) by (left; apply Rdiv_lt_0_compat; lra). pose proof (Rsqr_sqrt _ X0) as SQ. unfold Rsqr in SQ. set (s := sqrt (2 * mu / r)) in *. split.
  - assert (WW : 0 <= w * W * (1 - cos_theta x)) by (apply pos3; lra). assert (M2 : 2 * mu / r = 2 * (mu / r)) by (field; lra). assert (Q : (w + W) * (w + W) < s * s) by (apply Rmult_le_0_lt_compat; lra). lra.
  - destruct kick as [[f g] h]. unfold norm2 in K1. cbn [add3 cross norm2]. assert (GB : - w <= g <= w) by nra. rewrite Rabs_minus_sym in V2. pose proof (Rle_abs (v_tangential c x - b)). assert (BP : 0 < b + g) by lra. assert (0 < r * (b + g)) by (apply Rmult_lt_0_compat; lra).
    assert (0 < (r * (b + g)) * (r * (b + g))) by (apply Rmult_lt_0_compat; assumption). intros Z. assert (0 <= (r * (z + h)) * (r * (z + h))) by (apply Rle_0_sqr). nra.
Qed.
Lemma round5_up q : 1 - 4 / 10 ^ 6 <= q <= 1 -> round5 q = 1.
Proof.
  intros [L U]. unfold round5. pose proof (rint_spec (q * 10 ^ 5)) as H. pose proof (rint_le (q * 10 ^ 5) 100000 ltac:(lra)) as U'.
  assert (L' : (99999 < rint (q * 10 ^ 5))%Z). { apply lt_IZR. rewrite Rabs_minus_sym in H. pose proof (Rle_abs (q * 10 ^ 5 - IZR (rint (q * 10 ^ 5)))). lra. }
  replace (rint (q * 10 ^ 5)) with 100000%Z by lia. lra.
Qed.
(** A small eccentricity is erased even if nothing else happens. *)
Theorem C83_small_eccentricity_refuted : forall c x, valid c x -> Vkick x = 0 -> M_compact_object x = M_he_star x -> E_ma x = PI / 2 -> 0 < epre x -> epre x ^ 2 <= 7 / 10 ^ 6 ->
  exists o, kick_orbit c x = Some o /\ o_eccentricity o = 0.
Proof.
  intros c x V K0 ME EE E0 EC. destruct (C83_nothing c x V K0 ME ltac:(lra)) as (o & Q & OS & _). exists o. split; [exact Q|].
  destruct (C82_velocities c x V) as (v0 & kick & B & K). pose proof (C82_orbit _ _ _ _ _ V B K Q) as OR.
  assert (KZ : kick = (0, 0, 0)). { unfold kicked in K. destruct v0 as [[? ?] ?], kick as [[f g] h]. destruct K as (K1 & _). rewrite K0 in K1. unfold norm2 in K1. assert (f * f + g * g + h * h = 0) by lra. assert (f = 0) by nra. assert (g = 0) by nra. assert (h = 0) by nra. subst. reflexivity. }
  subst kick. unfold before in B. rewrite (size _ _ V) in B. destruct v0 as [[a b] z]. destruct B as (N & -> & BE & _).
  pose proof (mu_pos _ _ V) as MQ. pose proof (A_pos _ _ V) as AP. destruct (Vr2 _ _ V) as [W2 WP]. pose proof (r_eq c x) as RE. rewrite EE, cos_PI2 in RE. replace (Apre x * Rsun c * (1 - epre x * 0)) with (Apre x * Rsun c) in RE by ring.
  pose proof (raw_range _ _ V) as RR. rewrite <- (raw_psi _ _ V) in RR. pose proof (raw2 _ _ V) as R2. rewrite <- (raw_psi _ _ V) in R2. rewrite RE in *.
  set (q := v_tangential c x / Vr_of c x) in *. unfold new_orbit in OR. rewrite r_same, RE in OR. cbn [add3 cross] in OR. destruct OR as ((_ & _ & O3 & O4) & _). unfold energy in O4.
  assert (MM : mu_post c x = mu_pre c x) by (unfold mu_post, mu_pre; rewrite ME; reflexivity). rewrite MM in O4.
  set (A := Apre x * Rsun c) in *. set (mu := mu_pre c x) in *. set (W := Vr_of c x) in *. assert (W2' : W ^ 2 = mu / A) by (rewrite W2; field; lra).
  assert (Q2 : q ^ 2 = 1 - epre x ^ 2). { rewrite W2' in R2. assert (MA : 0 < mu * A) by (apply Rmult_lt_0_compat; lra). apply (Rmult_eq_reg_r (mu * A)); [|lra]. transitivity (q ^ 2 * (A ^ 2 * (mu / A))); [field; lra|]. rewrite R2. ring. }
  assert (Q1 : round5 q = 1) by (apply round5_up; split; [|lra]; apply Rnot_lt_le; intros QL; assert (q * q < (1 - 4 / 10 ^ 6) * (1 - 4 / 10 ^ 6)) by (apply Rmult_le_0_lt_compat; lra); lra). rewrite Q1, Rmult_1_r in BE. subst b.
  assert (NA : norm2 (a + 0, W + 0, 0 + 0) = W ^ 2) by (rewrite <- N; unfold norm2; ring).
  assert (a = 0) by (unfold norm2 in N; nra). subst a. rewrite NA in O4. replace (norm2 (cross (A, 0, 0) (0 + 0, W + 0, 0 + 0))) with (A ^ 2 * W ^ 2) in O4 by (unfold norm2, cross; ring).
  unfold norm2 in O4. replace (A * A + 0 * 0 + 0 * 0) with (Rsqr A) in O4 by (unfold Rsqr; ring). rewrite sqrt_Rsqr in O4 by lra. rewrite W2' in O4.
  assert (Z : o_eccentricity o ^ 2 = 0) by (rewrite O4; field; lra). nra.
Qed.

(** ** Examples *)
Definition UNITS : consts := Consts 1 1 1 1.
Definition CIRCULAR (mco vk : R) : sn := SN (1 / 2) (1 / 2) mco 1 0 0 vk 0 0.
Lemma circular_valid mco vk : 0 <= mco -> valid UNITS (CIRCULAR mco vk).
Proof. intros. pose proof PI_RGT_0. unfold valid, UNITS, CIRCULAR. cbn. lra. Qed.
(** A bound pair of circular velocity 1 loses a quarter of its mass. *)
Example blaauw_example : exists o, kick_orbit UNITS (CIRCULAR (1 / 4) 0) = Some o /\ o_separation o = 3 / 2 /\ o_eccentricity o = 1 / 3 /\ o_tilt o = 0.
Proof.
  destruct (C83_mass_loss UNITS (CIRCULAR (1 / 4) 0) (circular_valid (1 / 4) 0 ltac:(lra)) eq_refl eq_refl ltac:(cbn; lra)) as [_ H]. cbn in H. destruct (H ltac:(lra)) as (o & Q & A & B & D & _). exists o. split; [exact Q|]. split; [rewrite A; field|]. split; [rewrite B; field|exact D].
Qed.
Example disrupted_example : kick_orbit UNITS (CIRCULAR 0 0) = None.
Proof. apply (C83_mass_loss UNITS (CIRCULAR 0 0) (circular_valid 0 0 ltac:(lra)) eq_refl eq_refl); cbn; lra. Qed.
Lemma circular_speed mco vk : v_radial UNITS (CIRCULAR mco vk) = 0 /\ v_tangential UNITS (CIRCULAR mco vk) = 1 /\ r_before UNITS (CIRCULAR mco vk) = 1.
Proof.
  assert (R : r_before UNITS (CIRCULAR mco vk) = 1) by (unfold r_before; cbn; rewrite cos_0; ring). split; [|split; [|exact R]].
  - unfold v_radial. cbn. rewrite sin_0. unfold Rdiv. ring.
  - unfold v_tangential. rewrite R. unfold mu_pre. cbn. replace (1 * (1 / 2 + 1 / 2) * 1 * (1 * 1) * (1 - 0 * (0 * 1))) with 1 by field. rewrite sqrt_1. field.
Qed.
Example kick_example : (exists o, kick_orbit UNITS (CIRCULAR (1 / 2) (1 / 10)) = Some o) /\ kick_orbit UNITS (CIRCULAR (1 / 2) 3) = None.
Proof.
  destruct (circular_speed (1 / 2) (1 / 10)) as (A & B & D). destruct (circular_speed (1 / 2) 3) as (A' & B' & D').
  assert (S1 : 0 < sqrt 2) by (apply sqrt_lt_R0; lra). assert (S2 : sqrt 2 * sqrt 2 = 2) by (apply sqrt_sqrt; lra). assert (S3 : 13 / 10 < sqrt 2 < 15 / 10) by nra. split.
  - apply C83_weak_kick; [apply circular_valid; lra|cbn; lra|rewrite A, B, D|rewrite A, B].
    + unfold mu_post. cbn. replace (2 * (1 * (1 / 2 + 1 / 2) * 1) / 1) with 2 by field. replace (0 * (0 * 1) + 1 * (1 * 1)) with 1 by ring. rewrite sqrt_1. lra.
    + cbn. replace (0 * (0 * 1) + 1 * (1 * 1)) with 1 by ring. rewrite sqrt_1. lra.
  - apply C83_strong_kick; [apply circular_valid; lra|cbn; lra|rewrite A', B', D']. unfold mu_post. cbn. replace (2 * (1 * (1 / 2 + 1 / 2) * 1) / 1) with 2 by field. replace (0 * (0 * 1) + 1 * (1 * 1)) with 1 by ring. rewrite sqrt_1. lra.
Qed.
(** A negative kick of a tenth of the orbital velocity: the binary would be bound. *)
Example negative_example : kick_orbit UNITS (CIRCULAR (1 / 2) (- (1 / 10))) = None
  /\ (forall v0 kick, before UNITS (CIRCULAR (1 / 2) (- (1 / 10))) v0 -> kicked UNITS (CIRCULAR (1 / 2) (- (1 / 10))) v0 kick ->
      energy (mu_post UNITS (CIRCULAR (1 / 2) (- (1 / 10)))) (1, 0, 0) (add3 v0 kick) < 0).
Proof.
  set (x := CIRCULAR (1 / 2) (- (1 / 10))). assert (V : valid UNITS x) by (apply circular_valid; lra). destruct (circular_speed (1 / 2) (- (1 / 10))) as (A & B & D). fold x in A, B, D. split.
  - apply C82_negative_refuted; [exact V|cbn; lra|]. rewrite A, B, D. unfold mu_post. cbn. replace (0 * (0 * 1) + 1 * (1 * 1)) with 1 by ring. rewrite sqrt_1. lra.
  - intros v0 kick Bf Kf. apply before_unique in Bf; [|exact V]. apply kicked_unique in Kf; [|exact V|exact Bf]. subst v0 kick. unfold energy. rewrite (speed2 _ _ V), <- (speed _ _ V), A, B. unfold mu_post, norm2. cbn. replace (1 * 1 + 0 * 0 + 0 * 0) with 1 by ring. rewrite sqrt_1. lra.
Qed.
Example nothing_example : exists o, kick_orbit UNITS (SN 1 1 1 1 (1 / 2) (PI / 2) 0 0 0) = Some o /\ o_separation o = 1 /\ o_tilt o = 0.
Proof.
  pose proof PI_RGT_0. destruct (C83_nothing UNITS (SN 1 1 1 1 (1 / 2) (PI / 2) 0 0 0)) as (o & Q & A & _ & _ & T & _); [unfold valid; cbn; lra|reflexivity|reflexivity|cbn; lra|]. exists o. auto.
Qed.
Example small_example : exists o, kick_orbit UNITS (SN 1 1 1 1 (1 / 1000) (PI / 2) 0 0 0) = Some o /\ o_eccentricity o = 0.
Proof. pose proof PI_RGT_0. apply C83_small_eccentricity_refuted; try reflexivity; [unfold valid|..]; cbn; lra. Qed.
Example anomaly_example : exists! E, 0 <= E <= 2 * PI /\ kepler 1 (1 / 2) E = 0.
Proof. pose proof PI2_3_2. apply C81_anomaly; lra. Qed.
Example position_example : cos (true_anomaly (1 / 2) (PI / 2)) = - (1 / 2) /\ sin (true_anomaly (1 / 2) (PI / 2)) = sqrt (3 / 4).
Proof.
  pose proof PI_RGT_0. destruct (C81_position (1 / 2) (PI / 2)) as [A B]; [lra|lra|lra|]. rewrite cos_PI2 in A, B. rewrite sin_PI2 in B. replace (1 - (1 / 2) ^ 2) with (3 / 4) in B by field. split; lra.
Qed.

(** ** C84: tilts of two supernovae *)
(** Rotation of a vector around an axis (Rodrigues). *)
Definition rodrigues (n : vec) (t : R) (v : vec) : vec := add3 (add3 (scale3 (cos t) v) (scale3 (sin t) (cross n v))) (scale3 ((1 - cos t) * dot3 n v) n).
Theorem C84_rotation : forall axis t v, (rotated axis t v = None <-> axis = (0, 0, 0))
  /\ (axis <> (0, 0, 0) -> rotated axis t v = Some (rodrigues (scale3 (/ sqrt (norm2 axis)) axis) t v)).
Proof.
  intros [[a b] d] t [[x y] z]. unfold rotated, rotate. replace (a ^ 2 + b ^ 2 + d ^ 2) with (norm2 (a, b, d)) by (unfold norm2; ring). set (n := norm2 (a, b, d)).
  assert (Z : sqrt n = 0 <-> (a, b, d) = (0, 0, 0)).
  { assert (P : 0 <= n) by (unfold n, norm2; nra). split.
    - intros S. apply sqrt_eq_0 in S; [|exact P]. unfold n, norm2 in S. assert (a = 0) by nra. assert (b = 0) by nra. assert (d = 0) by nra. subst. reflexivity.
    - intros E. injection E as -> -> ->. unfold n, norm2. replace (0 * 0 + 0 * 0 + 0 * 0) with 0 by ring. apply sqrt_0. }
  destruct (Req_EM_T (sqrt n) 0) as [S|S].
  - split; [split; [intros _; apply Z, S|reflexivity]|]. intros N. exfalso. apply N, Z, S.
  - split; [split; [discriminate|intros E; exfalso; apply S, Z, E]|]. intros _. f_equal. unfold rodrigues, mdot, dot3, add3, scale3, cross. cbn. f_equal; [f_equal|]; field; exact S.
Qed.
(** It keeps lengths and the axis. *)
Theorem C84_isometry : forall n t v, norm2 n = 1 -> norm2 (rodrigues n t v) = norm2 v /\ rodrigues n t n = n.
Proof.
  intros [[a b] d] t [[x y] z] N. pose proof (sin2_cos2 t) as S. unfold Rsqr in S. unfold norm2 in N. set (c := cos t) in *. set (s := sin t) in *. split.
  - replace (norm2 (rodrigues (a, b, d) t (x, y, z))) with
      (c * c * norm2 (x, y, z) + s * s * (norm2 (a, b, d) * norm2 (x, y, z) - dot3 (a, b, d) (x, y, z) ^ 2)
       + (1 - c) ^ 2 * dot3 (a, b, d) (x, y, z) ^ 2 * norm2 (a, b, d) + 2 * c * (1 - c) * dot3 (a, b, d) (x, y, z) ^ 2)
      by (unfold rodrigues, norm2, dot3, add3, scale3, cross; fold c; fold s; ring).
    assert (N1 : norm2 (a, b, d) = 1) by exact N. rewrite N1. set (k := dot3 _ _). replace (c * c) with (1 - s * s) by lra. replace ((1 - c) ^ 2 * k ^ 2 * 1) with ((1 - 2 * c + c * c) * k ^ 2) by ring.
    replace (2 * c * (1 - c) * k ^ 2) with ((2 * c - 2 * (c * c)) * k ^ 2) by ring. replace (c * c) with (1 - s * s) by lra. ring.
  - unfold rodrigues, dot3, add3, scale3, cross. fold c; fold s. rewrite N. f_equal; [f_equal|]; ring.
Qed.
(** The first tilt turns the orbital plane around the line of the first explosion, the second one around that of the second explosion. *)
Theorem C84_combined : forall t1 t2 n1 n2, get_combined_tilt t1 t2 n1 n2 = Some (acos (cos t1 * cos t2 - cos (n2 - n1) * sin t1 * sin t2)).
Proof.
  intros t1 t2 n1 n2. pose proof (sin2_cos2 t1) as S1. pose proof (sin2_cos2 (n2 - n1)) as SD. unfold Rsqr in S1, SD. unfold get_combined_tilt.
  assert (N0 : ((1, 0, 0) : vec) <> (0, 0, 0)) by (intros E; injection E; intros; lra).
  rewrite (proj2 (C84_rotation (1, 0, 0) t1 (0, 0, 1)) N0).
  replace (rodrigues _ t1 (0, 0, 1)) with ((0, - sin t1, cos t1) : vec).
  2: { unfold rodrigues, norm2, add3, scale3, dot3, cross. replace (1 * 1 + 0 * 0 + 0 * 0) with 1 by ring. rewrite sqrt_1. f_equal; [f_equal|]; field. }
  assert (NZ : ((0, - sin t1, cos t1) : vec) <> (0, 0, 0)) by (intros E; injection E as E1 E2; rewrite E2 in S1; assert (sin t1 = 0) by lra; nra).
  rewrite (proj2 (C84_rotation _ (n2 - n1) (1, 0, 0)) NZ).
  assert (U1 : norm2 (0, - sin t1, cos t1) = 1) by (unfold norm2; lra). rewrite U1, sqrt_1.
  replace (rodrigues _ (n2 - n1) (1, 0, 0)) with ((cos (n2 - n1), sin (n2 - n1) * cos t1, sin (n2 - n1) * sin t1) : vec).
  2: { unfold rodrigues, add3, scale3, dot3, cross. rewrite Rinv_1. f_equal; [f_equal|]; ring. }
  set (D := n2 - n1) in *. assert (U2 : norm2 (cos D, sin D * cos t1, sin D * sin t1) = 1).
  { unfold norm2. replace (_ + _ + _) with (cos D * cos D + sin D * sin D * (sin t1 * sin t1 + cos t1 * cos t1)) by ring. rewrite S1. lra. }
  assert (NX : ((cos D, sin D * cos t1, sin D * sin t1) : vec) <> (0, 0, 0)) by (intros E; rewrite E in U2; unfold norm2 in U2; lra).
  rewrite (proj2 (C84_rotation _ t2 _) NX), U2, sqrt_1. f_equal. f_equal. unfold rodrigues, add3, scale3, dot3, cross. rewrite Rinv_1. ring.
Qed.
Theorem C84_range : forall t1 t2 n1 n2, exists t, get_combined_tilt t1 t2 n1 n2 = Some t /\ 0 <= t <= PI
  /\ (t1 = 0 -> - PI <= t2 <= PI -> t = Rabs t2) /\ (t2 = 0 -> - PI <= t1 <= PI -> t = Rabs t1) /\ (n1 = n2 -> - PI <= t1 + t2 <= PI -> t = Rabs (t1 + t2)).
Proof.
  intros t1 t2 n1 n2. rewrite C84_combined. eexists. split; [reflexivity|]. split; [apply acos_bound|]. assert (AC : forall t, - PI <= t <= PI -> acos (cos t) = Rabs t).
  { intros t Ht. unfold Rabs. destruct (Rcase_abs t); [rewrite <- cos_neg|]; apply acos_cos; lra. }
  split; [|split].
  - intros -> H. rewrite cos_0, sin_0. replace (1 * cos t2 - cos (n2 - n1) * 0 * sin t2) with (cos t2) by ring. apply AC, H.
  - intros -> H. rewrite cos_0, sin_0. replace (cos t1 * 1 - cos (n2 - n1) * sin t1 * 0) with (cos t1) by ring. apply AC, H.
  - intros -> H. replace (n2 - n2) with 0 by ring. rewrite cos_0. replace (cos t1 * cos t2 - 1 * sin t1 * sin t2) with (cos (t1 + t2)) by (rewrite cos_plus; ring). apply AC, H.
Qed.
Example tilt_example : get_combined_tilt (PI / 2) (- (PI / 2)) 0 0 = Some 0 /\ get_combined_tilt (PI / 2) (PI / 2) 0 (PI / 2) = Some (PI / 2).
Proof.
  rewrite !C84_combined. rewrite cos_neg, sin_neg, cos_PI2, sin_PI2, Rminus_0_r, cos_0. replace (PI / 2 - 0) with (PI / 2) by ring. rewrite ?cos_PI2.
  split; f_equal; [replace (0 * 0 - 1 * 1 * - (1)) with 1 by ring; apply acos_1|replace (0 * 0 - 0 * 1 * 1) with 0 by ring; apply acos_0].
Qed.

Print Assumptions C81_anomaly.
Print Assumptions C81_position.
Print Assumptions C81_velocity.
Print Assumptions C82_velocities.
Print Assumptions C82_orbit.
Print Assumptions C82_survival.
Print Assumptions C82_negative_refuted.
Print Assumptions C83_mass_loss.
Print Assumptions C83_nothing.
Print Assumptions C82_through.
Print Assumptions C83_strong_kick.
Print Assumptions C83_weak_kick.
Print Assumptions C83_small_eccentricity_refuted.
Print Assumptions C84_rotation.
Print Assumptions C84_isometry.
Print Assumptions C84_combined.
Print Assumptions C84_range.
