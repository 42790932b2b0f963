(** Gravitational radiation in the detached step (C92). *)
From Coq Require Import Reals String Bool List Lra.
From Verif Require Import PyBase RealLemmas OrbitModel InspiralModel.
Open Scope R_scope.

(** The quadrupole formulas of Peters (1964) for masses (g) and a separation (cm): cm/s and 1/s. *)
Definition peters_a (m1 m2 a e : R) : R :=
  - (64 / 5) * (6.67428e-8 ^ 3 * m1 * m2 * (m1 + m2)) / (2.99792458e10 ^ 5 * a ^ 3 * Rpower (1 - e ^ 2) (7 / 2)) * (1 + 73 / 24 * e ^ 2 + 37 / 96 * e ^ 4).
Definition peters_e (m1 m2 a e : R) : R :=
  - (304 / 15) * e * (6.67428e-8 ^ 3 * m1 * m2 * (m1 + m2)) / (2.99792458e10 ^ 5 * a ^ 4 * Rpower (1 - e ^ 2) (5 / 2)) * (1 + 121 / 304 * e ^ 2).
(** The gravitational radius over the semi-latus rectum. *)
Definition strength (m1 m2 a e : R) : R := 6.67428e-8 * ((m1 + m2) * 1.9892e33) / (a * 6.9598e10 * (1 - e ^ 2) * 2.99792458e10 ^ 2).

Lemma consts : 0 < standard_cgrav /\ 0 < clight /\ 0 < Msun /\ 0 < Rsun /\ 0 < secyer.
Proof. unfold standard_cgrav, clight, Msun, Rsun, secyer. repeat split; lra. Qed.
Ltac pos := repeat match goal with
  | H : 0 < ?x |- 0 < ?x => exact H
  | |- 0 < _ ^ _ => apply pow_lt
  | |- 0 < Rpower _ _ => apply Rpower_pos
  | |- 0 < _ * _ => apply Rmult_lt_0_compat
  | |- 0 < _ / _ => apply Rdiv_lt_0_compat
  | |- 0 < / _ => apply Rinv_0_lt_compat
  | |- 0 < _ + _ => apply Rplus_lt_0_compat
  | |- _ => lra
  end.
Lemma pow_step y z : 0 < y -> Rpower y (z + 1) = y * Rpower y z.
Proof. intros H. rewrite Rpower_plus, Rpower_1 by exact H. ring. Qed.

(** Peters' rates times 1 minus a correction of the order of the gravitational radius over the semi-latus rectum. *)
Theorem C92_order :
  forall a e m1 m2, 0 < a -> 0 <= e < 1 -> 0 < m1 -> 0 < m2 ->
  let A := a * 6.9598e10 in let M1 := m1 * 1.9892e33 in let M2 := m2 * 1.9892e33 in
  exists ka ke, 5 < ka < 11 /\ 7.8 < ke < 10 /\
    fst (default_gravrad a e m1 m2) = peters_a M1 M2 A e * (3.1558149984e7 / 6.9598e10) * (1 - ka * strength m1 m2 a e) /\
    snd (default_gravrad a e m1 m2) = peters_e M1 M2 A e * 3.1558149984e7 * (1 - ke * strength m1 m2 a e).
Proof.
  intros a e m1 m2 HA HE H1 H2 A M1 M2. unfold A, M1, M2, peters_a, peters_e, strength, default_gravrad. cbv zeta. cbn [fst snd].
  change 6.67428e-8 with standard_cgrav. change 1.9892e33 with Msun. change 6.9598e10 with Rsun. change 2.99792458e10 with clight.
  change 3.1558149984e7 with secyer. destruct consts as (G0 & C0 & MS & RS & Y0).
  set (v := m1 * m2 / (m1 + m2) ^ 2).
  assert (V : 0 < v <= 1 / 4).
  { unfold v. split; [apply Rdiv_lt_0_compat; [nra|apply pow_lt; lra]|].
    apply Rmult_le_reg_r with ((m1 + m2) ^ 2); [apply pow_lt; lra|]. replace (m1 * m2 / (m1 + m2) ^ 2 * (m1 + m2) ^ 2) with (m1 * m2) by (field; lra).
    pose proof (pow2_ge_0 (m1 - m2)). nra. }
  assert (VM : v * (m1 + m2) ^ 2 = m1 * m2) by (unfold v; field; lra).
  assert (E2 : 0 <= e ^ 2 < 1) by nra. set (q := e ^ 2) in *.
  assert (Q4 : e ^ 4 = q ^ 2) by (unfold q; ring). assert (Q6 : e ^ 6 = q ^ 3) by (unfold q; ring). rewrite Q4, Q6. clear Q4 Q6.
  replace (9 / 2) with (5 / 2 + 1 + 1) by lra. replace (7 / 2) with (5 / 2 + 1) by lra. rewrite !pow_step by lra.
  pose proof (Rpower_pos (1 - q) (5 / 2)) as WP. set (W := Rpower (1 - q) (5 / 2)) in *.
  set (N1 := (14008 + 4707 * v) + (80124 + 21560 * v) * q + (17325 + 10458) * q ^ 2 - 0.5 * (5501 - 1036 * v) * q ^ 3).
  set (N2 := 8 * (16705 + 4676 * v) + 12 * (9082 + 2807 * v) * q - (25211 - 3388 * v) * q ^ 2).
  set (D1 := 96 + 292 * q + 37 * q ^ 2). set (D2 := 304 + 121 * q).
  assert (P1 : 0 < D1) by (unfold D1; nra). assert (P2 : 0 < D2) by (unfold D2; nra).
  assert (q2 : 0 <= q ^ 2 <= q) by nra. assert (q3 : 0 <= q ^ 3 <= q ^ 2) by nra.
  assert (vq : 0 <= v * q <= 1 / 4 * q) by nra. assert (vq2 : 0 <= v * q ^ 2 <= 1 / 4 * q ^ 2) by nra. assert (vq3 : 0 <= v * q ^ 3 <= 1 / 4 * q ^ 3) by nra.
  exists (N1 / (28 * D1)), (N2 / (56 * D2)).
  assert (B : forall n d lo hi, 0 < d -> lo * d < n < hi * d -> lo < n / d < hi).
  { intros n d lo hi D [L H]. split; apply Rmult_lt_reg_r with d; try exact D; unfold Rdiv; rewrite Rmult_assoc, Rinv_l, Rmult_1_r by lra; lra. }
  split; [apply B; [lra|]; unfold N1, D1; split; nra|]. split; [apply B; [lra|]; unfold N2, D2; split; nra|].
  assert (v = m1 * m2 / (m1 + m2) ^ 2) as VE by reflexivity. clearbody N1 N2.
  split.
  - replace (1 + 73 / 24 * q + 37 / 96 * q ^ 2) with (D1 / 96) by (unfold D1; field).
    replace (1 / 28 * standard_cgrav * (m1 + m2) * Msun / (a * Rsun * clight ^ 2) * N1) with (N1 / 28 * (standard_cgrav * (m1 + m2) * Msun / (a * Rsun * clight ^ 2))) by (field; repeat split; lra).
    rewrite VE. clearbody D1 D2 W q. clear - G0 C0 MS RS Y0 HA H1 H2 WP P1 E2. field. repeat split; lra.
  - replace (1 + 121 / 304 * q) with (D2 / 304) by (unfold D2; field).
    rewrite VE. clearbody D1 D2 W q. clear - G0 C0 MS RS Y0 HA H1 H2 WP P2 E2. field. repeat split; lra.
Qed.
Print Assumptions C92_order.

(** Orbits shrink and become rounder as long as the semi-latus rectum is 11 gravitational radii; circular orbits stay circular. *)
Theorem C92_decay :
  forall a e m1 m2, 0 < a -> 0 <= e < 1 -> 0 < m1 -> 0 < m2 -> 11 * strength m1 m2 a e <= 1 ->
  fst (default_gravrad a e m1 m2) < 0 /\ (0 < e -> snd (default_gravrad a e m1 m2) < 0) /\ (e = 0 -> snd (default_gravrad a e m1 m2) = 0).
Proof.
  intros a e m1 m2 HA HE H1 H2 HS. destruct (C92_order a e m1 m2 HA HE H1 H2) as (ka & ke & KA & KE & -> & ->).
  assert (E2 : 0 <= e ^ 2 < 1) by nra.
  assert (S0 : 0 < strength m1 m2 a e).
  { unfold strength. change 6.67428e-8 with standard_cgrav. change 1.9892e33 with Msun. change 6.9598e10 with Rsun. change 2.99792458e10 with clight.
    destruct consts as (G0 & C0 & MS & RS & Y0).
    pos. }
  set (x := strength m1 m2 a e) in *. assert (F1 : 0 < 1 - ka * x) by nra. assert (F2 : 0 < 1 - ke * x) by nra.
  unfold peters_a, peters_e. change 6.67428e-8 with standard_cgrav. change 1.9892e33 with Msun. change 6.9598e10 with Rsun. change 2.99792458e10 with clight.
  change 3.1558149984e7 with secyer. destruct consts as (G0 & C0 & MS & RS & Y0).
  assert (T : 0 < standard_cgrav ^ 3 * (m1 * Msun) * (m2 * Msun) * (m1 * Msun + m2 * Msun)).
  { pos. }
  set (t := standard_cgrav ^ 3 * (m1 * Msun) * (m2 * Msun) * (m1 * Msun + m2 * Msun)) in *.
  assert (U : forall n z, 0 < clight ^ 5 * (a * Rsun) ^ n * Rpower (1 - e ^ 2) z).
  { intros n z. pos. }
  split; [|split].
  - pose proof (U 3%nat (7 / 2)) as U1. set (u := clight ^ 5 * (a * Rsun) ^ 3 * Rpower (1 - e ^ 2) (7 / 2)) in *.
    assert (0 < 1 + 73 / 24 * e ^ 2 + 37 / 96 * e ^ 4) by nra. set (p := 1 + 73 / 24 * e ^ 2 + 37 / 96 * e ^ 4) in *.
    assert (Z : 0 < t / u * p * (secyer / Rsun) * (1 - ka * x)).
    { pos. }
    replace (- (64 / 5) * t / u * p * (secyer / Rsun) * (1 - ka * x)) with (- (64 / 5) * (t / u * p * (secyer / Rsun) * (1 - ka * x))) by (field; lra). lra.
  - intros E0. pose proof (U 4%nat (5 / 2)) as U1. set (u := clight ^ 5 * (a * Rsun) ^ 4 * Rpower (1 - e ^ 2) (5 / 2)) in *.
    assert (0 < 1 + 121 / 304 * e ^ 2) by nra. set (p := 1 + 121 / 304 * e ^ 2) in *.
    assert (Z : 0 < t / u * p * e * secyer * (1 - ke * x)).
    { pos. }
    replace (- (304 / 15) * e * t / u * p * secyer * (1 - ke * x)) with (- (304 / 15) * (t / u * p * e * secyer * (1 - ke * x))) by (field; lra). lra.
  - intros ->. unfold Rdiv. rewrite Rmult_0_r. rewrite !Rmult_0_l. reflexivity.
Qed.
Print Assumptions C92_decay.

(** Closer orbits grow. *)
Theorem C92_growth_refuted :
  forall a e m1 m2, 0 < a -> 0 <= e < 1 -> 0 < m1 -> 0 < m2 -> 1 <= 5 * strength m1 m2 a e -> 0 < fst (default_gravrad a e m1 m2).
Proof.
  intros a e m1 m2 HA HE H1 H2 HS. destruct (C92_order a e m1 m2 HA HE H1 H2) as (ka & ke & KA & KE & -> & _).
  assert (E2 : 0 <= e ^ 2 < 1) by nra.
  set (x := strength m1 m2 a e) in *. assert (F1 : 1 - ka * x < 0) by nra.
  unfold peters_a. change 6.67428e-8 with standard_cgrav. change 1.9892e33 with Msun. change 6.9598e10 with Rsun. change 2.99792458e10 with clight.
  change 3.1558149984e7 with secyer. destruct consts as (G0 & C0 & MS & RS & Y0).
  assert (T : 0 < standard_cgrav ^ 3 * (m1 * Msun) * (m2 * Msun) * (m1 * Msun + m2 * Msun)).
  { pos. }
  set (t := standard_cgrav ^ 3 * (m1 * Msun) * (m2 * Msun) * (m1 * Msun + m2 * Msun)) in *.
  assert (U1 : 0 < clight ^ 5 * (a * Rsun) ^ 3 * Rpower (1 - e ^ 2) (7 / 2)).
  { pos. }
  set (u := clight ^ 5 * (a * Rsun) ^ 3 * Rpower (1 - e ^ 2) (7 / 2)) in *.
  assert (0 < 1 + 73 / 24 * e ^ 2 + 37 / 96 * e ^ 4) by nra. set (p := 1 + 73 / 24 * e ^ 2 + 37 / 96 * e ^ 4) in *.
  assert (Z : 0 < t / u * p * (secyer / Rsun) * (ka * x - 1)).
  { pos. }
  replace (- (64 / 5) * t / u * p * (secyer / Rsun) * (1 - ka * x)) with ((64 / 5) * (t / u * p * (secyer / Rsun) * (ka * x - 1))) by (field; lra). lra.
Qed.
Print Assumptions C92_growth_refuted.

(** Two stars of 10 Msun at 10 Rsun, and two black holes of 10 Msun at 1e-4 Rsun. *)
Example C92_example : 11 * strength 10 10 10 0.5 <= 1 /\ 1 <= 5 * strength 10 10 0.0001 0.5.
Proof. unfold strength. split; apply Rmult_le_reg_r with 1000000; try lra; field_simplify; lra. Qed.
