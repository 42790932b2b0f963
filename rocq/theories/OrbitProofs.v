(** Proofs about OrbitModel. *)
From Coq Require Import List Bool PeanoNat Reals Lia Lra.
From Coquelicot Require Import Coquelicot.
From Verif Require Import PyBase PyList RealLemmas OrbitModel.
Import ListNotations.
Open Scope R_scope.

(** ** Kepler *)
Lemma constants_pos : 0 < c_pi /\ 0 < standard_cgrav /\ 0 < Msun /\ 0 < Rsun /\ 0 < dayyer /\ 0 < aursun /\ 0 < day2sec.
Proof. unfold c_pi, standard_cgrav, Msun, Rsun, dayyer, aursun, day2sec. lra. Qed.

Lemma separation_pos P m1 m2 : 0 < orbital_separation_from_period P m1 m2.
Proof.
  destruct constants_pos as (?&?&?&?&?&?&?).
  unfold orbital_separation_from_period. apply Rdiv_lt_0_compat; [apply Rpower_pos|easy].
Qed.
Lemma period_pos a m1 m2 : 0 < orbital_period_from_separation a m1 m2.
Proof.
  destruct constants_pos as (?&?&?&?&?&?&?).
  unfold orbital_period_from_separation. apply Rmult_lt_0_compat; [easy|apply Rpower_pos].
Qed.
Lemma separation_law P m1 m2 : 0 < P -> 0 < m1 + m2 ->
  4 * c_pi ^ 2 * (orbital_separation_from_period P m1 m2 * Rsun) ^ 3
  = standard_cgrav * ((m1 + m2) * Msun) * (P * day2sec) ^ 2.
Proof.
  destruct constants_pos as (?&?&?&?&?&?&?). intros HP HM.
  unfold orbital_separation_from_period.
  set (x := standard_cgrav * _ / _ * _).
  assert (X : 0 < x).
  { unfold x. apply Rmult_lt_0_compat; [apply Rdiv_lt_0_compat|].
    - replace (m1 * Msun + m2 * Msun) with ((m1 + m2) * Msun) by ring.
      apply Rmult_lt_0_compat; [assumption|]. apply Rmult_lt_0_compat; assumption.
    - assert (0 < c_pi ^ 2) by now apply pow_lt. lra.
    - apply pow_lt. now apply Rmult_lt_0_compat. }
  replace (Rpower x (1 / 3) / Rsun * Rsun) with (Rpower x (1 / 3)) by (field; lra).
  rewrite Rpower_cube by easy. unfold x. field. lra.
Qed.
Lemma period_law a m1 m2 : 0 < a -> 0 < m1 + m2 ->
  (orbital_period_from_separation a m1 m2 / dayyer) ^ 2 * (m1 + m2) = (a / aursun) ^ 3.
Proof.
  destruct constants_pos as (?&?&?&?&?&?&?). intros HA HM.
  unfold orbital_period_from_separation.
  set (x := _ / (m1 + m2)).
  assert (X : 0 < x).
  { unfold x. apply Rdiv_lt_0_compat; [|easy]. apply pow_lt. now apply Rdiv_lt_0_compat. }
  replace (dayyer * Rpower x (1 / 2) / dayyer) with (Rpower x (1 / 2)) by (field; lra).
  rewrite Rpower_square by easy. unfold x. field. lra.
Qed.

(** What one conversion after the other multiplies by, squared (period) or cubed (separation). *)
Definition kappa2 : R := dayyer ^ 2 * standard_cgrav * Msun * day2sec ^ 2 / (4 * c_pi ^ 2 * Rsun ^ 3 * aursun ^ 3).
Lemma kappa2_bounds : 1.000147 ^ 2 < kappa2 < 1.000149 ^ 2.
Proof.
  unfold kappa2, dayyer, standard_cgrav, Msun, day2sec, c_pi, Rsun, aursun.
  split; [apply Rlt_div_r|apply Rlt_div_l]; lra.
Qed.
Lemma roundtrip_period P m1 m2 : 0 < P -> 0 < m1 + m2 ->
  orbital_period_from_separation (orbital_separation_from_period P m1 m2) m1 m2 = sqrt kappa2 * P.
Proof.
  intros HP HM. destruct constants_pos as (?&?&?&?&?&?&?).
  assert (K : 0 <= kappa2) by (pose proof kappa2_bounds; lra).
  pose proof (separation_pos P m1 m2) as S.
  pose proof (separation_law P m1 m2 HP HM) as L1.
  pose proof (period_law _ m1 m2 S HM) as L2.
  pose proof (period_pos (orbital_separation_from_period P m1 m2) m1 m2) as Q.
  set (a := orbital_separation_from_period P m1 m2) in *.
  set (p := orbital_period_from_separation a m1 m2) in *.
  apply square_inj; [lra| |].
  { apply Rmult_le_pos; [apply sqrt_pos|lra]. }
  rewrite Rpow_mult_distr, pow2_sqrt by easy.
  assert (E : a ^ 3 = standard_cgrav * ((m1 + m2) * Msun) * (P * day2sec) ^ 2 / (4 * c_pi ^ 2 * Rsun ^ 3)).
  { rewrite <- L1. field. split; lra. }
  assert (F : p ^ 2 = dayyer ^ 2 * (a ^ 3 / aursun ^ 3) / (m1 + m2)).
  { replace (a ^ 3 / aursun ^ 3) with ((a / aursun) ^ 3) by (field; lra). rewrite <- L2. field. split; lra. }
  rewrite F, E. unfold kappa2. field. repeat split; lra.
Qed.
Lemma roundtrip_separation a m1 m2 : 0 < a -> 0 < m1 + m2 ->
  orbital_separation_from_period (orbital_period_from_separation a m1 m2) m1 m2 = Rpower kappa2 (1 / 3) * a.
Proof.
  intros HA HM. destruct constants_pos as (?&?&?&?&?&?&?).
  assert (K : 0 < kappa2) by (pose proof kappa2_bounds; lra).
  pose proof (period_pos a m1 m2) as Q.
  pose proof (period_law a m1 m2 HA HM) as L2.
  pose proof (separation_law _ m1 m2 Q HM) as L1.
  set (p := orbital_period_from_separation a m1 m2) in *.
  set (s := orbital_separation_from_period p m1 m2) in *.
  apply cube_inj. rewrite Rpow_mult_distr, Rpower_cube by easy.
  assert (E : s ^ 3 = standard_cgrav * ((m1 + m2) * Msun) * (p * day2sec) ^ 2 / (4 * c_pi ^ 2 * Rsun ^ 3)).
  { rewrite <- L1. field. split; lra. }
  assert (F : p ^ 2 = dayyer ^ 2 * (a ^ 3 / aursun ^ 3) / (m1 + m2)).
  { replace (a ^ 3 / aursun ^ 3) with ((a / aursun) ^ 3) by (field; lra). rewrite <- L2. field. split; lra. }
  rewrite E, Rpow_mult_distr, F. unfold kappa2. field. repeat split; lra.
Qed.
Lemma kappa_bounds : 1.000147 < sqrt kappa2 < 1.000149.
Proof.
  destruct kappa2_bounds as [L U].
  assert (S : sqrt kappa2 ^ 2 = kappa2) by (apply pow2_sqrt; lra). pose proof (sqrt_pos kappa2).
  split; apply Rnot_le_lt; intros H1; nra.
Qed.
Lemma lambda_bounds : 1.00009 < Rpower kappa2 (1 / 3) < 1.0001.
Proof.
  destruct kappa2_bounds as [L U].
  assert (S : Rpower kappa2 (1 / 3) ^ 3 = kappa2) by (apply Rpower_cube; lra).
  split; apply Rnot_le_lt; intros H1; apply Rle_lt_or_eq_dec in H1.
  - destruct H1 as [H1|H1]; [apply cube_lt in H1; lra|]. rewrite H1 in S. lra.
  - destruct H1 as [H1|H1]; [apply cube_lt in H1; lra|]. rewrite <- H1 in S. lra.
Qed.

(** ** Roche lobe *)
(** In terms of the cube root of the mass ratio. *)
Definition lobe (x : R) : R := 0.49 / (0.6 + ln (1 + x) / x ^ 2).
Lemma shrink_decreasing x y : 0 < x -> x < y -> ln (1 + y) / y ^ 2 < ln (1 + x) / x ^ 2.
Proof.
  intros X XY.
  assert (H : - (ln (1 + x) / x ^ 2) < - (ln (1 + y) / y ^ 2)).
  { apply (increasing_derive (fun t => - (ln (1 + t) / t ^ 2))
      (fun t => (2 * ln (1 + t) - t / (1 + t)) / t ^ 3)); [easy| |].
    - intros t T. auto_derive; [split; nra|]. field. split; nra.
    - intros t T. apply Rdiv_lt_0_compat; [|apply pow_lt; lra].
      assert (T0 : 0 < t) by lra. pose proof (ln1p_lower t T0). pose proof (ln1p_pos t T0). lra. }
  lra.
Qed.
Lemma shrink_pos x : 0 < x -> 0 < ln (1 + x) / x ^ 2.
Proof. intros X. apply Rdiv_lt_0_compat; [now apply ln1p_pos|now apply pow_lt]. Qed.
Lemma lobe_increasing x y : 0 < x -> x < y -> lobe x < lobe y.
Proof.
  intros X XY. pose proof (shrink_decreasing x y X XY). pose proof (shrink_pos y ltac:(lra)).
  unfold lobe. apply Rmult_lt_compat_l; [lra|]. apply Rinv_lt_contravar; nra.
Qed.
Lemma lobe_pos x : 0 < x -> 0 < lobe x.
Proof. intros X. pose proof (shrink_pos x X). unfold lobe. apply Rdiv_lt_0_compat; lra. Qed.
Lemma lobe_bound x : 0 < x -> lobe x < 49 / 60.
Proof. intros X. pose proof (shrink_pos x X). unfold lobe. apply Rlt_div_l; lra. Qed.
Lemma lobe_formula x : 0 < x -> 0.49 * x ^ 2 / (0.6 * x ^ 2 + ln (1 + x)) = lobe x.
Proof.
  intros X. pose proof (ln1p_pos x X). assert (0 < x ^ 2) by now apply pow_lt.
  unfold lobe. field. split; nra.
Qed.
Lemma lobe_le x s : 0 < x -> 0 < s -> s <= ln (1 + x) / x ^ 2 -> lobe x <= 0.49 / (0.6 + s).
Proof.
  intros X S H. unfold lobe, Rdiv. apply Rmult_le_compat_l; [lra|]. apply Rinv_le_contravar; lra.
Qed.
Lemma lobes_disjoint_ge x : 1 <= x -> lobe x + lobe (/ x) < 1.
Proof.
  intros X.
  assert (I : 0 < / x) by (apply Rinv_0_lt_compat; lra).
  pose proof (ln_artanh (1/3) ltac:(lra)) as A1. replace ((1 + 1 / 3) / (1 - 1 / 3)) with (1 + 1) in A1 by field.
  pose proof (ln_artanh (1/6) ltac:(lra)) as A2. replace ((1 + 1 / 6) / (1 - 1 / 6)) with (1 + 2/5) in A2 by field.
  pose proof (ln_artanh (5/9) ltac:(lra)) as A3. replace ((1 + 5 / 9) / (1 - 5 / 9)) with (1 + 5/2) in A3 by field.
  destruct (Rle_dec x (5/2)) as [B|B].
  - assert (L1 : lobe x <= lobe (5/2)).
    { destruct (Req_dec x (5/2)) as [-> |N]; [lra|]. left. apply lobe_increasing; lra. }
    assert (L2 : lobe (/ x) <= lobe 1).
    { destruct (Req_dec x 1) as [-> |N]; [rewrite Rinv_1; lra|]. left. apply lobe_increasing; [easy|].
      rewrite <- Rinv_1. apply Rinv_lt_contravar; lra. }
    assert (L3 : lobe (5/2) <= 0.49 / (0.6 + 0.196)).
    { apply lobe_le; lra. }
    assert (L4 : lobe 1 <= 0.49 / (0.6 + 0.69)).
    { apply lobe_le; lra. }
    lra.
  - pose proof (lobe_bound x ltac:(lra)).
    assert (L2 : lobe (/ x) < lobe (2/5)).
    { apply lobe_increasing; [easy|]. replace (2/5) with (/ (5/2)) by field. apply Rinv_lt_contravar; nra. }
    assert (L3 : lobe (2/5) <= 0.49 / (0.6 + 2.08)).
    { apply lobe_le; lra. }
    lra.
Qed.
Lemma lobes_disjoint x : 0 < x -> lobe x + lobe (/ x) < 1.
Proof.
  intros X. destruct (Rle_dec 1 x) as [G|G]; [now apply lobes_disjoint_ge|].
  rewrite Rplus_comm, <- (Rinv_inv x) at 1. rewrite (Rinv_inv x) at 1.
  apply Rnot_le_lt in G.
  assert (1 <= / x).
  { rewrite <- Rinv_1. apply Rinv_le_contravar; lra. }
  pose proof (lobes_disjoint_ge (/ x) H) as D. rewrite Rinv_inv in *. lra.
Qed.
