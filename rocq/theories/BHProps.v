(** Spinning black holes (C123 to C125) *)
From Coq Require Import Reals Bool Lra Lia Psatz.
From Verif Require Import PyBase OrbitModel InspiralModel BHModel.
Open Scope R_scope.

(** ** Rates of accretion *)
Lemma ln10_pos : 0 < ln 10.
Proof. rewrite <- ln_1. apply ln_increasing; lra. Qed.
Lemma pow_log x : 0 < x -> Rpower 10 (log10 x) = x.
Proof. intro H. unfold Rpower, log10. assert (L := ln10_pos). replace (ln x / ln 10 * ln 10) with (ln x) by (field; lra). apply exp_ln. exact H. Qed.
Lemma log_pow x : log10 (Rpower 10 x) = x.
Proof. unfold log10, Rpower. rewrite ln_exp. assert (L := ln10_pos). field. lra. Qed.
Lemma log10_le x y : 0 < x -> x <= y -> log10 x <= log10 y.
Proof. intros H L. unfold log10. apply Rmult_le_compat_r; [left; apply Rinv_0_lt_compat; exact ln10_pos|]. destruct L as [L| ->]; [left; apply ln_increasing; assumption|right; reflexivity]. Qed.
Lemma log10_lt x y : 0 < x -> x < y -> log10 x < log10 y.
Proof. intros H L. unfold log10. apply Rmult_lt_compat_r; [apply Rinv_0_lt_compat; exact ln10_pos|]. apply ln_increasing; assumption. Qed.
Lemma log10_1 : log10 1 = 0.
Proof. unfold log10. rewrite ln_1. apply Rmult_0_l. Qed.

(** The recorded rate, as a rate, is the sum of both ways of accretion, limited. *)
Theorem C123_limited : forall lg captured edd, 0 <= captured -> 0 < edd ->
  Rpower 10 (recorded_rate lg captured edd) = Rmin (Rpower 10 lg + captured) edd.
Proof.
  intros lg c e C E. unfold recorded_rate. assert (P : 0 < Rpower 10 lg) by apply exp_pos. rewrite pow_log by lra.
  destruct (Rlt_dec e (Rpower 10 lg + c)) as [L|L].
  - rewrite pow_log by exact E. rewrite Rmin_right by lra. reflexivity.
  - rewrite pow_log by lra. rewrite Rmin_left by lra. reflexivity.
Qed.
(** In the rows of the track only rates above 1 Msun/yr are limited, and those not to the limit. *)
Theorem C123_tracked : forall lg captured edd, 0 <= captured -> 0 < edd ->
  (Rpower 10 lg + captured <= Rpower 10 edd -> Rpower 10 (tracked_rate lg captured edd) = Rpower 10 lg + captured) /\
  (Rpower 10 edd < Rpower 10 lg + captured -> Rpower 10 (tracked_rate lg captured edd) = Rpower 10 edd) /\
  1 < Rpower 10 edd.
Proof.
  intros lg c e C E. unfold tracked_rate. assert (P : 0 < Rpower 10 lg) by apply exp_pos. split; [|split].
  - intro L. destruct (Rlt_dec e _) as [K|K]; [|apply pow_log; lra]. exfalso.
    assert (Q := log10_le (Rpower 10 lg + c) (Rpower 10 e) ltac:(lra) L). rewrite log_pow in Q. lra.
  - intro L. destruct (Rlt_dec e _) as [K|K]; [reflexivity|]. exfalso. apply K.
    assert (Q := log10_lt (Rpower 10 e) (Rpower 10 lg + c) ltac:(apply exp_pos) L). rewrite log_pow in Q. lra.
  - unfold Rpower. rewrite <- exp_0. apply exp_increasing. assert (L := ln10_pos). nra.
Qed.
Theorem C123_tracked_refuted : ~ (forall lg captured edd, 0 <= captured -> 0 < edd -> Rpower 10 (tracked_rate lg captured edd) <= edd) /\
  Rpower 10 (tracked_rate (log10 0.001) 0 1e-8) = 0.001 /\ Rpower 10 (recorded_rate (log10 0.001) 0 1e-8) = 1e-8.
Proof.
  assert (T : Rpower 10 (tracked_rate (log10 0.001) 0 1e-8) = 0.001).
  { destruct (C123_tracked (log10 0.001) 0 1e-8) as (A & _ & B); [lra|lra|]. rewrite A; rewrite pow_log by lra; lra. }
  split; [|split; [exact T|]].
  - intro H. specialize (H (log10 0.001) 0 1e-8 ltac:(lra) ltac:(lra)). rewrite T in H. lra.
  - rewrite C123_limited by lra. rewrite pow_log by lra. apply Rmin_right. lra.
Qed.
Print Assumptions C123_limited.
Print Assumptions C123_tracked.
Print Assumptions C123_tracked_refuted.
Example C123_case : Rpower 10 (recorded_rate (log10 1e-9) 1e-9 1e-8) = 2e-9.
Proof. rewrite C123_limited by lra. rewrite pow_log by lra. rewrite Rmin_left by lra. lra. Qed.

(** ** The innermost stable circular orbit *)
Lemma cbrt_cube x : 0 <= x -> cbrt x ^ 3 = x.
Proof.
  intro H. unfold cbrt. destruct (Rlt_dec 0 x) as [P|P]; [|assert (x = 0) by lra; subst; simpl; ring].
  rewrite <- Rpower_pow by apply exp_pos. rewrite Rpower_mult. replace (1 / 3 * INR 3) with 1 by (simpl; lra). apply Rpower_1. exact P.
Qed.
Lemma cbrt_nonneg x : 0 <= cbrt x.
Proof. unfold cbrt. destruct (Rlt_dec 0 x); [left; apply exp_pos|lra]. Qed.
Lemma cube_inj x y : 0 <= x -> 0 <= y -> x ^ 3 = y ^ 3 -> x = y.
Proof.
  intros X Y H. assert (K : (x - y) * (x ^ 2 + x * y + y ^ 2) = 0) by (ring_simplify; lra). apply Rmult_integral in K. destruct K as [K|K]; [lra|].
  assert (x * y >= 0) by nra. assert (x ^ 2 = 0) by nra. assert (y ^ 2 = 0) by nra. assert (x = 0) by nra. assert (y = 0) by nra. lra.
Qed.
Lemma cbrt_mult x y : 0 <= x -> 0 <= y -> cbrt (x * y) = cbrt x * cbrt y.
Proof.
  intros X Y. apply cube_inj; [apply cbrt_nonneg|apply Rmult_le_pos; apply cbrt_nonneg|]. rewrite Rpow_mult_distr, !cbrt_cube; [reflexivity|exact Y|exact X|]. apply Rmult_le_pos; assumption.
Qed.

Section Isco.
Variable a : R.
Hypothesis A0 : 0 <= a.
Hypothesis A1 : a <= 1.
Let z := z1 a - 1.
Lemma z_cube : z ^ 3 = (1 - a ^ 2) * (3 * z + 2).
Proof.
  unfold z, z1. replace (1 - a ^ 2) with ((1 + a) * (1 - a)) by ring. rewrite cbrt_mult by lra. set (p := cbrt (1 + a)). set (q := cbrt (1 - a)).
  assert (P : p ^ 3 = 1 + a) by (apply cbrt_cube; lra). assert (Q : q ^ 3 = 1 - a) by (apply cbrt_cube; lra). rewrite <- P, <- Q.
  transitivity (p ^ 3 * q ^ 3 * (p ^ 3 + q ^ 3 + 3 * (p * q * (p + q)))); [ring|]. replace (p ^ 3 + q ^ 3) with 2 by (rewrite P, Q; ring). ring.
Qed.
Lemma z_nonneg : 0 <= z.
Proof. unfold z, z1. assert (H1 := cbrt_nonneg (1 - a ^ 2)). assert (H2 := cbrt_nonneg (1 + a)). assert (H3 := cbrt_nonneg (1 - a)). assert (0 <= cbrt (1 - a ^ 2) * (cbrt (1 + a) + cbrt (1 - a))) by (apply Rmult_le_pos; lra). lra. Qed.
Lemma z_le2 : z <= 2.
Proof.
  assert (H := z_cube). assert (Z := z_nonneg). destruct (Rle_dec z 2) as [L|L]; [exact L|]. exfalso.
  assert (z ^ 3 <= 3 * z + 2). { rewrite H. assert (0 <= a ^ 2) by nra. nra. } assert (z ^ 3 > 4 * z). { assert (z * z > 4) by nra. nra. } lra.
Qed.
(** a^2 (2 + 3 z) = 2 + 3 z - z^3 *)
Lemma a_of_z : a ^ 2 * (2 + 3 * z) = (1 + z) ^ 2 * (2 - z).
Proof. assert (H := z_cube). nra. Qed.
Lemma z2_sq : z2 a ^ 2 = 3 * a ^ 2 + (1 + z) ^ 2.
Proof. unfold z2. rewrite pow2_sqrt; [unfold z; f_equal; ring|nra]. Qed.
Lemma z2_nonneg : 0 <= z2 a. Proof. apply sqrt_pos. Qed.
Lemma z2_le3 : z2 a <= 3.
Proof.
  assert (H := a_of_z). assert (Z := z_nonneg). assert (Z2 := z_le2). assert (S := z2_sq). assert (N := z2_nonneg).
  assert (K : 3 * a ^ 2 <= 9 - (1 + z) ^ 2). { apply Rmult_le_reg_r with (2 + 3 * z); [lra|]. rewrite Rmult_assoc, H. nra. }
  nra.
Qed.
Let w := sqrt ((3 - z1 a) * (3 + z1 a + 2 * z2 a)).
Lemma w_sq : w ^ 2 = (2 - z) * (4 + z + 2 * z2 a).
Proof. assert (Z := z_nonneg). assert (Z2 := z_le2). assert (N := z2_nonneg). unfold w. rewrite pow2_sqrt; [unfold z; f_equal; ring|]. fold z. apply Rmult_le_pos; unfold z in *; lra. Qed.
Lemma w_nonneg : 0 <= w. Proof. apply sqrt_pos. Qed.
Lemma r_is : r_isco a = 3 + z2 a - w. Proof. reflexivity. Qed.
Lemma r_le6 : r_isco a <= 6. Proof. rewrite r_is. assert (H := z2_le3). assert (W := w_nonneg). lra. Qed.
Lemma r_ge1 : 1 <= r_isco a.
Proof.
  rewrite r_is. assert (Z := z_nonneg). assert (Z2 := z_le2). assert (S := z2_sq). assert (N := z2_nonneg). assert (W := w_nonneg). assert (WS := w_sq). assert (H := a_of_z).
  assert (K : 3 * a ^ 2 >= 3 - z ^ 2). { apply Rle_ge. apply Rmult_le_reg_r with (2 + 3 * z); [lra|]. rewrite Rmult_assoc, H. nra. }
  assert (w ^ 2 <= (2 + z2 a) ^ 2) by nra. nra.
Qed.
(** The quadratic relation that is squared *)
Lemma r_rel : r_isco a ^ 2 - 6 * r_isco a + 3 * a ^ 2 + 2 * (1 + z) ^ 2 = 2 * z2 a * (r_isco a - (1 + z)).
Proof. rewrite r_is. assert (S := z2_sq). assert (WS := w_sq). nra. Qed.
Lemma r_quartic : (r_isco a ^ 2 - 6 * r_isco a - 3 * a ^ 2) ^ 2 = 64 * a ^ 2 * r_isco a.
Proof.
  assert (H := r_rel). assert (S := z2_sq). assert (C := z_cube). set (r := r_isco a) in *.
  assert (E : (r ^ 2 - 6 * r + 3 * a ^ 2 + 2 * (1 + z) ^ 2) ^ 2 = 4 * (3 * a ^ 2 + (1 + z) ^ 2) * (r - (1 + z)) ^ 2) by (rewrite H, <- S; ring).
  replace ((r ^ 2 - 6 * r - 3 * a ^ 2) ^ 2) with ((r ^ 2 - 6 * r + 3 * a ^ 2 + 2 * (1 + z) ^ 2) ^ 2 - 4 * (3 * a ^ 2 + (1 + z) ^ 2) * (r - (1 + z)) ^ 2
    - 8 * r * (z ^ 3 - (1 - a ^ 2) * (3 * z + 2)) + 64 * a ^ 2 * r) by ring.
  rewrite E, C. ring.
Qed.
Lemma r_equation : r_isco a ^ 2 - 6 * r_isco a + 8 * a * sqrt (r_isco a) - 3 * a ^ 2 = 0.
Proof.
  assert (Q := r_quartic). assert (L := r_ge1). assert (U := r_le6). set (r := r_isco a) in *. set (s := sqrt r). assert (SS : s * s = r) by (apply sqrt_sqrt; lra). assert (SP : 0 <= s) by apply sqrt_pos.
  assert (F : (r ^ 2 - 6 * r - 3 * a ^ 2 + 8 * a * s) * (r ^ 2 - 6 * r - 3 * a ^ 2 - 8 * a * s) = 0).
  { replace ((r ^ 2 - 6 * r - 3 * a ^ 2 + 8 * a * s) * (r ^ 2 - 6 * r - 3 * a ^ 2 - 8 * a * s)) with ((r ^ 2 - 6 * r - 3 * a ^ 2) ^ 2 - 64 * a ^ 2 * (s * s)) by ring. rewrite SS, Q. ring. }
  apply Rmult_integral in F. destruct F as [F|F]; [lra|]. assert (P1 : 0 <= a * s) by (apply Rmult_le_pos; assumption). assert (P2 : r ^ 2 - 6 * r <= 0) by nra. assert (P3 : 0 <= a ^ 2) by nra. lra.
Qed.
(** v = sqrt (3 r - 2) *)
Lemma spin_of_r : a = sqrt (r_isco a) / 3 * (4 - sqrt (3 * r_isco a - 2)).
Proof.
  assert (E := r_equation). assert (L := r_ge1). set (r := r_isco a) in *. set (s := sqrt r) in *. assert (SS : s * s = r) by (apply sqrt_sqrt; lra). assert (SP : 0 <= s) by apply sqrt_pos.
  set (v := sqrt (3 * r - 2)). assert (VV : v * v = 3 * r - 2) by (apply sqrt_sqrt; lra). assert (VP : 0 <= v) by apply sqrt_pos. assert (S1 : 1 <= s) by nra.
  assert (F : (3 * a - 4 * s + s * v) * (3 * a - 4 * s - s * v) = 0).
  { replace ((3 * a - 4 * s + s * v) * (3 * a - 4 * s - s * v)) with (9 * a ^ 2 - 24 * a * s + 16 * (s * s) - (s * s) * (v * v)) by ring. rewrite SS, VV. nra. }
  apply Rmult_integral in F. destruct F as [F|F]; [lra|]. assert (0 <= s * v) by (apply Rmult_le_pos; assumption). lra.
Qed.
End Isco.

(** C125, the radius: it solves the equation of the marginally stable orbits (Bardeen, Press and Teukolsky 1972, equation 2.21), and among those
    with the same sense of rotation. *)
Theorem C125_radius : forall a, 0 <= a <= 1 ->
  1 <= r_isco a <= 6 /\ r_isco a ^ 2 - 6 * r_isco a + 8 * a * sqrt (r_isco a) - 3 * a ^ 2 = 0.
Proof. intros a [A0 A1]. split; [split; [apply r_ge1|apply r_le6]|apply r_equation]; assumption. Qed.
Print Assumptions C125_radius.

(** The spin as a function of the radius of the orbit, and its monotony *)
Definition spin_at (y : R) : R := y / 3 * (4 - sqrt (3 * y ^ 2 - 2)).
Lemma poly_step u1 u2 : 0 <= u1 -> u1 <= u2 -> u2 <= 3 -> 4 * (u2 ^ 2 + u1 * u2 + u1 ^ 2) - (u2 ^ 3 + u2 ^ 2 * u1 + u2 * u1 ^ 2 + u1 ^ 3) >= (u2 - u1) * u2.
Proof.
  intros H1 H2 H3. assert (0 <= (3 - u2) * (u2 * u2)) by (apply Rmult_le_pos; [lra|nra]). assert (0 <= (3 - u2) * (u1 * u2)) by (apply Rmult_le_pos; [lra|nra]). assert (0 <= (3 - u2) * (u1 * u1)) by (apply Rmult_le_pos; [lra|nra]).
  assert (0 <= (3 - u1) * (u1 * u1)) by (apply Rmult_le_pos; [lra|nra]). assert (0 <= (u2 - u1) * u1) by (apply Rmult_le_pos; lra). lra.
Qed.
Lemma spin_at_mono y1 y2 : 1 <= y1 -> y1 <= y2 -> y2 ^ 2 <= 6 -> spin_at y2 <= spin_at y1.
Proof.
  intros H1 H2 H3. unfold spin_at. set (v1 := sqrt (3 * y1 ^ 2 - 2)). set (v2 := sqrt (3 * y2 ^ 2 - 2)).
  assert (V1 : v1 * v1 = 3 * y1 ^ 2 - 2) by (apply sqrt_sqrt; nra). assert (V2 : v2 * v2 = 3 * y2 ^ 2 - 2) by (apply sqrt_sqrt; nra).
  assert (P1 : 0 <= v1) by apply sqrt_pos. assert (P2 : 0 <= v2) by apply sqrt_pos.
  assert (G1 : 1 <= v1) by nra. assert (G2 : v2 <= 4) by nra. assert (G3 : v1 <= v2) by (apply sqrt_le_1; nra).
  set (u1 := v1 - 1). set (u2 := v2 - 1). assert (B1 : 0 <= u1) by (unfold u1; lra). assert (B2 : u2 <= 3) by (unfold u2; lra). assert (B3 : u1 <= u2) by (unfold u1, u2; lra).
  assert (K : u1 ^ 3 * (4 - u1) <= u2 ^ 3 * (4 - u2)).
  { assert (F : 0 <= (u2 - u1) * (4 * (u2 ^ 2 + u1 * u2 + u1 ^ 2) - (u2 ^ 3 + u2 ^ 2 * u1 + u2 * u1 ^ 2 + u1 ^ 3))).
    { apply Rmult_le_pos; [lra|]. assert (PS := poly_step u1 u2 B1 B3 B2). assert (0 <= (u2 - u1) * u2) by (apply Rmult_le_pos; lra). lra. }
    lra. }
  assert (Y1 : 3 * y1 ^ 2 = v1 * v1 + 2) by lra. assert (Y2 : 3 * y2 ^ 2 = v2 * v2 + 2) by lra.
  assert (SQ : (y2 / 3 * (4 - v2)) ^ 2 <= (y1 / 3 * (4 - v1)) ^ 2).
  { replace ((y2 / 3 * (4 - v2)) ^ 2) with ((3 * y2 ^ 2) * (4 - v2) ^ 2 / 27) by field. replace ((y1 / 3 * (4 - v1)) ^ 2) with ((3 * y1 ^ 2) * (4 - v1) ^ 2 / 27) by field. rewrite Y1, Y2. unfold u1, u2 in K. nra. }
  assert (Q1 : 0 <= y1 / 3 * (4 - v1)) by (apply Rmult_le_pos; lra). assert (Q2 : 0 <= y2 / 3 * (4 - v2)) by (apply Rmult_le_pos; lra). nra.
Qed.
Lemma spin_at_1 : spin_at 1 = 1.
Proof. unfold spin_at. replace (3 * 1 ^ 2 - 2) with 1 by ring. rewrite sqrt_1. field. Qed.
Lemma sqrt_sq_pow x : 0 <= x -> sqrt x ^ 2 = x.
Proof. intro H. rewrite <- Rsqr_pow2. apply Rsqr_sqrt. exact H. Qed.
Lemma spin_at_isco a : 0 <= a <= 1 -> spin_at (sqrt (r_isco a)) = a.
Proof. intros [A0 A1]. unfold spin_at. rewrite sqrt_sq_pow by (assert (H := r_ge1 a A0 A1); lra). symmetry. apply spin_of_r; assumption. Qed.
Lemma spin_at_strict y1 y2 : 1 <= y1 -> y1 < y2 -> y2 ^ 2 <= 6 -> spin_at y2 < spin_at y1.
Proof.
  intros H1 H2 H3. destruct (spin_at_mono y1 y2 H1 (Rlt_le _ _ H2) H3) as [L|E]; [exact L|exfalso]. unfold spin_at in E. set (v1 := sqrt (3 * y1 ^ 2 - 2)) in *. set (v2 := sqrt (3 * y2 ^ 2 - 2)) in *.
  assert (V1 : v1 * v1 = 3 * y1 ^ 2 - 2) by (apply sqrt_sqrt; nra). assert (V2 : v2 * v2 = 3 * y2 ^ 2 - 2) by (apply sqrt_sqrt; nra).
  assert (P1 : 0 <= v1) by apply sqrt_pos. assert (P2 : 0 <= v2) by apply sqrt_pos. assert (G1 : 1 <= v1) by nra. assert (G2 : v2 <= 4) by nra. assert (G3 : v1 < v2) by (apply sqrt_lt_1; nra).
  assert (SQ : (3 * y2 ^ 2) * (4 - v2) ^ 2 = (3 * y1 ^ 2) * (4 - v1) ^ 2).
  { replace ((3 * y2 ^ 2) * (4 - v2) ^ 2) with (27 * (y2 / 3 * (4 - v2)) ^ 2) by field. rewrite E. field. }
  replace (3 * y1 ^ 2) with (v1 * v1 + 2) in SQ by lra. replace (3 * y2 ^ 2) with (v2 * v2 + 2) in SQ by lra.
  set (u1 := v1 - 1) in *. set (u2 := v2 - 1) in *. assert (B1 : 0 <= u1) by (unfold u1; lra). assert (B2 : u2 <= 3) by (unfold u2; lra). assert (B3 : u1 < u2) by (unfold u1, u2; lra).
  assert (K : (u2 - u1) * (4 * (u2 ^ 2 + u1 * u2 + u1 ^ 2) - (u2 ^ 3 + u2 ^ 2 * u1 + u2 * u1 ^ 2 + u1 ^ 3)) = 0) by (unfold u1, u2; nra).
  apply Rmult_integral in K. destruct K as [K|K]; [lra|]. assert (PS := poly_step u1 u2 B1 (Rlt_le _ _ B3) B2). assert (0 < (u2 - u1) * u2) by (apply Rmult_lt_0_compat; lra). lra.
Qed.

(** ** C124: the spin of a black hole that accretes from a disk *)
Lemma valid a m m' : 0 <= a -> 0 < m -> 0 < m' -> spin_stable_mass_transfer (Some a) (Some m) (Some m') =
  if le 1 (m' / m) && le (m' / m) (sqrt (r_isco a)) then Spin (sqrt (r_isco a) / 3 * (m / m') * (4 - sqrt (3 * r_isco a * m ^ 2 / m' ^ 2 - 2)))
  else if lt (sqrt (r_isco a)) (m' / m) then Spin 1 else NaNSpin.
Proof.
  intros A M M'. unfold spin_stable_mass_transfer, nothing, value. unfold le at 1 2, lt at 1. destruct (Rle_dec m 0); [lra|]. destruct (Rle_dec m' 0); [lra|]. destruct (Rlt_dec a 0); [lra|]. reflexivity.
Qed.
Lemma spin_formula a m m' : 0 <= a <= 1 -> 0 < m -> m <= m' -> m' / m <= sqrt (r_isco a) ->
  spin_stable_mass_transfer (Some a) (Some m) (Some m') = Spin (spin_at (sqrt (r_isco a) * (m / m'))).
Proof.
  intros [A0 A1] M L H. assert (R1 := r_ge1 a A0 A1). rewrite valid by lra. assert (Q : 1 <= m' / m) by (apply Rmult_le_reg_r with m; [exact M|]; unfold Rdiv; rewrite Rmult_assoc, Rinv_l by lra; lra).
  unfold le. destruct (Rle_dec 1 (m' / m)); [|lra]. destruct (Rle_dec (m' / m) (sqrt (r_isco a))); [|lra]. cbn [andb]. f_equal. unfold spin_at.
  rewrite Rpow_mult_distr, sqrt_sq_pow by lra. replace (3 * (r_isco a * (m / m') ^ 2)) with (3 * r_isco a * m ^ 2 / m' ^ 2) by (field; lra). unfold Rdiv. ring.
Qed.
Lemma spin_full a m m' : 0 <= a <= 1 -> 0 < m -> 0 < m' -> sqrt (r_isco a) < m' / m -> spin_stable_mass_transfer (Some a) (Some m) (Some m') = Spin 1.
Proof. intros [A0 A1] M M' H. rewrite valid by lra. unfold le, lt. destruct (Rle_dec (m' / m) (sqrt (r_isco a))); [lra|]. destruct (Rlt_dec (sqrt (r_isco a)) (m' / m)); [|lra]. rewrite andb_false_r. reflexivity. Qed.

Definition spin_of (x : spin_value) : R := match x with Spin a => a | _ => 0 end.
Lemma arg_range a m m' : 0 <= a <= 1 -> 0 < m -> m <= m' -> m' / m <= sqrt (r_isco a) -> 1 <= sqrt (r_isco a) * (m / m') <= sqrt (r_isco a) /\ sqrt (r_isco a) ^ 2 <= 6.
Proof.
  intros [A0 A1] M L H. assert (R1 := r_ge1 a A0 A1). assert (R6 := r_le6 a A0 A1). assert (S := sqrt_sq_pow (r_isco a) ltac:(lra)). assert (P := sqrt_pos (r_isco a)).
  assert (Q : m' <= sqrt (r_isco a) * m) by (apply Rmult_le_reg_r with (/ m); [apply Rinv_0_lt_compat; exact M|]; rewrite Rmult_assoc, Rinv_r by lra; unfold Rdiv in H; lra).
  assert (I : m / m' <= 1) by (apply Rmult_le_reg_r with m'; [lra|]; unfold Rdiv; rewrite Rmult_assoc, Rinv_l by lra; lra).
  split; [|lra]. split; [|nra]. apply Rmult_le_reg_r with m'; [lra|]. replace (sqrt (r_isco a) * (m / m') * m') with (sqrt (r_isco a) * m) by (field; lra). lra.
Qed.

(** For a black hole that gains mass there always is a spin, between the old one and 1; without gain it is the old one; it grows with the mass
    gained until it is 1, when the mass has grown by the square root of the radius of the orbit. *)
Theorem C124_spin : forall a m m', 0 <= a <= 1 -> 0 < m -> m <= m' ->
  exists s, spin_stable_mass_transfer (Some a) (Some m) (Some m') = Spin s /\ a <= s <= 1 /\
    (m' = m -> s = a) /\ (s = 1 <-> a = 1 \/ sqrt (r_isco a) <= m' / m).
Proof.
  intros a m m' A M L. assert (A' := A). destruct A' as [A0 A1]. destruct (Rle_dec (m' / m) (sqrt (r_isco a))) as [H|H].
  - destruct (arg_range a m m' A M L H) as [[B1 B2] B3]. rewrite spin_formula by assumption. eexists. split; [reflexivity|].
    assert (S := spin_at_isco a A). assert (LO : a <= spin_at (sqrt (r_isco a) * (m / m'))) by (rewrite <- S at 1; apply spin_at_mono; assumption).
    assert (HI : spin_at (sqrt (r_isco a) * (m / m')) <= 1) by (rewrite <- spin_at_1; apply spin_at_mono; [lra|exact B1|nra]).
    split; [split; assumption|]. split; [intros ->; replace (m / m) with 1 by (field; lra); rewrite Rmult_1_r; exact S|]. split.
    + intro E. destruct B1 as [B1|B1].
      * exfalso. assert (K : spin_at (sqrt (r_isco a) * (m / m')) < spin_at 1) by (apply spin_at_strict; [lra|exact B1|nra]). rewrite spin_at_1 in K. lra.
      * right. right. apply Rmult_eq_reg_r with (m / m'); [rewrite <- B1; field; lra|]. assert (0 < m / m') by (apply Rdiv_lt_0_compat; lra). lra.
    + intros [E|E]; [lra|]. assert (EQ : sqrt (r_isco a) = m' / m) by lra. rewrite EQ. replace (m' / m * (m / m')) with 1 by (field; lra). apply spin_at_1.
  - assert (H' : sqrt (r_isco a) < m' / m) by lra. rewrite spin_full by (assumption || lra). exists 1. split; [reflexivity|]. split; [lra|]. split.
    + intros ->. exfalso. assert (R1 := r_ge1 a A0 A1). assert (S := sqrt_sq_pow (r_isco a) ltac:(lra)). assert (P := sqrt_pos (r_isco a)). replace (m / m) with 1 in H' by (field; lra). nra.
    + split; [intros _; right; lra|reflexivity].
Qed.
Theorem C124_monotone : forall a m m1 m2, 0 <= a <= 1 -> 0 < m -> m <= m1 -> m1 <= m2 ->
  spin_of (spin_stable_mass_transfer (Some a) (Some m) (Some m1)) <= spin_of (spin_stable_mass_transfer (Some a) (Some m) (Some m2)).
Proof.
  intros a m m1 m2 A M L1 L2. destruct (C124_spin a m m1 A M L1) as (s1 & E1 & B1 & _). destruct (C124_spin a m m2 A M ltac:(lra)) as (s2 & E2 & B2 & _).
  destruct (Rle_dec (m2 / m) (sqrt (r_isco a))) as [H|H].
  - assert (H1 : m1 / m <= sqrt (r_isco a)). { apply Rle_trans with (m2 / m); [|exact H]. apply Rmult_le_compat_r; [left; apply Rinv_0_lt_compat; exact M|exact L2]. }
    rewrite !spin_formula by (assumption || lra). cbn. destruct (arg_range a m m1 A M L1 H1) as [[B3 B4] B5]. destruct (arg_range a m m2 A M ltac:(lra) H) as [[B6 B7] _].
    apply spin_at_mono; [exact B6| |nra]. apply Rmult_le_compat_l; [apply sqrt_pos|]. apply Rmult_le_compat_l; [lra|]. apply Rinv_le_contravar; lra.
  - rewrite (spin_full a m m2) by (assumption || lra). rewrite E1. cbn. lra.
Qed.
(** A loss of mass gives NaN; missing or impossible values None. *)
Theorem C124_undefined : forall a m m', 
  (0 <= a <= 1 -> 0 < m' -> m' < m -> spin_stable_mass_transfer (Some a) (Some m) (Some m') = NaNSpin) /\
  (a < 0 -> spin_stable_mass_transfer (Some a) (Some m) (Some m') = NoSpin) /\
  (m <= 0 -> spin_stable_mass_transfer (Some a) (Some m) (Some m') = NoSpin) /\
  (m' <= 0 -> spin_stable_mass_transfer (Some a) (Some m) (Some m') = NoSpin) /\
  (forall x y, spin_stable_mass_transfer None x y = NoSpin /\ spin_stable_mass_transfer x None y = NoSpin /\ spin_stable_mass_transfer x y None = NoSpin).
Proof.
  intros a m m'. split; [|split; [|split; [|split]]].
  - intros [A0 A1] P L. rewrite valid by lra. assert (R1 := r_ge1 a A0 A1). assert (S := sqrt_sq_pow (r_isco a) ltac:(lra)). assert (Q := sqrt_pos (r_isco a)).
    assert (K : m' / m < 1) by (apply Rmult_lt_reg_r with m; [lra|]; unfold Rdiv; rewrite Rmult_assoc, Rinv_l by lra; lra). unfold le, lt. destruct (Rle_dec 1 (m' / m)); [lra|]. cbn [andb]. destruct (Rlt_dec _ _); [nra|reflexivity].
  - intro H. unfold spin_stable_mass_transfer, nothing, lt. destruct (Rlt_dec a 0); [|lra]. rewrite !orb_true_r. reflexivity.
  - intro H. unfold spin_stable_mass_transfer, nothing, le. destruct (Rle_dec m 0); [|lra]. reflexivity.
  - intro H. unfold spin_stable_mass_transfer, nothing, le. destruct (Rle_dec m' 0); [|lra]. rewrite orb_true_r. reflexivity.
  - intros x y. unfold spin_stable_mass_transfer. cbn [nothing]. rewrite !orb_true_r. split; [reflexivity|]. split; reflexivity.
Qed.
Print Assumptions C124_spin.
Print Assumptions C124_monotone.
Print Assumptions C124_undefined.
(** Without spin the orbit is at 6 gravitational radii, at the highest spin at 1. *)
Lemma cbrt_1 : cbrt 1 = 1.
Proof. unfold cbrt. destruct (Rlt_dec 0 1); [|lra]. unfold Rpower. rewrite ln_1, Rmult_0_r. apply exp_0. Qed.
Lemma cbrt_0 : cbrt 0 = 0.
Proof. unfold cbrt. destruct (Rlt_dec 0 0); lra. Qed.
Example C125_ends : r_isco 0 = 6 /\ r_isco 1 = 1.
Proof.
  split; unfold r_isco, z2, z1.
  - replace (1 - 0 ^ 2) with 1 by ring. replace (1 + 0) with 1 by ring. replace (1 - 0) with 1 by ring. rewrite cbrt_1. replace (3 * 0 ^ 2 + (1 + 1 * (1 + 1)) ^ 2) with (3 ^ 2) by ring. rewrite sqrt_pow2 by lra.
    replace ((3 - (1 + 1 * (1 + 1))) * (3 + (1 + 1 * (1 + 1)) + 2 * 3)) with 0 by ring. rewrite sqrt_0. ring.
  - replace (1 - 1 ^ 2) with 0 by ring. rewrite cbrt_0. rewrite Rmult_0_l, Rplus_0_r. replace (3 * 1 ^ 2 + 1 ^ 2) with (2 ^ 2) by ring. rewrite sqrt_pow2 by lra. replace ((3 - 1) * (3 + 1 + 2 * 2)) with (4 ^ 2) by ring. rewrite sqrt_pow2 by lra. ring.
Qed.
(** The textbook case: a black hole without spin is spun up to 1 when its mass is sqrt 6 times the first one. *)
Example C124_case : spin_stable_mass_transfer (Some 0) (Some 10) (Some (10 * sqrt 6)) = Spin 1 /\ spin_stable_mass_transfer (Some 0) (Some 10) (Some 30) = Spin 1 /\
  spin_stable_mass_transfer (Some 0) (Some 10) (Some (10 * sqrt 2)) = Spin (sqrt 3 / 3 * (4 - sqrt 7)).
Proof.
  assert (S6 : sqrt 6 * sqrt 6 = 6) by (apply sqrt_sqrt; lra). assert (P6 := sqrt_pos 6). assert (S2 : sqrt 2 * sqrt 2 = 2) by (apply sqrt_sqrt; lra). assert (P2 := sqrt_pos 2). destruct C125_ends as [R0 _].
  assert (B6 : 2 < sqrt 6 < 3) by nra. assert (B2 : 1 < sqrt 2 < 2) by nra. split; [|split].
  - destruct (C124_spin 0 10 (10 * sqrt 6)) as (s & E & _ & _ & I); [lra|lra|nra|]. rewrite E. f_equal. apply I. right. rewrite R0. right. field.
  - apply spin_full; [lra|lra|lra|]. rewrite R0. lra.
  - rewrite spin_formula; [|lra|lra|nra|rewrite R0; apply Rle_trans with (sqrt 2); [right; field|]; nra]. rewrite R0. f_equal. unfold spin_at.
    assert (E : sqrt 6 * (10 / (10 * sqrt 2)) = sqrt 3). { replace 6 with (2 * 3) by ring. rewrite sqrt_mult by lra. field. lra. }
    rewrite E. replace (sqrt 3 ^ 2) with 3 by (symmetry; apply sqrt_sq_pow; lra). replace (3 * 3 - 2) with 7 by ring. reflexivity.
Qed.

(** ** C125: angular momentum and energy of the orbit *)
Definition r_cm (x : R * R * R) := fst (fst x).
Definition j_cgs (x : R * R * R) := snd (fst x).
Definition eff (x : R * R * R) := snd x.
Lemma Rpower_sqrt_34 r : 0 < r -> Rpower r (3 / 4) = sqrt r * sqrt (sqrt r).
Proof.
  intro H. rewrite <- (Rpower_sqrt (sqrt r)) by (apply sqrt_lt_R0; exact H). rewrite <- !(Rpower_sqrt r) by exact H. rewrite Rpower_mult, <- Rpower_plus. f_equal. lra.
Qed.
Lemma Rpower_32 r : 0 < r -> Rpower r (3 / 2) = r * sqrt r.
Proof. intro H. rewrite <- Rpower_sqrt by exact H. rewrite <- (Rpower_1 r) at 2 by exact H. rewrite <- Rpower_plus. f_equal. lra. Qed.

(** The angular momentum is that of equation 5 of Batta and Ramirez-Ruiz (2019), which the comment of the code claims. *)
Theorem C125_momentum : forall a m, 0 <= a < 1 ->
  j_cgs (compute_isco_properties a m) = 2 / (3 * sqrt 3) * (1 + 2 * sqrt (3 * r_isco a - 2)) * (standard_cgrav * m / clight).
Proof.
  intros a m [A0 A1]. assert (A1' : a <= 1) by lra. unfold compute_isco_properties, j_cgs. cbn [fst snd]. assert (L := r_ge1 a A0 A1'). assert (SP := spin_of_r a A0 A1'). set (r := r_isco a) in *.
  rewrite Rpower_sqrt_34, Rpower_32 by lra. set (s := sqrt r) in *. assert (SS : s * s = r) by (apply sqrt_sqrt; lra). assert (S0 : 0 <= s) by apply sqrt_pos. assert (S1 : 1 <= s) by nra.
  set (v := sqrt (3 * r - 2)) in *. assert (VV : v * v = 3 * r - 2) by (apply sqrt_sqrt; lra). assert (V0 : 0 <= v) by apply sqrt_pos.
  assert (V1 : 1 < v). { destruct (Rlt_dec 1 v) as [H|H]; [exact H|exfalso]. assert (v = 1) by nra. assert (r = 1) by nra. assert (s = 1) by nra. rewrite H0, H2 in SP. lra. }
  assert (D : r * s - 3 * s + 2 * a = s * ((v - 1) ^ 2 / 3)). { rewrite SP. replace r with ((v * v + 2) / 3) by lra. field. }
  rewrite D. rewrite sqrt_mult by nra. rewrite sqrt_div by nra. rewrite sqrt_pow2 by lra.
  assert (SS2 : sqrt s * sqrt s = s) by (apply sqrt_sqrt; exact S0). assert (SS0 : 0 < sqrt s) by (apply sqrt_lt_R0; lra). assert (T0 : 0 < sqrt 3) by (apply sqrt_lt_R0; lra). assert (T3 : sqrt 3 * sqrt 3 = 3) by (apply sqrt_sqrt; lra).
  assert (N : r ^ 2 - 2 * a * s + a ^ 2 = r * (2 * (2 * v + 1) * (v - 1) / 9)).
  { rewrite SP. replace (2 * (s / 3 * (4 - v)) * s) with (2 * (r / 3 * (4 - v))) by (rewrite <- SS; field). replace ((s / 3 * (4 - v)) ^ 2) with (r / 9 * (4 - v) ^ 2) by (rewrite <- SS; field).
    replace (r ^ 2) with (r * ((v * v + 2) / 3)) by (replace ((v * v + 2) / 3) with r by lra; ring). field. }
  rewrite N. replace (s * sqrt s * (sqrt s * ((v - 1) / sqrt 3))) with (s * (sqrt s * sqrt s) * ((v - 1) / sqrt 3)) by ring. rewrite SS2, SS.
  replace (2 / (3 * sqrt 3)) with (2 * sqrt 3 / 9). 2:{ apply Rmult_eq_reg_r with (3 * sqrt 3); [|lra]. replace (2 * sqrt 3 / 9 * (3 * sqrt 3)) with (2 * (sqrt 3 * sqrt 3) / 3) by field. rewrite T3. field. lra. }
  unfold clight. field. repeat split; lra.
Qed.
Print Assumptions C125_momentum.
(** More momentum for a heavier hole and a wider orbit; at most that of a hole without spin. *)
Theorem C125_range : forall a m, 0 <= a < 1 -> 0 < m ->
  2 / sqrt 3 * (standard_cgrav * m / clight) < j_cgs (compute_isco_properties a m) <= 2 * sqrt 3 * (standard_cgrav * m / clight) /\
  standard_cgrav * m / clight ^ 2 <= r_cm (compute_isco_properties a m) <= 6 * (standard_cgrav * m / clight ^ 2) /\
  1 / sqrt 3 <= eff (compute_isco_properties a m) <= sqrt (8 / 9).
Proof.
  intros a m [A0 A1] M. assert (A1' : a <= 1) by lra. rewrite C125_momentum by lra. assert (L := r_ge1 a A0 A1'). assert (U := r_le6 a A0 A1'). assert (SP := spin_of_r a A0 A1'). unfold r_cm, eff, compute_isco_properties. cbn [fst snd]. set (r := r_isco a) in *.
  set (v := sqrt (3 * r - 2)) in *. assert (VV : v * v = 3 * r - 2) by (apply sqrt_sqrt; lra). assert (V0 : 0 <= v) by apply sqrt_pos.
  assert (V1 : 1 < v). { destruct (Rlt_dec 1 v) as [H|H]; [exact H|exfalso]. assert (v = 1) by nra. assert (r = 1) by nra. rewrite H0, H1, sqrt_1 in SP. lra. }
  assert (V4 : v <= 4) by nra. assert (T0 : 0 < sqrt 3) by (apply sqrt_lt_R0; lra). assert (T3 : sqrt 3 * sqrt 3 = 3) by (apply sqrt_sqrt; lra).
  assert (K : 0 < standard_cgrav * m / clight) by (apply Rdiv_lt_0_compat; [apply Rmult_lt_0_compat; [unfold standard_cgrav; lra|exact M]|unfold clight; lra]).
  assert (K2 : 0 < standard_cgrav * m / clight ^ 2) by (apply Rdiv_lt_0_compat; [apply Rmult_lt_0_compat; [unfold standard_cgrav; lra|exact M]|apply pow_lt; unfold clight; lra]).
  assert (I3 : / sqrt 3 = sqrt 3 / 3) by (apply Rmult_eq_reg_r with (sqrt 3); [rewrite Rinv_l by lra; unfold Rdiv; rewrite Rmult_comm, <- Rmult_assoc, T3; lra|lra]).
  assert (F1 : 2 / (3 * sqrt 3) * (1 + 2 * v) > 2 / sqrt 3). { replace (2 / (3 * sqrt 3)) with (2 / 3 * / sqrt 3) by (field; lra). replace (2 / sqrt 3) with (2 * / sqrt 3) by reflexivity. assert (0 < / sqrt 3) by (apply Rinv_0_lt_compat; exact T0). nra. }
  assert (F2 : 2 / (3 * sqrt 3) * (1 + 2 * v) <= 2 * sqrt 3). { replace (2 / (3 * sqrt 3)) with (2 / 3 * / sqrt 3) by (field; lra). rewrite I3. nra. }
  split; [split; apply Rmult_lt_compat_r || apply Rmult_le_compat_r; lra|]. split; [split; nra|]. split.
  - apply Rsqr_incr_0_var; [|apply sqrt_pos]. unfold Rsqr. assert (W : 2 / (3 * r) <= 2 / 3). { unfold Rdiv. apply Rmult_le_compat_l; [lra|]. apply Rinv_le_contravar; lra. }
    rewrite sqrt_sqrt by lra. replace (1 / sqrt 3) with (sqrt 3 / 3) by (unfold Rdiv at 2; rewrite I3; lra). nra.
  - apply sqrt_le_1_alt. assert (W : 2 / (3 * 6) <= 2 / (3 * r)). { unfold Rdiv. apply Rmult_le_compat_l; [lra|]. apply Rinv_le_contravar; lra. } lra.
Qed.
Print Assumptions C125_range.
(** The efficiency is the energy of the orbit (Bardeen, Press and Teukolsky 1972, equation 2.12). *)
Theorem C125_energy : forall a m, 0 <= a < 1 ->
  eff (compute_isco_properties a m) = (Rpower (r_isco a) (3 / 2) - 2 * sqrt (r_isco a) + a) / (Rpower (r_isco a) (3 / 4) * sqrt (Rpower (r_isco a) (3 / 2) - 3 * sqrt (r_isco a) + 2 * a)).
Proof.
  intros a m [A0 A1]. assert (A1' : a <= 1) by lra. unfold compute_isco_properties, eff. cbn [snd]. assert (L := r_ge1 a A0 A1'). assert (SP := spin_of_r a A0 A1'). set (r := r_isco a) in *.
  rewrite Rpower_sqrt_34, Rpower_32 by lra. set (s := sqrt r) in *. assert (SS : s * s = r) by (apply sqrt_sqrt; lra). assert (S0 : 0 <= s) by apply sqrt_pos. assert (S1 : 1 <= s) by nra.
  set (v := sqrt (3 * r - 2)) in *. assert (VV : v * v = 3 * r - 2) by (apply sqrt_sqrt; lra). assert (V0 : 0 <= v) by apply sqrt_pos.
  assert (V1 : 1 < v). { destruct (Rlt_dec 1 v) as [H|H]; [exact H|exfalso]. assert (v = 1) by nra. assert (r = 1) by nra. assert (s = 1) by nra. rewrite H0, H2 in SP. lra. }
  assert (D : r * s - 3 * s + 2 * a = s * ((v - 1) ^ 2 / 3)). { rewrite SP. replace r with ((v * v + 2) / 3) by lra. field. }
  rewrite D. rewrite sqrt_mult by nra. rewrite sqrt_div by nra. rewrite sqrt_pow2 by lra.
  assert (SS2 : sqrt s * sqrt s = s) by (apply sqrt_sqrt; exact S0). assert (SS0 : 0 < sqrt s) by (apply sqrt_lt_R0; lra). assert (T0 : 0 < sqrt 3) by (apply sqrt_lt_R0; lra). assert (T3 : sqrt 3 * sqrt 3 = 3) by (apply sqrt_sqrt; lra).
  assert (N : r * s - 2 * s + a = s * (v * (v - 1) / 3)). { rewrite SP. replace r with ((v * v + 2) / 3) by lra. field. }
  rewrite N. replace (s * sqrt s * (sqrt s * ((v - 1) / sqrt 3))) with (s * (sqrt s * sqrt s) * ((v - 1) / sqrt 3)) by ring. rewrite SS2.
  replace (s * (v * (v - 1) / 3) / (s * s * ((v - 1) / sqrt 3))) with (v * sqrt 3 / (3 * s)) by (field; repeat split; lra).
  apply sqrt_lem_1; [|apply Rmult_le_pos; [apply Rmult_le_pos; lra|left; apply Rinv_0_lt_compat; lra]|].
  - assert (W : 2 / (3 * r) <= 2 / 3) by (unfold Rdiv; apply Rmult_le_compat_l; [lra|]; apply Rinv_le_contravar; lra). lra.
  - replace (v * sqrt 3 / (3 * s) * (v * sqrt 3 / (3 * s))) with ((v * v) * (sqrt 3 * sqrt 3) / (9 * (s * s))) by (field; lra). rewrite VV, T3, SS. field. lra.
Qed.
Print Assumptions C125_energy.
