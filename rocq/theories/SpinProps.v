(** Masses and spins of merging binaries: property C48. *)
From Coq Require Import List Bool PeanoNat Reals Lia Lra.
From Coquelicot Require Import Coquelicot.
From Verif Require Import RealLemmas OrbitModel SpinModel.
Import ListNotations.
Open Scope R_scope.

(** ** Mass ratio: the smaller mass over the larger. *)
Theorem C48_mass_ratio :
  forall (m n : list fl) i x y, nth_error m i = Some (Some x) -> nth_error n i = Some (Some y) -> 0 < x -> 0 < y ->
  exists q, nth_error (mass_ratio m n) i = Some (Some q) /\ nth_error (mass_ratio n m) i = Some (Some q) /\
    q = Rmin x y / Rmax x y /\ 0 < q <= 1 /\ (q = 1 <-> x = y).
Proof.
  assert (ONE : forall (m n : list fl) i x y, nth_error m i = Some (Some x) -> nth_error n i = Some (Some y) -> 0 < x -> 0 < y ->
    nth_error (mass_ratio m n) i = Some (Some (Rmin x y / Rmax x y))).
  { intros m n i x y M N X Y. unfold mass_ratio.
    assert (C : nth_error (combine m n) i = Some (Some x, Some y)).
    { revert n i M N. induction m as [|a m IH]; intros [|b n] [|i] M N; try discriminate; cbn in *; try congruence. now apply IH. }
    rewrite !nth_error_map, C. cbn [option_map fst snd lift2].
    destruct (Rlt_dec 1 (y / x)) as [L|L].
    - apply Rlt_div_r in L; [|lra]. rewrite Rmin_left, Rmax_right by lra. do 2 f_equal. field. lra.
    - apply Rnot_lt_le in L. apply Rle_div_l in L; [|lra]. rewrite Rmin_right, Rmax_left by lra. reflexivity. }
  intros m n i x y M N X Y. exists (Rmin x y / Rmax x y).
  split; [now apply ONE|]. split; [rewrite Rmin_comm, Rmax_comm; now apply ONE|]. split; [easy|].
  assert (P : 0 < Rmin x y) by now apply Rmin_pos.
  assert (Q : Rmin x y <= Rmax x y) by (unfold Rmin, Rmax; destruct (Rle_dec x y); lra).
  split; [split; [apply Rdiv_lt_0_compat; lra|apply Rle_div_l; lra]|].
  split.
  - intros E. assert (Rmin x y = Rmax x y).
    { apply (f_equal (fun t => t * Rmax x y)) in E. rewrite Rmult_1_l in E. unfold Rdiv in E.
      rewrite Rmult_assoc, Rinv_l, Rmult_1_r in E by lra. exact E. }
    unfold Rmin, Rmax in *. destruct (Rle_dec x y); lra.
  - intros ->. rewrite Rmin_left, Rmax_left by lra. field. lra.
Qed.
Print Assumptions C48_mass_ratio.

Theorem C48_mass_ratio_undefined :
  forall (m n : list fl) i x y, nth_error m i = Some x -> nth_error n i = Some y -> x = None \/ y = None ->
  nth_error (mass_ratio m n) i = Some None.
Proof.
  intros m n i x y M N H. unfold mass_ratio.
  assert (C : nth_error (combine m n) i = Some (x, y)).
  { revert n i M N. induction m as [|a m IH]; intros [|b n] [|i] M N; try discriminate; cbn in *; try congruence. now apply IH. }
  rewrite !nth_error_map, C. cbn. destruct H as [-> | ->]; [destruct y|]; reflexivity.
Qed.
Print Assumptions C48_mass_ratio_undefined.

(** ** Chirp mass *)
Lemma chirp_pos x y : 0 < m_chirp x y.
Proof. unfold m_chirp. apply Rdiv_lt_0_compat; apply Rpower_pos. Qed.
Lemma fifth x : 0 < x -> Rpower x (1 / 5) ^ 5 = x.
Proof.
  intros X. rewrite <- Rpower_pow by apply Rpower_pos. rewrite Rpower_mult.
  replace (1 / 5 * INR 5) with 1 by (cbn; field). now apply Rpower_1.
Qed.
Lemma chirp_law x y : 0 < x -> 0 < y -> m_chirp x y ^ 5 * (x + y) = (x * y) ^ 3.
Proof.
  intros X Y. unfold m_chirp. assert (0 < x * y) by nra.
  replace ((Rpower (x * y) (3 / 5) / Rpower (x + y) (1 / 5)) ^ 5) with (Rpower (x * y) (3 / 5) ^ 5 / Rpower (x + y) (1 / 5) ^ 5).
  2:{ field. apply Rgt_not_eq, Rpower_pos. }
  rewrite fifth by lra. rewrite <- (Rpower_pow 5) by apply Rpower_pos. rewrite Rpower_mult.
  replace (3 / 5 * INR 5) with (INR 3) by (cbn; field). rewrite Rpower_pow by easy. field. lra.
Qed.
Lemma pow5_lt x y : 0 <= x -> x < y -> x ^ 5 < y ^ 5.
Proof.
  intros X L. assert (x ^ 2 < y ^ 2) by nra. assert (x ^ 3 < y ^ 3) by (now apply cube_lt).
  assert (0 <= x ^ 2) by nra. assert (0 <= x ^ 3) by (apply pow_le; lra).
  replace (x ^ 5) with (x ^ 2 * x ^ 3) by ring. replace (y ^ 5) with (y ^ 2 * y ^ 3) by ring. nra.
Qed.
Lemma pow5_le_inv x y : 0 <= y -> x ^ 5 <= y ^ 5 -> x <= y.
Proof. intros Y L. apply Rnot_lt_le. intros G. pose proof (pow5_lt y x Y G). lra. Qed.
Lemma pow5_inj x y : 0 <= x -> 0 <= y -> x ^ 5 = y ^ 5 -> x = y.
Proof. intros X Y E. apply Rle_antisym; apply pow5_le_inv; lra. Qed.

Lemma chirp_between x y : 0 < x -> x <= y ->
  x ^ 5 <= 2 * m_chirp x y ^ 5 <= y ^ 5 /\ (x < y -> x ^ 5 < 2 * m_chirp x y ^ 5 < y ^ 5).
Proof.
  intros X L. pose proof (chirp_law x y X ltac:(lra)) as E. set (c := m_chirp x y ^ 5) in *.
  assert (S : 0 < x + y) by lra.
  assert (C3 : x ^ 3 <= y ^ 3) by (apply pow_incr; lra).
  assert (X3 : 0 < x ^ 3) by now apply pow_lt.
  assert (Y3 : 0 < y ^ 3) by (apply pow_lt; lra).
  assert (A : (x + y) * x ^ 5 <= 2 * (x * y) ^ 3).
  { replace ((x + y) * x ^ 5) with (x ^ 3 * (x ^ 3 + y * x ^ 2)) by ring. replace (2 * (x * y) ^ 3) with (x ^ 3 * (2 * y ^ 3)) by ring.
    apply Rmult_le_compat_l; [lra|]. assert (x ^ 2 <= y ^ 2) by nra.
    replace (2 * y ^ 3) with (y ^ 3 + y * y ^ 2) by ring. nra. }
  assert (B : 2 * (x * y) ^ 3 <= (x + y) * y ^ 5).
  { replace ((x + y) * y ^ 5) with (y ^ 3 * (x * y ^ 2 + y ^ 3)) by ring. replace (2 * (x * y) ^ 3) with (y ^ 3 * (2 * x ^ 3)) by ring.
    apply Rmult_le_compat_l; [lra|]. assert (x ^ 2 <= y ^ 2) by nra.
    replace (2 * x ^ 3) with (x * x ^ 2 + x ^ 3) by ring. nra. }
  split; [split|intros L'; split].
  - apply (Rmult_le_reg_l (x + y)); [easy|]. lra.
  - apply (Rmult_le_reg_l (x + y)); [easy|]. lra.
  - apply (Rmult_lt_reg_l (x + y)); [easy|].
    assert ((x + y) * x ^ 5 < 2 * (x * y) ^ 3); [|lra].
    replace ((x + y) * x ^ 5) with (x ^ 3 * (x ^ 3 + y * x ^ 2)) by ring. replace (2 * (x * y) ^ 3) with (x ^ 3 * (2 * y ^ 3)) by ring.
    apply Rmult_lt_compat_l; [lra|]. assert (x ^ 2 < y ^ 2) by nra. assert (x ^ 3 < y ^ 3) by now apply cube_lt.
    replace (2 * y ^ 3) with (y ^ 3 + y * y ^ 2) by ring. nra.
  - apply (Rmult_lt_reg_l (x + y)); [easy|].
    assert (2 * (x * y) ^ 3 < (x + y) * y ^ 5); [|lra].
    replace ((x + y) * y ^ 5) with (y ^ 3 * (x * y ^ 2 + y ^ 3)) by ring. replace (2 * (x * y) ^ 3) with (y ^ 3 * (2 * x ^ 3)) by ring.
    apply Rmult_lt_compat_l; [lra|]. assert (x ^ 2 < y ^ 2) by nra. assert (x ^ 3 < y ^ 3) by now apply cube_lt.
    replace (2 * x ^ 3) with (x * x ^ 2 + x ^ 3) by ring. nra.
Qed.

(** c is 2^(-1/5): the chirp mass of two unit masses. *)
Theorem C48_chirp_mass :
  forall c, 0 < c -> 2 * c ^ 5 = 1 ->
  forall x y, 0 < x -> 0 < y ->
  0 < m_chirp x y /\ m_chirp x y ^ 5 * (x + y) = (x * y) ^ 3 /\ m_chirp y x = m_chirp x y /\
  c * Rmin x y <= m_chirp x y <= c * Rmax x y /\
  (x <> y -> c * Rmin x y < m_chirp x y < c * Rmax x y) /\
  (forall k, 0 < k -> m_chirp (k * x) (k * y) = k * m_chirp x y) /\
  (forall x', x < x' -> m_chirp x y < m_chirp x' y).
Proof.
  intros c C EC x y X Y.
  assert (H5 : forall z, (c * z) ^ 5 = z ^ 5 / 2) by (intros z; rewrite Rpow_mult_distr; replace (c ^ 5) with (1 / 2) by lra; field).
  assert (SYM : forall x y, m_chirp y x = m_chirp x y) by (intros; unfold m_chirp; now rewrite (Rmult_comm y0), (Rplus_comm y0)).
  assert (BET : forall x y, 0 < x -> 0 < y -> x <= y -> c * x <= m_chirp x y <= c * y /\ (x < y -> c * x < m_chirp x y < c * y)).
  { clear x y X Y. intros x y X Y L. destruct (chirp_between x y X L) as [[A B] D]. pose proof (chirp_pos x y) as P.
    split; [split|intros L'; specialize (D L'); split].
    - apply pow5_le_inv; [lra|]. rewrite H5. lra.
    - apply pow5_le_inv; [nra|]. rewrite H5. lra.
    - apply Rnot_le_lt. intros G. assert (K : m_chirp x y ^ 5 <= (c * x) ^ 5) by (apply pow_incr; lra). rewrite H5 in K. lra.
    - apply Rnot_le_lt. intros G. assert (K : (c * y) ^ 5 <= m_chirp x y ^ 5) by (apply pow_incr; nra). rewrite H5 in K. lra. }
  assert (BOTH : c * Rmin x y <= m_chirp x y <= c * Rmax x y /\ (x <> y -> c * Rmin x y < m_chirp x y < c * Rmax x y)).
  { destruct (Rle_dec x y) as [L|L].
    - rewrite Rmin_left, Rmax_right by lra. destruct (BET x y X Y L) as [A B]. split; [easy|]. intros N. apply B. lra.
    - rewrite Rmin_right, Rmax_left by lra. rewrite <- (SYM x y). destruct (BET y x Y X ltac:(lra)) as [A B]. split; [easy|]. intros N. apply B. lra. }
  split; [apply chirp_pos|]. split; [now apply chirp_law|]. split; [apply SYM|]. split; [apply BOTH|]. split; [apply BOTH|]. split.
  - intros k K. apply pow5_inj; [left; apply chirp_pos|pose proof (chirp_pos x y); nra|].
    assert (KX : 0 < k * x) by nra. assert (KY : 0 < k * y) by nra.
    pose proof (chirp_law (k * x) (k * y) KX KY) as E1. pose proof (chirp_law x y X Y) as E2.
    rewrite Rpow_mult_distr. apply (Rmult_eq_reg_r (k * x + k * y)); [|lra]. rewrite E1.
    replace ((k * x * (k * y)) ^ 3) with (k ^ 6 * (x * y) ^ 3) by ring. rewrite <- E2. ring.
  - intros x' L. apply Rnot_le_lt. intros G.
    assert (G5 : m_chirp x' y ^ 5 <= m_chirp x y ^ 5) by (apply pow_incr; split; [left; apply chirp_pos|easy]).
    pose proof (chirp_law x y X Y) as E1. pose proof (chirp_law x' y ltac:(lra) Y) as E2.
    set (u := m_chirp x y ^ 5) in *. set (v := m_chirp x' y ^ 5) in *.
    assert (Y3 : 0 < y ^ 3) by now apply pow_lt.
    assert (H : (x' * y) ^ 3 * (x + y) <= (x * y) ^ 3 * (x' + y)).
    { rewrite <- E1, <- E2. replace (u * (x + y) * (x' + y)) with (u * ((x + y) * (x' + y))) by ring.
      replace (v * (x' + y) * (x + y)) with (v * ((x + y) * (x' + y))) by ring. apply Rmult_le_compat_r; [nra|easy]. }
    replace ((x' * y) ^ 3 * (x + y)) with (y ^ 3 * (x' ^ 3 * (x + y))) in H by ring.
    replace ((x * y) ^ 3 * (x' + y)) with (y ^ 3 * (x ^ 3 * (x' + y))) in H by ring.
    apply Rmult_le_reg_l in H; [|easy].
    assert (x ^ 3 < x' ^ 3) by now apply cube_lt. assert (x ^ 2 < x' ^ 2) by nra.
    assert (x' * x * x ^ 2 < x' * x * x' ^ 2) by (apply Rmult_lt_compat_l; nra).
    assert (x ^ 3 * y < x' ^ 3 * y) by nra.
    replace (x' ^ 3 * (x + y)) with (x' * x * x' ^ 2 + x' ^ 3 * y) in H by ring.
    replace (x ^ 3 * (x' + y)) with (x' * x * x ^ 2 + x ^ 3 * y) in H by ring. lra.
Qed.
Print Assumptions C48_chirp_mass.

Example C48_chirp_constant : exists c, 0 < c /\ 2 * c ^ 5 = 1 /\ m_chirp 1 1 = c.
Proof.
  exists (m_chirp 1 1). split; [apply chirp_pos|]. split; [|easy].
  pose proof (chirp_law 1 1 ltac:(lra) ltac:(lra)). lra.
Qed.

(** ** Effective spin *)
(** What an undefined spin or tilt counts as. *)
Definition or_zero (x : fl) : R := match x with Some v => v | None => 0 end.
Lemma fill_nth l i x : nth_error l i = Some x -> nth_error (fill l) i = Some (Some (or_zero x)).
Proof. intros H. unfold fill. rewrite nth_error_map, H. now destruct x. Qed.
Lemma chi_nth m1 m2 a1 a2 t1 t2 i m n a b s t :
  nth_error m1 i = Some m -> nth_error m2 i = Some n -> nth_error a1 i = Some a -> nth_error a2 i = Some b ->
  nth_error t1 i = Some s -> nth_error t2 i = Some t -> nth_error (chi_all m1 m2 a1 a2 t1 t2) i = Some (chi_one m n a b s t).
Proof.
  revert m1 m2 a1 a2 t1 t2. induction i as [|i IH]; intros [|? m1] [|? m2] [|? a1] [|? a2] [|? t1] [|? t2] M N A B S T; try discriminate; cbn in *.
  - congruence.
  - now apply IH.
Qed.
Theorem C48_chi_eff :
  forall (m1 m2 a1 a2 t1 t2 : list fl) i x y a b s t,
  nth_error m1 i = Some (Some x) -> nth_error m2 i = Some (Some y) ->
  nth_error a1 i = Some a -> nth_error a2 i = Some b -> nth_error t1 i = Some s -> nth_error t2 i = Some t ->
  0 < x -> 0 < y ->
  exists c, nth_error (fst (chi_eff m1 m2 a1 a2 t1 t2)) i = Some (Some c) /\
    nth_error (fst (chi_eff m2 m1 a2 a1 t2 t1)) i = Some (Some c) /\
    c * (x + y) = x * or_zero a * cos (or_zero s) + y * or_zero b * cos (or_zero t) /\
    (forall k, Rabs (or_zero a) <= k -> Rabs (or_zero b) <= k -> - k <= c <= k).
Proof.
  intros m1 m2 a1 a2 t1 t2 i x y a b s t M N A B S T X Y.
  exists ((x * or_zero a * cos (or_zero s) + y * or_zero b * cos (or_zero t)) / (x + y)).
  unfold chi_eff. cbv zeta. cbn [fst]. split; [|split; [|split]].
  - now erewrite chi_nth by (eassumption || (eapply fill_nth; eassumption)).
  - erewrite chi_nth by (eassumption || (eapply fill_nth; eassumption)).
    unfold chi_one. cbn [lift1 lift2]. do 3 f_equal; ring.
  - field. lra.
  - intros k KA KB. apply Rabs_le_between in KA. apply Rabs_le_between in KB.
    pose proof (COS_bound (or_zero s)) as CS. pose proof (COS_bound (or_zero t)) as CT.
    assert (U : forall u v, - k <= u <= k -> -1 <= v <= 1 -> - k <= u * v <= k).
    { intros u v HU HV. assert (0 <= k) by lra. split; nra. }
    pose proof (U _ _ KA CS) as UA. pose proof (U _ _ KB CT) as UB.
    set (p := or_zero a * cos (or_zero s)) in *. set (q := or_zero b * cos (or_zero t)) in *.
    replace (x * or_zero a * cos (or_zero s)) with (x * p) by (unfold p; ring).
    replace (y * or_zero b * cos (or_zero t)) with (y * q) by (unfold q; ring).
    split; [apply Rle_div_r; [lra|nra]|apply Rle_div_l; [lra|nra]].
Qed.
Print Assumptions C48_chi_eff.

(** The arrays given to chi_eff are changed: afterwards they have no NaN. *)
Theorem C48_chi_eff_arguments :
  forall m1 m2 a1 a2 t1 t2 a1' a2' t1' t2' r, chi_eff m1 m2 a1 a2 t1 t2 = (r, (a1', a2', t1', t2')) ->
  forall old new, In (old, new) [(a1, a1'); (a2, a2'); (t1, t1'); (t2, t2')] ->
  length new = length old /\ forall i x, nth_error old i = Some x -> nth_error new i = Some (Some (or_zero x)).
Proof.
  intros m1 m2 a1 a2 t1 t2 a1' a2' t1' t2' r E old new I. unfold chi_eff in E. cbv zeta in E.
  assert (H : new = fill old).
  { cbn in I. destruct I as [I|[I|[I|[I|[]]]]]; congruence. }
  subst new. split; [unfold fill; apply map_length|]. intros i x N. now apply fill_nth.
Qed.
Print Assumptions C48_chi_eff_arguments.
Theorem C48_arguments_kept_refuted :
  exists m1 m2 a1 a2 t1 t2 r a1', chi_eff m1 m2 a1 a2 t1 t2 = (r, (a1', a2, t1, t2)) /\ a1' <> a1.
Proof.
  exists [Some 1], [Some 1], [None], [Some 0], [Some 0], [Some 0]. eexists. exists [Some 0]. split; [reflexivity|congruence].
Qed.
Print Assumptions C48_arguments_kept_refuted.

(** ** Effective precession: in [0,1] as long as star 1 is the heavier one, but not otherwise. *)
Theorem C48_precession :
  forall s t a b m n, 0 <= a <= 1 -> 0 <= b <= 1 -> 0 < n -> n <= m ->
  0 <= effective_precession s t a b m n <= 1.
Proof.
  intros s t a b m n A B N L. unfold effective_precession. cbv zeta.
  assert (Q : 0 < n / m <= 1) by (split; [apply Rdiv_lt_0_compat; lra|apply Rle_div_l; lra]).
  set (q := n / m) in *.
  pose proof (SIN_bound s) as SS. pose proof (SIN_bound t) as ST.
  assert (F : 0 <= q * ((4 * q + 3) / (4 + 3 * q)) <= 1).
  { assert (0 < (4 * q + 3) / (4 + 3 * q) <= 1); [|nra].
    split; [apply Rdiv_lt_0_compat; lra|apply Rle_div_l; lra]. }
  set (f := q * _) in *.
  assert (FB : 0 <= f * b <= 1) by nra.
  split.
  - eapply Rle_trans; [|apply Rmax_l]. apply Rabs_pos.
  - apply Rmax_lub; [apply Rabs_le; split; nra|nra].
Qed.
Print Assumptions C48_precession.
Theorem C48_precession_refuted :
  exists s t a b m n, 0 <= a <= 1 /\ 0 <= b <= 1 /\ 0 < m /\ 0 < n /\
    effective_precession s t a b m n = 2.2 /\ effective_precession t s b a n m = 1.
Proof.
  exists 0, (PI / 2), 0, 1, 1, 2. unfold effective_precession. cbv zeta. rewrite sin_PI2, sin_0.
  repeat split; try lra.
  - rewrite Rmax_right; [lra|]. rewrite Rmult_0_l, Rabs_R0. lra.
  - rewrite Rmax_left; [rewrite Rmult_1_l, Rabs_R1; lra|]. rewrite Rmult_1_l, Rabs_R1. lra.
Qed.
Print Assumptions C48_precession_refuted.

Example C48_chi_example :
  fst (chi_eff [Some 10] [Some 30] [Some 0.5] [None] [Some 0] [Some PI]) = [Some 0.125].
Proof.
  unfold chi_eff. cbn [fst chi_all fill map chi_one lift1 lift2]. rewrite cos_0, cos_PI. do 2 f_equal. lra.
Qed.
