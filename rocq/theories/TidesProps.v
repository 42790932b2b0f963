(** Winds and tides in the detached step (C95, C96). *)
From Coq Require Import Reals String Bool List Lra.
From Coquelicot Require Import Coquelicot.
From Verif Require Import PyBase RealLemmas OrbitModel InspiralModel GravRadProps DetachedModel.
Open Scope R_scope.

(** ** C95: winds *)
(** An orbit and the masses of the stars in it at any time: while winds are the only effect, the separation times the total mass does not
    change, whatever star loses the mass and whether the other loses mass, too. *)
Theorem C95_jeans :
  forall (a m1 m2 : R -> R) t (pri sec : R -> latest),
  0 < m1 t -> 0 < m2 t ->
  (forall u, mass (pri u) = m1 u) -> (forall u, mass (sec u) = m2 u) ->
  is_derive m1 t (mdot (pri t)) -> is_derive m2 t (mdot (sec t)) ->
  is_derive a t (default_sep_from_winds (a t) (pri t) (sec t)) ->
  is_derive (fun u => a u * (m1 u + m2 u)) t 0.
Proof.
  intros a m1 m2 t pri sec H1 H2 E1 E2 D1 D2 DA.
  assert (K := is_derive_mult a (fun u => m1 u + m2 u) t _ _ DA (is_derive_plus m1 m2 t _ _ D1 D2) (fun x y => Rmult_comm x y)).
  eapply is_derive_ext; [|evar_last; [exact K|]].
  - intros u. reflexivity.
  - unfold default_sep_from_winds, plus, mult; simpl. rewrite (E1 t), (E2 t). match goal with |- ?a = ?b => change (@eq R a b) end. field. lra.
Qed.
Print Assumptions C95_jeans.

(** So winds never shrink an orbit, and widen it by the fraction of the mass that is lost. *)
Theorem C95_widens :
  forall a pri sec, 0 < a -> 0 < mass pri -> 0 < mass sec ->
  (mdot pri <= 0 -> mdot sec <= 0 -> 0 <= default_sep_from_winds a pri sec) /\
  (mdot pri <= 0 -> mdot sec <= 0 -> mdot pri < 0 \/ mdot sec < 0 -> 0 < default_sep_from_winds a pri sec) /\
  default_sep_from_winds a pri sec / a = - (mdot pri + mdot sec) / (mass pri + mass sec) /\
  default_sep_from_winds a sec pri = default_sep_from_winds a pri sec.
Proof.
  intros a pri sec A H1 H2.
  assert (K : default_sep_from_winds a pri sec = a * (- (mdot pri + mdot sec) * / (mass pri + mass sec))).
  { unfold default_sep_from_winds. cbv zeta. field. lra. }
  assert (K' : default_sep_from_winds a sec pri = a * (- (mdot pri + mdot sec) * / (mass pri + mass sec))).
  { unfold default_sep_from_winds. cbv zeta. field. lra. }
  assert (I : 0 < / (mass pri + mass sec)) by (apply Rinv_0_lt_compat; lra).
  rewrite K, K'. split; [|split; [|split]].
  - intros. apply Rmult_le_pos; [lra|]. apply Rmult_le_pos; lra.
  - intros. apply Rmult_lt_0_compat; [lra|]. apply Rmult_lt_0_compat; lra.
  - unfold Rdiv. field. lra.
  - reflexivity.
Qed.
Print Assumptions C95_widens.

(** A star with angular momentum inertia times omega loses that of a shell of its radius with the mass that it loses, exactly, as long as
    its contraction would not spin it up by more than 100 rad/yr each year; angular momentum disappears if it would. *)
Theorem C95_spin :
  forall (w I : R -> R) t (s : R -> latest) (primary : bool) (other : latest),
  0 < I t -> (forall u, omega (s u) = w u) -> (forall u, inertia (s u) = I u) ->
  is_derive I t (Idot (s t)) ->
  is_derive w t (if primary then snd (default_spin_from_winds (s t) other) else fst (default_spin_from_winds other (s t))) ->
  exists dJ, is_derive (fun u => I u * w u) t dJ /\ dJ <= 2 / 3 * radius (s t) ^ 2 * w t * mdot (s t) /\
    (dJ = 2 / 3 * radius (s t) ^ 2 * w t * mdot (s t) <-> - w t * Idot (s t) / I t <= 100).
Proof.
  intros w I t s p o HI EW EI DI DW.
  assert (D : is_derive w t (spin_wind (s t))) by (destruct p; exact DW). clear DW.
  assert (K := is_derive_mult I w t _ _ DI D (fun x y => Rmult_comm x y)).
  exists (Idot (s t) * w t + I t * spin_wind (s t)). split; [|].
  { evar_last; [exact K|]. unfold plus, mult; simpl. reflexivity. }
  unfold spin_wind. rewrite (EW t), (EI t).
  assert (Q : Idot (s t) * w t + I t * (2 / 3 * radius (s t) ^ 2 * w t * mdot (s t) / I t + Rmin (- w t * Idot (s t) / I t) 100) =
    2 / 3 * radius (s t) ^ 2 * w t * mdot (s t) + I t * (Rmin (- w t * Idot (s t) / I t) 100 - - w t * Idot (s t) / I t)).
  { field. lra. }
  rewrite Q. set (c := - w t * Idot (s t) / I t). split.
  - assert (M := Rmin_l c 100). assert (0 <= I t * (c - Rmin c 100)) by (apply Rmult_le_pos; lra). nra.
  - split; intros H.
    + assert (Z : I t * (Rmin c 100 - c) = 0) by lra. apply Rmult_integral in Z. destruct Z as [Z|Z]; [lra|].
      assert (M := Rmin_r c 100). lra.
    + rewrite Rmin_left by exact H. match goal with |- ?a = ?b => change (@eq R a b) end. ring.
Qed.
Print Assumptions C95_spin.
(** So the spin of a star that contracts fast enough is not conserved even without wind. *)
Theorem C95_spin_refuted :
  exists s, 0 < inertia s /\ mdot s = 0 /\ inertia s * spin_wind s + Idot s * omega s < 0 /\ 0 < omega s.
Proof.
  exists (Latest 1 1 100 0 (1 / 10) (- 1) None None None 0 0 None 1 0). cbn. unfold spin_wind. cbn.
  rewrite Rmin_right by lra. repeat split; lra.
Qed.
Print Assumptions C95_spin_refuted.
Example C95_example :
  exists pri sec, default_sep_from_winds 100 pri sec = 1 / 10000 /\ mdot pri = - / 10 ^ 5 /\ 0 < mass pri /\ 0 < mass sec.
Proof.
  exists (Latest 6 1 0 (- / 10 ^ 5) 1 0 None None None 0 0 None 1 0), (Latest 4 1 0 0 1 0 None None None 0 0 None 1 0).
  unfold default_sep_from_winds. cbn. repeat split; lra.
Qed.

(** ** C96: tides *)
(** The gravitational constant in solar radii, solar masses and years, from Kepler's third law *)
Definition G_year : R := 4 * c_pi ^ 2 * 214.95 ^ 3.
Definition momentum (m1 m2 I1 I2 a e w1 w2 : R) : R :=
  m1 * m2 / (m1 + m2) * sqrt (G_year * (m1 + m2) * a * (1 - e ^ 2)) + I1 * w1 + I2 * w2.
Definition energy (m1 m2 I1 I2 a w1 w2 : R) : R := - (G_year * m1 * m2 / (2 * a)) + I1 * w1 ^ 2 / 2 + I2 * w2 ^ 2 / 2.
Definition orbital_rate (m1 m2 a : R) : R := sqrt (G_year * (m1 + m2) / a ^ 3).

Lemma pi_pos : 0 < c_pi. Proof. unfold c_pi. lra. Qed.
Lemma au_pos : 0 < aursun. Proof. unfold aursun. lra. Qed.
Lemma G_pos : 0 < G_year.
Proof. unfold G_year. change 214.95 with aursun. assert (H := pi_pos). assert (A := au_pos). pos. Qed.
Lemma mean_motion_rate a m1 m2 : 0 < a -> 0 < m1 -> 0 < m2 -> mean_motion a m1 m2 = orbital_rate m1 m2 a.
Proof.
  intros A H1 H2. unfold mean_motion, orbital_rate, P_orb, G_year. change 214.95 with aursun.
  assert (U := au_pos). assert (P := pi_pos). set (k := c_pi) in *. set (u := aursun) in *. clearbody k u.
  assert (X : 0 < (a / u) ^ 3 / (m1 + m2)) by pos.
  symmetry. apply sqrt_lem_1.
  - left. pos.
  - left. apply Rdiv_lt_0_compat; [lra|]. now apply sqrt_lt_R0.
  - replace (2 * k / sqrt ((a / u) ^ 3 / (m1 + m2)) * (2 * k / sqrt ((a / u) ^ 3 / (m1 + m2)))) with
      (4 * k ^ 2 / (sqrt ((a / u) ^ 3 / (m1 + m2)) * sqrt ((a / u) ^ 3 / (m1 + m2)))).
    2:{ field. apply Rgt_not_eq. now apply sqrt_lt_R0. }
    rewrite sqrt_sqrt by lra. field. repeat split; lra.
Qed.
Lemma rate_pos m1 m2 a : 0 < a -> 0 < m1 -> 0 < m2 -> 0 < orbital_rate m1 m2 a.
Proof. intros. unfold orbital_rate. apply sqrt_lt_R0. assert (G := G_pos). pos. Qed.
Lemma rate_square m1 m2 a : 0 < a -> 0 < m1 -> 0 < m2 -> G_year * (m1 + m2) = orbital_rate m1 m2 a ^ 2 * a ^ 3.
Proof.
  intros A H1 H2. unfold orbital_rate. assert (G := G_pos). rewrite pow2_sqrt by (left; pos). field. lra.
Qed.

Lemma half_power X k : 0 < X -> Rpower X (INR k / 2) = sqrt X ^ k.
Proof.
  intros H. rewrite <- (Rpower_sqrt X) at 1 by exact H. rewrite <- Rpower_pow by (apply Rpower_pos).
  rewrite Rpower_mult. f_equal. lra.
Qed.
Lemma hp15 X : 0 < X -> Rpower X (15 / 2) = sqrt X ^ 15.
Proof. intros H. rewrite <- (half_power X 15 H). f_equal. simpl. lra. Qed.
Lemma hp13 X : 0 < X -> Rpower X (13 / 2) = sqrt X ^ 13.
Proof. intros H. rewrite <- (half_power X 13 H). f_equal. simpl. lra. Qed.
Lemma hp3 X : 0 < X -> Rpower X (3 / 2) = sqrt X ^ 3.
Proof. intros H. rewrite <- (half_power X 3 H). f_equal. simpl. lra. Qed.

(** The strength of the tides *)
Lemma E2_pos s : 0 < mass s -> 0 < radius s -> 0 < E2 s.
Proof.
  intros M H. unfold E2. repeat match goal with |- context [Rlt_dec ?a ?b] => destruct (Rlt_dec a b) | |- context [Rle_dec ?a ?b] => destruct (Rle_dec a b)
    | |- context [Xsurf s] => destruct (Xsurf s) end; try (apply Rmult_lt_0_compat; [lra || apply Rpower_pos|apply Rpower_pos]). lra.
Qed.
Lemma kT_pos s c a : 0 < a -> 0 < mass s -> 0 < mass c -> 0 < radius s -> 0 < kT s c a.
Proof.
  intros A M M' H. unfold kT. eapply Rlt_le_trans; [|apply Rmax_r]. unfold kT_rad.
  destruct consts as (G & _ & Ms & Rs & Y). assert (E := E2_pos s M H).
  assert (S1 : 0 < sqrt (standard_cgrav * (mass s * Msun) * (radius s * Rsun) ^ 2 / (a * Rsun) ^ 5)).
  { apply sqrt_lt_R0. set (g := standard_cgrav) in *. set (m := Msun) in *. set (r := Rsun) in *. clearbody g m r. pos. }
  apply Rmult_lt_0_compat; [|exact Y]. apply Rmult_lt_0_compat; [|exact E]. apply Rmult_lt_0_compat; [exact S1|apply Rpower_pos].
Qed.

Section Star.
Variables (a e n : R) (s c : latest).
Hypotheses (A : 0 < a) (E : 0 <= e < 1) (N : 0 < n) (Ms : 0 < mass s) (Mc : 0 < mass c) (Is : 0 < inertia s).
Let x := sqrt (1 - e ^ 2).
Lemma X_pos : 0 < 1 - e ^ 2. Proof using E. nra. Qed.
Lemma x_pos : 0 < x. Proof using E. apply sqrt_lt_R0, X_pos. Qed.
Lemma x_square : x ^ 2 = 1 - e ^ 2. Proof using E. unfold x. apply pow2_sqrt. generalize X_pos. lra. Qed.
Let mu := mass s * mass c / (mass s + mass c).
(** Angular momentum: what the orbit loses the star gains. *)
Lemma tide_momentum :
  mu * n * a * (fst (fst (tide a e n s c)) * x ^ 2 - 2 * a * e * snd (fst (tide a e n s c))) / (2 * x) + inertia s * snd (tide a e n s c) = 0.
Proof using A E N Ms Mc Is.
  assert (HX := X_pos). assert (hx := x_pos). assert (X2 := x_square).
  unfold tide. cbn [fst snd]. rewrite hp15, hp13, hp3 by exact HX. fold x.
  set (k := kT s c a). set (w := omega s). unfold mu.
  replace ((1 - e ^ 2) ^ 6) with (x ^ 12) by (rewrite <- X2; ring).
  assert (I1 : f1 e - 9 * e ^ 2 * f3 e = x ^ 2 * f2 e) by (rewrite X2; unfold f1, f2, f3; field).
  assert (I2 : f2 e - 11 / 2 * e ^ 2 * f4 e = x ^ 2 * f5 e) by (rewrite X2; unfold f2, f4, f5; field).
  set (F1 := f1 e) in *. set (F2 := f2 e) in *. set (F3 := f3 e) in *. set (F4 := f4 e) in *. set (F5 := f5 e) in *.
  assert (J1 : F1 = x ^ 2 * F2 + 9 * e ^ 2 * F3) by lra. assert (J2 : F2 = x ^ 2 * F5 + 11 / 2 * e ^ 2 * F4) by lra.
  rewrite J1.
  match goal with |- ?L = 0 => replace L with (3 * k * mass c ^ 2 / mass s * radius s ^ 8 / a ^ 6 * e ^ 2 * w / x ^ 9 * 0 - 3 * k * mass c ^ 2 / mass s * radius s ^ 8 / a ^ 6 * w / x ^ 11 * (x ^ 2 * F5 + 11 / 2 * e ^ 2 * F4 - F2)) end.
  { rewrite <- J2. ring. }
  field. repeat split; lra.
Qed.
(** Mechanical energy *)
Lemma tide_energy :
  mu * n ^ 2 * a / 2 * fst (fst (tide a e n s c)) + inertia s * omega s * snd (tide a e n s c) =
  - (3 * kT s c a * (mass c / mass s) * (radius s / a) ^ 6 * mass c * radius s ^ 2 * n ^ 2 / x ^ 15 *
     (f1 e - 2 * f2 e * (x ^ 3 * omega s / n) + f5 e * (x ^ 3 * omega s / n) ^ 2)).
Proof using A E N Ms Mc Is.
  assert (HX := X_pos). assert (hx := x_pos). assert (X2 := x_square).
  unfold tide. cbn [fst snd]. rewrite hp15, hp3 by exact HX. fold x.
  set (k := kT s c a). set (w := omega s). unfold mu.
  replace ((1 - e ^ 2) ^ 6) with (x ^ 12) by (rewrite <- X2; ring).
  field. repeat split; lra.
Qed.
Lemma quadratic z : f1 e - 2 * f2 e * z + f5 e * z ^ 2 = (f2 e - f5 e * z) ^ 2 / f5 e + (f1 e * f5 e - f2 e ^ 2) / f5 e.
Proof using E. assert (0 < f5 e) by (unfold f5; nra). field. lra. Qed.
Lemma discriminant : f1 e * f5 e - f2 e ^ 2 = e ^ 2 * (7 / 2 + 45 / 4 * e ^ 2 + 28 * e ^ 4 + 685 / 64 * e ^ 6 + 255 / 128 * e ^ 8 + 25 / 512 * e ^ 10).
Proof using E. unfold f1, f2, f5. field. Qed.
Lemma quadratic_pos z : 0 <= f1 e - 2 * f2 e * z + f5 e * z ^ 2 /\ (f1 e - 2 * f2 e * z + f5 e * z ^ 2 = 0 -> e = 0 /\ z = 1).
Proof using E.
  assert (F : 0 < f5 e) by (unfold f5; nra).
  assert (P : 0 < 7 / 2 + 45 / 4 * e ^ 2 + 28 * e ^ 4 + 685 / 64 * e ^ 6 + 255 / 128 * e ^ 8 + 25 / 512 * e ^ 10).
  { replace (e ^ 4) with ((e ^ 2) ^ 2) by ring. replace (e ^ 6) with ((e ^ 3) ^ 2) by ring. replace (e ^ 8) with ((e ^ 4) ^ 2) by ring. replace (e ^ 10) with ((e ^ 5) ^ 2) by ring.
    assert (Q := pow2_ge_0 e). assert (Q1 := pow2_ge_0 (e ^ 2)). assert (Q2 := pow2_ge_0 (e ^ 3)). assert (Q3 := pow2_ge_0 (e ^ 4)). assert (Q4 := pow2_ge_0 (e ^ 5)). lra. }
  assert (D : 0 <= (f1 e * f5 e - f2 e ^ 2) / f5 e).
  { rewrite discriminant. apply Rmult_le_pos; [|left; now apply Rinv_0_lt_compat]. apply Rmult_le_pos; [apply pow2_ge_0|lra]. }
  assert (Q : 0 <= (f2 e - f5 e * z) ^ 2 / f5 e) by (apply Rmult_le_pos; [apply pow2_ge_0|left; now apply Rinv_0_lt_compat]).
  rewrite quadratic. split; [lra|]. intros Z.
  assert (Z1 : (f1 e * f5 e - f2 e ^ 2) / f5 e = 0) by lra. rewrite discriminant in Z1.
  assert (e = 0).
  { unfold Rdiv in Z1. apply Rmult_integral in Z1. destruct Z1 as [Z1|Z1]; [|exfalso; assert (0 < / f5 e) by (now apply Rinv_0_lt_compat); lra].
    apply Rmult_integral in Z1. destruct Z1 as [Z1|Z1]; [|lra]. nra. }
  split; [exact H|]. assert (Z2 : (f2 e - f5 e * z) ^ 2 / f5 e = 0) by lra.
  assert (Z3 : (f2 e - f5 e * z) ^ 2 = 0).
  { unfold Rdiv in Z2. apply Rmult_integral in Z2. destruct Z2 as [Z2|Z2]; [exact Z2|exfalso; assert (0 < / f5 e) by (now apply Rinv_0_lt_compat); lra]. }
  rewrite H in Z3. unfold f2, f5 in Z3. nra.
Qed.
End Star.

(** While tides are the only effect, at any time at which the orbit and the spins follow the equations: *)
Definition follows (pri sec : latest) (a e w1 w2 : R -> R) (t : R) : Prop :=
  exists da de d2 d1, default_tides (a t) (e t) (with_omega pri (w1 t)) (with_omega sec (w2 t)) = (da, de, d2, d1) /\
  is_derive a t da /\ is_derive e t de /\ is_derive w2 t d2 /\ is_derive w1 t d1.
Definition proper (pri sec : latest) : Prop := 0 < mass pri /\ 0 < mass sec /\ 0 < inertia pri /\ 0 < inertia sec.

Lemma momentum_derive (m1 m2 I1 I2 : R) (a e w1 w2 : R -> R) t da de d1 d2 :
  0 < a t -> 0 <= e t < 1 -> 0 < m1 -> 0 < m2 ->
  is_derive a t da -> is_derive e t de -> is_derive w1 t d1 -> is_derive w2 t d2 ->
  is_derive (fun u => momentum m1 m2 I1 I2 (a u) (e u) (w1 u) (w2 u)) t
    (m1 * m2 / (m1 + m2) * orbital_rate m1 m2 (a t) * a t * (da * sqrt (1 - e t ^ 2) ^ 2 - 2 * a t * e t * de) / (2 * sqrt (1 - e t ^ 2)) + I1 * d1 + I2 * d2).
Proof.
  intros A E H1 H2 DA DE D1 D2.
  assert (HX := X_pos (e t) E). assert (hx := x_pos (e t) E). assert (X2 := x_square (e t) E).
  assert (N := rate_pos m1 m2 (a t) A H1 H2). assert (KP := rate_square m1 m2 (a t) A H1 H2). assert (G := G_pos).
  unfold momentum.
  assert (J : sqrt (G_year * (m1 + m2) * a t * (1 - e t ^ 2)) = orbital_rate m1 m2 (a t) * a t ^ 2 * sqrt (1 - e t ^ 2)).
  { rewrite KP. set (n := orbital_rate m1 m2 (a t)) in *. set (x := sqrt (1 - e t ^ 2)) in *. rewrite <- X2.
    replace (n ^ 2 * a t ^ 3 * a t * x ^ 2) with ((n * a t ^ 2 * x) ^ 2) by ring. apply sqrt_pow2. left. pos. }
  assert (DI : is_derive (fun u => G_year * (m1 + m2) * a u * (1 - e u ^ 2)) t (G_year * (m1 + m2) * (da * (1 - e t ^ 2) - a t * (2 * e t * de)))).
  { auto_derive; [repeat split; first [exists da; exact DA|exists de; exact DE]|].
    
    assert (UA : Derive (fun x : R => a x) t = da) by exact (is_derive_unique a t da DA).
    assert (UE : Derive (fun x : R => e x) t = de) by exact (is_derive_unique e t de DE). rewrite UA, UE.
    match goal with |- ?a = ?b => change (@eq R a b) end. ring. }
  assert (PP : 0 < G_year * (m1 + m2) * a t * (1 - e t ^ 2)) by pos.
  assert (DS := is_derive_sqrt (fun u => G_year * (m1 + m2) * a u * (1 - e u ^ 2)) t _ DI PP).
  evar_last.
  - apply (is_derive_plus (fun u => m1 * m2 / (m1 + m2) * sqrt (G_year * (m1 + m2) * a u * (1 - e u ^ 2)) + I1 * w1 u) (fun u => I2 * w2 u)).
    + apply (is_derive_plus (fun u => m1 * m2 / (m1 + m2) * sqrt (G_year * (m1 + m2) * a u * (1 - e u ^ 2))) (fun u => I1 * w1 u)).
      * apply (is_derive_scal (fun u => sqrt (G_year * (m1 + m2) * a u * (1 - e u ^ 2))) t (m1 * m2 / (m1 + m2)) _ DS).
      * apply (is_derive_scal w1 t I1 _ D1).
    + apply (is_derive_scal w2 t I2 _ D2).
  - match goal with |- _ = ?b => change (@eq R (m1 * m2 / (m1 + m2) * (G_year * (m1 + m2) * (da * (1 - e t ^ 2) - a t * (2 * e t * de)) /
      (2 * sqrt (G_year * (m1 + m2) * a t * (1 - e t ^ 2)))) + I1 * d1 + I2 * d2) b) end.
    rewrite J, KP.
    set (n := orbital_rate m1 m2 (a t)) in *. set (x := sqrt (1 - e t ^ 2)) in *. rewrite <- X2. clearbody x n. field. repeat split; lra.
Qed.
Lemma energy_derive (m1 m2 I1 I2 : R) (a w1 w2 : R -> R) t da d1 d2 :
  0 < a t -> 0 < m1 -> 0 < m2 -> is_derive a t da -> is_derive w1 t d1 -> is_derive w2 t d2 ->
  is_derive (fun u => energy m1 m2 I1 I2 (a u) (w1 u) (w2 u)) t
    (m1 * m2 / (m1 + m2) * orbital_rate m1 m2 (a t) ^ 2 * a t / 2 * da + I1 * w1 t * d1 + I2 * w2 t * d2).
Proof.
  intros A H1 H2 DA D1 D2. assert (KP := rate_square m1 m2 (a t) A H1 H2). unfold energy.
  auto_derive; [repeat split; first [exists da; exact DA|exists d1; exact D1|exists d2; exact D2|lra]|].
  
  assert (UA : Derive (fun x : R => a x) t = da) by exact (is_derive_unique a t da DA).
  assert (U1 : Derive (fun x : R => w1 x) t = d1) by exact (is_derive_unique w1 t d1 D1).
  assert (U2 : Derive (fun x : R => w2 x) t = d2) by exact (is_derive_unique w2 t d2 D2). rewrite UA, U1, U2. clear UA U1 U2.
  assert (KG : G_year = orbital_rate m1 m2 (a t) ^ 2 * a t ^ 3 / (m1 + m2)) by (rewrite <- KP; field; lra). rewrite KG.
  set (n := orbital_rate m1 m2 (a t)). clearbody n. clear KG KP.
  match goal with |- ?a = ?b => change (@eq R a b) end. field. lra.
Qed.

Theorem C96_momentum :
  forall pri sec (a e w1 w2 : R -> R) t, proper pri sec -> 0 < a t -> 0 <= e t < 1 ->
  follows pri sec a e w1 w2 t ->
  is_derive (fun u => momentum (mass pri) (mass sec) (inertia pri) (inertia sec) (a u) (e u) (w1 u) (w2 u)) t 0.
Proof.
  intros pri sec a e w1 w2 t (H1 & H2 & I1 & I2) A E (da & de & d2 & d1 & EQ & DA & DE & D2 & D1).
  evar_last; [apply (momentum_derive _ _ _ _ a e w1 w2 t da de d1 d2); assumption|].
  unfold default_tides in EQ. cbn [mass with_omega] in EQ. rewrite mean_motion_rate in EQ by assumption.
  set (n := orbital_rate (mass pri) (mass sec) (a t)) in *. assert (N : 0 < n) by (apply rate_pos; assumption).
  assert (T2 := tide_momentum (a t) (e t) n (with_omega sec (w2 t)) (with_omega pri (w1 t)) A E N H2 H1 I2).
  assert (T1 := tide_momentum (a t) (e t) n (with_omega pri (w1 t)) (with_omega sec (w2 t)) A E N H1 H2 I1).
  destruct (tide (a t) (e t) n (with_omega sec (w2 t)) (with_omega pri (w1 t))) as ((da2, de2), dO2).
  destruct (tide (a t) (e t) n (with_omega pri (w1 t)) (with_omega sec (w2 t))) as ((da1, de1), dO1).
  cbn [fst snd mass inertia with_omega] in T1, T2. cbv zeta in T1, T2.
  assert (Q : da2 + da1 = da /\ de2 + de1 = de /\ dO2 = d2 /\ dO1 = d1) by (repeat split; congruence).
  destruct Q as (<- & <- & <- & <-).
  assert (hx := x_pos (e t) E). cbv zeta in hx. set (x := sqrt (1 - e t ^ 2)) in *. clearbody x n.
  match goal with |- ?a = ?b => change (@eq R a b) end.
  set (m1 := mass pri) in *. set (m2 := mass sec) in *. set (J1 := inertia pri) in *. set (J2 := inertia sec) in *. clearbody m1 m2 J1 J2.
  replace (m2 * m1 / (m2 + m1)) with (m1 * m2 / (m1 + m2)) in T2 by (field; lra).
  set (mu := m1 * m2 / (m1 + m2)) in *. clearbody mu.
  replace (mu * n * a t * ((da2 + da1) * x ^ 2 - 2 * a t * e t * (de2 + de1)) / (2 * x) + J1 * dO1 + J2 * dO2) with
    ((mu * n * a t * (da1 * x ^ 2 - 2 * a t * e t * de1) / (2 * x) + J1 * dO1) + (mu * n * a t * (da2 * x ^ 2 - 2 * a t * e t * de2) / (2 * x) + J2 * dO2)) by (field; lra).
  rewrite T1, T2. ring.
Qed.
Print Assumptions C96_momentum.

(** A star that tides leave alone: it has no extent, or it corotates with a circular orbit. *)
Definition at_rest (s : latest) (n e w : R) : Prop := radius s = 0 \/ (e = 0 /\ w = n).
Lemma star_energy a e n s c w : 0 < a -> 0 <= e < 1 -> 0 < n -> 0 < mass s -> 0 < mass c -> 0 < inertia s -> 0 <= radius s ->
  mass s * mass c / (mass s + mass c) * n ^ 2 * a / 2 * fst (fst (tide a e n (with_omega s w) c)) + inertia s * w * snd (tide a e n (with_omega s w) c) <= 0 /\
  (mass s * mass c / (mass s + mass c) * n ^ 2 * a / 2 * fst (fst (tide a e n (with_omega s w) c)) + inertia s * w * snd (tide a e n (with_omega s w) c) = 0 <-> at_rest s n e w).
Proof.
  intros A E N Hs Hc Is Rs. assert (T := tide_energy a e n (with_omega s w) c A E N Hs Hc Is). cbv zeta in T. cbn [mass inertia omega radius with_omega] in T.
  rewrite T. clear T. assert (hx := x_pos e E). cbv zeta in hx. assert (X2 := x_square e E). cbv zeta in X2. set (x := sqrt (1 - e ^ 2)) in *.
  destruct (quadratic_pos e E (x ^ 3 * w / n)) as (Q & QZ).
  destruct Rs as [Rs|Rs].
  - assert (K := kT_pos (with_omega s w) c a A Hs Hc Rs).
    assert (P : 0 < 3 * kT (with_omega s w) c a * (mass c / mass s) * (radius s / a) ^ 6 * mass c * radius s ^ 2 * n ^ 2 / x ^ 15) by pos.
    split.
    + assert (0 <= 3 * kT (with_omega s w) c a * (mass c / mass s) * (radius s / a) ^ 6 * mass c * radius s ^ 2 * n ^ 2 / x ^ 15 *
        (f1 e - 2 * f2 e * (x ^ 3 * w / n) + f5 e * (x ^ 3 * w / n) ^ 2)) by (apply Rmult_le_pos; lra). lra.
    + split.
      * intros Z. right. assert (Z' : 3 * kT (with_omega s w) c a * (mass c / mass s) * (radius s / a) ^ 6 * mass c * radius s ^ 2 * n ^ 2 / x ^ 15 *
          (f1 e - 2 * f2 e * (x ^ 3 * w / n) + f5 e * (x ^ 3 * w / n) ^ 2) = 0) by lra.
        apply Rmult_integral in Z'. destruct Z' as [Z'|Z']; [lra|]. destruct (QZ Z') as (E0 & W). split; [exact E0|].
        assert (X1 : x = 1) by (unfold x; rewrite E0; replace (1 - 0 ^ 2) with 1 by ring; apply sqrt_1).
        rewrite X1 in W. replace w with (n * (1 ^ 3 * w / n)) by (field; lra). rewrite W. ring.
      * intros [Z|(Z & W)]; [lra|]. assert (X1 : x = 1) by (unfold x; rewrite Z; replace (1 - 0 ^ 2) with 1 by ring; apply sqrt_1).
        replace (f1 e - 2 * f2 e * (x ^ 3 * w / n) + f5 e * (x ^ 3 * w / n) ^ 2) with 0; [ring|].
        rewrite X1, W, Z. unfold f1, f2, f5. field. lra.
  - rewrite <- Rs. match goal with |- ?L <= 0 /\ _ => replace L with 0 by (unfold Rdiv; ring) end.
    split; [lra|]. split; [intros _; left; now symmetry|reflexivity].
Qed.
Theorem C96_energy :
  forall pri sec (a e w1 w2 : R -> R) t, proper pri sec -> 0 <= radius pri -> 0 <= radius sec -> 0 < a t -> 0 <= e t < 1 ->
  follows pri sec a e w1 w2 t ->
  exists dE, is_derive (fun u => energy (mass pri) (mass sec) (inertia pri) (inertia sec) (a u) (w1 u) (w2 u)) t dE /\ dE <= 0 /\
  (dE = 0 <-> at_rest pri (orbital_rate (mass pri) (mass sec) (a t)) (e t) (w1 t) /\ at_rest sec (orbital_rate (mass pri) (mass sec) (a t)) (e t) (w2 t)).
Proof.
  intros pri sec a e w1 w2 t (H1 & H2 & I1 & I2) R1 R2 A E (da & de & d2 & d1 & EQ & DA & DE & D2 & D1).
  eexists. split; [apply (energy_derive _ _ _ _ a w1 w2 t da d1 d2); assumption|].
  unfold default_tides in EQ. cbn [mass with_omega] in EQ. rewrite mean_motion_rate in EQ by assumption.
  set (n := orbital_rate (mass pri) (mass sec) (a t)) in *. assert (N : 0 < n) by (apply rate_pos; assumption).
  destruct (star_energy (a t) (e t) n sec (with_omega pri (w1 t)) (w2 t) A E N H2 H1 I2 R2) as (L2 & Z2).
  destruct (star_energy (a t) (e t) n pri (with_omega sec (w2 t)) (w1 t) A E N H1 H2 I1 R1) as (L1 & Z1).
  destruct (tide (a t) (e t) n (with_omega sec (w2 t)) (with_omega pri (w1 t))) as ((da2, de2), dO2).
  destruct (tide (a t) (e t) n (with_omega pri (w1 t)) (with_omega sec (w2 t))) as ((da1, de1), dO1).
  cbn [fst snd mass inertia with_omega] in L1, L2, Z1, Z2.
  assert (Q : da2 + da1 = da /\ de2 + de1 = de /\ dO2 = d2 /\ dO1 = d1) by (repeat split; congruence).
  destruct Q as (<- & <- & <- & <-).
  replace (mass sec * mass pri / (mass sec + mass pri)) with (mass pri * mass sec / (mass pri + mass sec)) in L2, Z2 by (field; lra).
  set (mu := mass pri * mass sec / (mass pri + mass sec)) in *.
  assert (S : mu * n ^ 2 * a t / 2 * (da2 + da1) + inertia pri * w1 t * dO1 + inertia sec * w2 t * dO2 =
    (mu * n ^ 2 * a t / 2 * da1 + inertia pri * w1 t * dO1) + (mu * n ^ 2 * a t / 2 * da2 + inertia sec * w2 t * dO2)) by ring.
  rewrite S. split; [lra|]. rewrite <- Z1, <- Z2. split; [intros Z; split; lra|intros (Z & Z'); lra].
Qed.
Print Assumptions C96_energy.

(** So over any span of time in which stars keep their masses and moments of inertia. *)
Theorem C96_evolution :
  forall pri sec (a e w1 w2 : R -> R) t0 t1, proper pri sec -> 0 <= radius pri -> 0 <= radius sec -> t0 < t1 ->
  (forall t, t0 <= t <= t1 -> 0 < a t /\ 0 <= e t < 1 /\ follows pri sec a e w1 w2 t) ->
  let J t := momentum (mass pri) (mass sec) (inertia pri) (inertia sec) (a t) (e t) (w1 t) (w2 t) in
  let E t := energy (mass pri) (mass sec) (inertia pri) (inertia sec) (a t) (w1 t) (w2 t) in
  J t1 = J t0 /\ E t1 <= E t0.
Proof.
  intros pri sec a e w1 w2 t0 t1 P R1 R2 T H J E. split.
  - assert (M : exists c, t0 <= c <= t1 /\ J t1 - J t0 = 0 * (t1 - t0)).
    { destruct (MVT_gen J t0 t1 (fun _ => 0)) as (c & C & Q).
      - rewrite Rmin_left, Rmax_right by lra. intros t Ht. destruct (H t) as (A & B & F); [lra|]. now apply C96_momentum.
      - rewrite Rmin_left, Rmax_right by lra. intros t Ht. destruct (H t Ht) as (A & B & F).
        assert (D := C96_momentum pri sec a e w1 w2 t P A B F). apply continuity_pt_filterlim. apply (ex_derive_continuous J t). now exists 0.
      - rewrite Rmin_left, Rmax_right in C by lra. now exists c. }
    destruct M as (c & _ & Q). lra.
  - assert (D : forall t, t0 <= t <= t1 -> exists d, is_derive E t d /\ d <= 0).
    { intros t Ht. destruct (H t Ht) as (A & B & F). destruct (C96_energy pri sec a e w1 w2 t P R1 R2 A B F) as (d & D & L & _). now exists d. }
    destruct (MVT_gen E t0 t1 (Derive E)) as (c & C & Q).
    + rewrite Rmin_left, Rmax_right by lra. intros t Ht. destruct (D t) as (d & Dt & _); [lra|]. apply Derive_correct. now exists d.
    + rewrite Rmin_left, Rmax_right by lra. intros t Ht. destruct (D t Ht) as (d & Dt & _). apply continuity_pt_filterlim. apply (ex_derive_continuous E t). now exists d.
    + rewrite Rmin_left, Rmax_right in C by lra. destruct (D c C) as (d & Dt & L). rewrite (is_derive_unique E c d Dt) in Q.
      assert (0 <= - d * (t1 - t0)) by (apply Rmult_le_pos; lra). change (d : R) with (d : R) in *. lra.
Qed.
Print Assumptions C96_evolution.

(** Where energy is at rest all is: a circular orbit that both stars with an extent corotate with stays as it is, and a circular one stays circular. *)
Theorem C96_equilibrium :
  forall pri sec a e, 0 < a -> 0 < mass pri -> 0 < mass sec ->
  at_rest pri (orbital_rate (mass pri) (mass sec) a) e (omega pri) -> at_rest sec (orbital_rate (mass pri) (mass sec) a) e (omega sec) ->
  default_tides a e pri sec = (0, 0, 0, 0).
Proof.
  intros pri sec a e A H1 H2 Z1 Z2. unfold default_tides. rewrite mean_motion_rate by assumption.
  set (n := orbital_rate (mass pri) (mass sec) a) in *. assert (N : 0 < n) by (now apply rate_pos).
  assert (T : forall s c, at_rest s n e (omega s) -> tide a e n s c = (0, 0, 0)).
  { intros s c Z. unfold tide. destruct Z as [Z|(Z & W)].
    - rewrite Z. replace (0 / a) with 0 by (unfold Rdiv; ring). f_equal; [f_equal|]; unfold Rdiv; ring.
    - rewrite Z, W. replace (1 - 0 ^ 2) with 1 by ring.
      assert (P1 : forall y, Rpower 1 y = 1) by (intros; unfold Rpower; rewrite ln_1, Rmult_0_r; apply exp_0). rewrite !P1.
      replace (f1 0 - 1 * f2 0 * n / n) with 0 by (unfold f1, f2; field; lra).
      replace (f2 0 - 1 * f5 0 * n / n) with 0 by (unfold f2, f5; field; lra).
      f_equal; [f_equal|]; unfold Rdiv; ring. }
  rewrite (T sec pri Z2), (T pri sec Z1). repeat f_equal; ring.
Qed.
Print Assumptions C96_equilibrium.
Theorem C96_circular : forall pri sec a, snd (fst (fst (default_tides a 0 pri sec))) = 0.
Proof.
  intros pri sec a. unfold default_tides, tide. cbn [fst snd]. unfold Rdiv. ring.
Qed.
Print Assumptions C96_circular.

(** The roles of the stars do not matter. *)
Theorem C96_symmetric :
  forall pri sec a e da de d2 d1, default_tides a e pri sec = (da, de, d2, d1) -> default_tides a e sec pri = (da, de, d1, d2).
Proof.
  intros pri sec a e da de d2 d1 H. unfold default_tides in *.
  assert (M : mean_motion a (mass sec) (mass pri) = mean_motion a (mass pri) (mass sec)) by (unfold mean_motion, P_orb; now rewrite (Rplus_comm (mass sec))).
  rewrite M. destruct (tide a e _ sec pri) as ((da2, de2), dO2). destruct (tide a e _ pri sec) as ((da1, de1), dO1).
  rewrite (Rplus_comm da1), (Rplus_comm de1). congruence.
Qed.
Print Assumptions C96_symmetric.

(** In a circular orbit a star that turns slower than the orbit is spun up and one that turns faster is spun down; the orbit shrinks if
    both turn slower. *)
Theorem C96_circular_signs :
  forall pri sec a da de d2 d1, proper pri sec -> 0 < a -> 0 < radius pri -> 0 < radius sec -> default_tides a 0 pri sec = (da, de, d2, d1) ->
  let n := orbital_rate (mass pri) (mass sec) a in
  (0 < d2 <-> omega sec < n) /\ (d2 < 0 <-> n < omega sec) /\ (0 < d1 <-> omega pri < n) /\ (d1 < 0 <-> n < omega pri) /\
  (omega pri < n -> omega sec < n -> da < 0) /\ (n < omega pri -> n < omega sec -> 0 < da).
Proof.
  intros pri sec a da de d2 d1 (H1 & H2 & I1 & I2) A R1 R2 EQ n.
  unfold default_tides in EQ. rewrite mean_motion_rate in EQ by assumption. fold n in EQ. assert (N : 0 < n) by (now apply rate_pos).
  assert (T : forall s c, 0 < mass s -> 0 < mass c -> 0 < inertia s -> 0 < radius s -> exists P Q, 0 < P /\ 0 < Q /\
    fst (fst (tide a 0 n s c)) = - P * (n - omega s) /\ snd (tide a 0 n s c) = Q * (n - omega s)).
  { intros s c Hs Hc Is Rs. assert (K := kT_pos s c a A Hs Hc Rs).
    exists (6 * kT s c a * (mass c / mass s) * (1 + mass c / mass s) * (radius s / a) ^ 8 * a / n),
           (3 * kT s c a * (mass c / mass s) ^ 2 * mass s * radius s ^ 2 / inertia s * (radius s / a) ^ 6).
    split; [pos|]. split; [pos|]. unfold tide. cbn [fst snd]. replace (1 - 0 ^ 2) with 1 by ring.
    assert (P1 : forall y, Rpower 1 y = 1) by (intros; unfold Rpower; rewrite ln_1, Rmult_0_r; apply exp_0). rewrite !P1.
    unfold f1, f2, f5. split; field; repeat split; lra. }
  destruct (T sec pri H2 H1 I2 R2) as (P2 & Q2 & HP2 & HQ2 & EA2 & EO2). destruct (T pri sec H1 H2 I1 R1) as (P1 & Q1 & HP1 & HQ1 & EA1 & EO1). clear T.
  destruct (tide a 0 n sec pri) as ((da2, de2), dO2). destruct (tide a 0 n pri sec) as ((da1, de1), dO1). cbn [fst snd] in *.
  assert (Q : da2 + da1 = da /\ dO2 = d2 /\ dO1 = d1) by (repeat split; congruence). destruct Q as (<- & <- & <-). clear EQ.
  rewrite EA1, EA2, EO1, EO2. repeat split; intros; nra.
Qed.
Print Assumptions C96_circular_signs.

(** An orbit becomes less eccentric if no star turns faster than 18/11 of the mean motion. *)
Theorem C96_circularizes :
  forall pri sec a e da de d2 d1, proper pri sec -> 0 < a -> 0 < e < 1 -> 0 < radius pri -> 0 < radius sec -> default_tides a e pri sec = (da, de, d2, d1) ->
  let n := orbital_rate (mass pri) (mass sec) a in
  0 <= omega pri <= 18 / 11 * n -> 0 <= omega sec <= 18 / 11 * n -> de < 0.
Proof.
  intros pri sec a e da de d2 d1 (H1 & H2 & I1 & I2) A E R1 R2 EQ n W1 W2.
  unfold default_tides in EQ. rewrite mean_motion_rate in EQ by assumption. fold n in EQ. assert (N : 0 < n) by (now apply rate_pos).
  assert (E' : 0 <= e < 1) by lra. assert (HX := X_pos e E'). assert (hx := x_pos e E'). assert (X2 := x_square e E'). cbv zeta in hx, X2.
  assert (T : forall s c, 0 < mass s -> 0 < mass c -> 0 < radius s -> 0 <= omega s <= 18 / 11 * n -> snd (fst (tide a e n s c)) < 0).
  { intros s c Hs Hc Rs W. assert (K := kT_pos s c a A Hs Hc Rs). unfold tide. cbn [fst snd]. rewrite hp13, hp3 by exact HX.
    set (x := sqrt (1 - e ^ 2)) in *.
    assert (P : 0 < 27 * 1 * kT s c a * (mass c / mass s) * (1 + mass c / mass s) * (radius s / a) ^ 8 * (e / x ^ 13)) by pos.
    assert (y1 : 0 <= omega s / n) by (apply Rmult_le_pos; [lra|left; apply Rinv_0_lt_compat; lra]).
    assert (y2 : omega s / n <= 18 / 11).
    { apply Rmult_le_reg_r with n; [exact N|]. unfold Rdiv at 1. rewrite Rmult_assoc, Rinv_l by lra. lra. }
    assert (x1 : x <= 1) by nra.
    assert (x3 : 0 < x ^ 3 <= 1).
    { split; [now apply pow_lt|]. rewrite <- (pow1 3). apply pow_incr. lra. }
    assert (F : 0 < f4 e < f3 e).
    { unfold f3, f4. assert (0 < e ^ 2) by nra. assert (0 < e ^ 4) by (apply pow_lt; lra). assert (0 < e ^ 6) by (apply pow_lt; lra). lra. }
    assert (Y : (11 / 18) * x ^ 3 * f4 e * omega s / n < f3 e).
    { replace ((11 / 18) * x ^ 3 * f4 e * omega s / n) with (f4 e * (x ^ 3 * (11 / 18 * (omega s / n)))) by (field; lra).
      assert (B : 0 <= x ^ 3 * (11 / 18 * (omega s / n)) <= 1) by (split; [apply Rmult_le_pos; lra|]; rewrite <- (Rmult_1_l 1); apply Rmult_le_compat; lra).
      apply Rle_lt_trans with (f4 e * 1); [apply Rmult_le_compat_l; lra|lra]. }
    assert (Z := Rmult_lt_0_compat _ _ P (Rlt_Rminus _ _ Y)).
    match goal with |- ?L < 0 => replace L with (- (27 * 1 * kT s c a * (mass c / mass s) * (1 + mass c / mass s) * (radius s / a) ^ 8 * (e / x ^ 13) * (f3 e - 11 / 18 * x ^ 3 * f4 e * omega s / n))) by ring end.
    lra. }
  assert (T2 := T sec pri H2 H1 R2 W2). assert (T1 := T pri sec H1 H2 R1 W1). clear T.
  destruct (tide a e n sec pri) as ((da2, de2), dO2). destruct (tide a e n pri sec) as ((da1, de1), dO1). cbn [fst snd] in *.
  assert (Q : de2 + de1 = de) by congruence. lra.
Qed.
Print Assumptions C96_circularizes.

(** Functions that follow the equations at a time exist for every such state: the hypotheses can be met. *)
Example C96_example :
  exists pri sec (a e w1 w2 : R -> R), proper pri sec /\ 0 < radius pri /\ 0 < radius sec /\ a 0 = 20 /\ e 0 = 3 / 10 /\ w1 0 = 100 /\ w2 0 = 0 /\ follows pri sec a e w1 w2 0.
Proof.
  set (pri := Latest 20 8 0 0 100 0 (Some 1) (Some 1) (Some 4) 2 0 (Some (7 / 10)) 10000 0).
  set (sec := Latest 15 6 0 0 80 0 None None None 2 0 (Some (7 / 10)) 10000 0).
  destruct (default_tides 20 (3 / 10) (with_omega pri 100) (with_omega sec 0)) as (((da, de), d2), d1) eqn:EQ.
  exists pri, sec, (fun t => 20 + da * t), (fun t => 3 / 10 + de * t), (fun t => 100 + d1 * t), (fun t => 0 + d2 * t).
  rewrite !Rmult_0_r, !Rplus_0_r. unfold proper. cbn [mass inertia radius pri sec].
  split; [repeat split; lra|]. split; [lra|]. split; [lra|]. split; [ring|]. split; [ring|]. split; [ring|]. split; [ring|].
  exists da, de, d2, d1. rewrite !Rmult_0_r, !Rplus_0_r. split; [exact EQ|].
  split; [|split; [|split]]; auto_derive; trivial; match goal with |- ?a = ?b => change (@eq R a b) end; ring.
Qed.
