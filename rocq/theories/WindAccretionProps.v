(** C107: accretion of a companion's wind *)
From Coq Require Import Reals String Bool List Lia Lra.
From Verif Require Import PyBase OrbitModel InspiralModel AccretionModel RealLemmas EddingtonProps.
Import ListNotations.
Open Scope string_scope.
Open Scope R_scope.
Open Scope list_scope.

(** ** Specification *)
(** From [y0] at x <= x0 straight to [y1] at x >= x1 *)
Definition ramp (x0 x1 y0 y1 x : R) : R := y0 + (y1 - y0) * Rmax 0 (Rmin 1 ((x - x0) / (x1 - x0))).
(** Hurley, Tout and Pols (2002), for stars that are not giants *)
Definition hurley (helium : bool) (m : R) : R := if helium then ramp 10 120 (1 / 8) 7 m else ramp 1.4 120 (1 / 2) 7 m.
Definition helium_star (h1 : option R) : Prop := exists x, h1 = Some x /\ x <= 0.01.
Definition wolf_rayet (h1 : option R) (T : R) : Prop := (exists x, h1 = Some x /\ x < 0.4) /\ 10000 < T.

Lemma ramp_low x0 x1 y0 y1 x : x0 < x1 -> x <= x0 -> ramp x0 x1 y0 y1 x = y0.
Proof.
  intros A B. unfold ramp. assert ((x - x0) / (x1 - x0) <= 0). { unfold Rdiv. assert (0 < / (x1 - x0)) by (apply Rinv_0_lt_compat; lra). nra. }
  rewrite Rmin_right by lra. rewrite Rmax_left by lra. ring.
Qed.
Lemma ramp_high x0 x1 y0 y1 x : x0 < x1 -> x1 <= x -> ramp x0 x1 y0 y1 x = y1.
Proof.
  intros A B. unfold ramp. assert (1 <= (x - x0) / (x1 - x0)). { replace 1 with ((x1 - x0) / (x1 - x0)) by (field; lra). unfold Rdiv. apply Rmult_le_compat_r; [left; apply Rinv_0_lt_compat; lra | lra]. }
  rewrite Rmin_left by lra. rewrite Rmax_right by lra. ring.
Qed.
Lemma ramp_mid x0 x1 y0 y1 x : x0 < x1 -> x0 <= x <= x1 -> ramp x0 x1 y0 y1 x = y0 + (x - x0) / (x1 - x0) * (y1 - y0).
Proof.
  intros A B. unfold ramp. assert (0 <= (x - x0) / (x1 - x0) <= 1).
  { assert (0 < / (x1 - x0)) by (apply Rinv_0_lt_compat; lra). split; [unfold Rdiv; nra |]. replace 1 with ((x1 - x0) / (x1 - x0)) by (field; lra). unfold Rdiv. apply Rmult_le_compat_r; lra. }
  rewrite Rmin_right by lra. rewrite Rmax_right by lra. ring.
Qed.
(** The terminal velocities of Hurley et al. depend on the mass and on whether the star is a helium star, whatever was in the memory and
    however large the star: their rule for giants is overwritten at once. *)
Theorem C107_hurley :
  forall junk w helium, (helium = true <-> helium_star (h1 w)) -> hurley_beta junk w = hurley helium (m w).
Proof.
  intros junk w helium H. unfold hurley_beta, set_if.
  assert (E : h1_le w 0.01 = helium).
  { unfold h1_le. unfold helium_star in H. destruct (h1 w) as [x|].
    - destruct (Rle_dec x 0.01); destruct helium; try reflexivity.
      + symmetry. apply H. now exists x.
      + destruct (proj1 H eq_refl) as (y & Y & L). injection Y; intros <-. lra.
    - destruct helium; [| reflexivity]. destruct (proj1 H eq_refl) as (y & Y & _). discriminate. }
  rewrite E. clear E H. unfold lt, le, hurley.
  destruct (Rlt_dec 120 (m w)) as [A|A].
  - destruct (Rlt_dec (m w) 1.4); [lra |]. destruct (Rle_dec (m w) 120); [lra |]. destruct (Rlt_dec (m w) 10); [lra |]. destruct (Rle_dec 1.4 (m w)); [| lra]. destruct (Rle_dec 10 (m w)); [| lra].
    destruct helium; cbn; now rewrite ramp_high by lra.
  - destruct (Rle_dec (m w) 120); [| lra]. destruct helium; cbn [andb].
    + destruct (Rle_dec 10 (m w)); cbn [andb].
      * destruct (Rlt_dec (m w) 10); [lra |]. rewrite ramp_mid by lra. lra.
      * destruct (Rlt_dec (m w) 10); [| lra]. rewrite ramp_low by lra. lra.
    + rewrite !andb_false_r. destruct (Rle_dec 1.4 (m w)); cbn [andb].
      * rewrite ramp_mid by lra. lra.
      * destruct (Rlt_dec (m w) 1.4); [| lra]. rewrite ramp_low by lra. lra.
Qed.
Theorem C107_range :
  forall helium m, 1 / 8 <= hurley helium m <= 7 /\ (helium = false -> 1 / 2 <= hurley helium m).
Proof.
  intros helium m0.
  assert (Q : forall x0 x1 y, y <= 7 -> y <= ramp x0 x1 y 7 m0 <= 7).
  { intros x0 x1 y Y. unfold ramp. assert (0 <= Rmax 0 (Rmin 1 ((m0 - x0) / (x1 - x0))) <= 1) by (split; [apply Rmax_l | apply Rmax_lub; [lra | apply Rmin_l]]). nra. }
  unfold hurley. destruct helium; (split; [| intros; try discriminate]).
  - apply Q; lra.
  - assert (H := Q 1.4 120 (1 / 2) ltac:(lra)). lra.
  - apply Q; lra.
Qed.
Definition supergiant : row := Row 5000 0 10 12 (- 5) (Some 0.5) 3 (Some 0.7) 5.
Theorem C107_giant_refuted :
  exists w, 900 < star_radius w /\ truth (he_core_radius w) = true /\ forall junk, hurley_beta junk w <> 1 / 8 /\ 1 < hurley_beta junk w.
Proof.
  exists supergiant. split; [| split].
  - unfold star_radius, supergiant. cbn [log_R]. replace 3 with (INR 3) by (cbn; lra). rewrite Rpower_pow by lra. lra.
  - unfold truth, supergiant. cbn [he_core_radius]. destruct (Req_EM_T 0.5 0); [lra | reflexivity].
  - intros junk. rewrite (C107_hurley junk supergiant false).
    + unfold hurley. cbn [m supergiant]. rewrite ramp_mid by lra. lra.
    + unfold helium_star, supergiant. cbn [h1]. split; [discriminate |]. intros (x & E & L). injection E; intros <-. lra.
Qed.
Theorem C107_schemes :
  forall scheme junk rows, (forall fs, factors scheme junk rows = Ok fs -> length fs = length rows) /\
  (scheme <> "Hurley+2002" -> scheme <> "Kudritzki+2000" -> factors scheme junk rows = Raise (OtherError "UnboundLocalError")) /\
  (forall w, scheme = "Kudritzki+2000" ->
     factors scheme junk (rows ++ [w]) = Ok (repeat (if Rle_dec 21000 (Teff w) then 2.65 else if Rle_dec (Teff w) 10000 then 1 else 1.4) (length rows + 1))).
Proof.
  intros scheme junk rows. split; [| split].
  - intros fs. unfold factors. destruct (String.eqb scheme "Hurley+2002"); [intros H; assert (E : fs = map (fun w => sqrt (hurley_beta junk w)) rows) by congruence; rewrite E; apply map_length |].
    destruct (String.eqb scheme "Kudritzki+2000"); [| discriminate]. destruct (rev rows) as [|w l]; [discriminate |]. intros H. assert (E : fs = map (fun _ => kudritzki w) rows) by congruence. rewrite E. apply map_length.
  - intros A B. unfold factors. apply String.eqb_neq in A, B. now rewrite A, B.
  - intros w ->. unfold factors. cbn [String.eqb Ascii.eqb Bool.eqb]. rewrite rev_app_distr. cbn [rev app]. f_equal. fold (kudritzki w).
    replace (length rows + 1)%nat with (length (rows ++ [w])) by (rewrite app_length; reflexivity). generalize (rows ++ [w]). intros l. induction l as [|x l IH]; [reflexivity |]. cbn. now rewrite IH.
Qed.
(** Hot stars with little hydrogen: log of the velocity (km / s) straight through (-7.25, 3.75), (-5.25, 3.25) and (-2.5, 3.7) *)
Theorem C107_wolf_rayet :
  forall f w, wolf_rayet (h1 w) (Teff w) ->
  v_wind f w = 1000 * Rpower 10 (3.25 + Rmax (0.45 / 2.75 * (lg_mdot w + 5.25)) (- 0.5 / 2 * (lg_mdot w + 5.25))).
Proof.
  intros f w [(x & X & L) T]. unfold v_wind, h1_lt, lt. rewrite X. destruct (Rlt_dec x 0.4); [| lra]. destruct (Rlt_dec 1.0e4 (Teff w)); [| lra]. cbn [andb].
  rewrite Rmult_comm. f_equal. f_equal. destruct (Rle_dec (-5.25) (lg_mdot w)).
  - rewrite Rmax_left by lra. lra.
  - rewrite Rmax_right by lra. lra.
Qed.
Theorem C107_other_winds :
  forall f w, ~ wolf_rayet (h1 w) (Teff w) -> 0 < m w -> 0 <= f -> (v_wind f w) ^ 2 = f ^ 2 * (2 * (G_SI * (m w * Msun_SI)) / (Rpower 10 (log_R w) * Rsun_SI)).
Proof.
  intros f w N M F. unfold v_wind, h1_lt, lt. replace ((match h1 w with Some v => if Rlt_dec v 0.4 then true else false | None => false end) && (if Rlt_dec 1.0e4 (Teff w) then true else false)) with false.
  - unfold v_esc, star_radius. rewrite Rpow_mult_distr. assert (P := Rpower_pos 10 (log_R w)). assert (P1 := G_pos). assert (P2 := Ms_pos). assert (P3 := Rs_pos).
    assert (Q : 0 < G_SI /\ 0 < Msun_SI /\ 0 < Rsun_SI) by (unfold G_SI, Msun_SI, Rsun_SI; split; [| split]; apply Rmult_lt_0_compat; lra). destruct Q as (Q1 & Q2 & Q3).
    set (g := G_SI) in *. set (y := Msun_SI) in *. set (s := Rsun_SI) in *. set (u := Rpower 10 (log_R w)) in *. clearbody g y s u.
    rewrite pow2_sqrt; [field; lra |]. left. apply Rmult_lt_0_compat; [| apply Rinv_0_lt_compat; now apply Rmult_lt_0_compat]. apply Rmult_lt_0_compat; [| assumption]. apply Rmult_lt_0_compat; lra.
  - symmetry. apply andb_false_iff. unfold wolf_rayet in N. destruct (h1 w) as [x|]; [| now left].
    destruct (Rlt_dec x 0.4); [| now left]. destruct (Rlt_dec 1.0e4 (Teff w)); [| now right]. exfalso. apply N. split; [now exists x | lra].
Qed.
(** The mean anomaly is uniform, although the code puts the radius of the star where the separation belongs. *)
Theorem C107_anomaly : forall random w, 0 < m w -> 0 < m_acc w -> mean_anomaly random w = 2 * PI * random.
Proof.
  intros random w M A. unfold mean_anomaly. enough (P : 0 < mean_motion w) by (field; lra). unfold mean_motion. apply sqrt_lt_R0.
  assert (P := Rpower_pos 10 (log_R w)). assert (P1 := G_pos). assert (P2 := Ms_pos). assert (P3 := Rs_pos).
  assert (Q : 0 < G_SI /\ 0 < Msun_SI /\ 0 < Rsun_SI) by (unfold G_SI, Msun_SI, Rsun_SI; split; [| split]; apply Rmult_lt_0_compat; lra). destruct Q as (Q1 & Q2 & Q3).
  unfold star_radius. set (g := G_SI) in *. set (y := Msun_SI) in *. set (s := Rsun_SI) in *. set (u := Rpower 10 (log_R w)) in *. clearbody g y s u.
  apply Rmult_lt_0_compat; [| apply Rinv_0_lt_compat; apply pow_lt; now apply Rmult_lt_0_compat]. apply Rmult_lt_0_compat; [| assumption]. apply Rmult_lt_0_compat; lra.
Qed.

(** ** The orbit *)
Definition bound_row (w : row) : Prop := 0 < sep w /\ 0 <= ecc w < 1 /\ 0 < m w /\ 0 < m_acc w.
(** The accretor at the eccentric anomaly E, as seen from the donor: position and velocity of the Kepler orbit with semi-major axis [a] and
    gravitational parameter [mu] *)
Definition kepler_position (a e E : R) : R * R := (a * (cos E - e), a * sqrt (1 - e ^ 2) * sin E).
Definition kepler_velocity (a e mu E : R) : R * R :=
  let rate := sqrt (mu / a ^ 3) / (1 - e * cos E) in (- a * sin E * rate, a * sqrt (1 - e ^ 2) * cos E * rate).
Definition length2 (v : R * R) : R := fst v ^ 2 + snd v ^ 2.
Definition mu (w : row) : R := G_SI * (m w + m_acc w) * Msun_SI.
(** Speed (squared) of a wind that blows radially with [vw] from the donor, relative to the accretor *)
Definition relative2 (vw : R) (x v : R * R) : R :=
  length2 (vw * fst x / sqrt (length2 x) - fst v, vw * snd x / sqrt (length2 x) - snd v).

Lemma SI_pos : 0 < G_SI /\ 0 < Msun_SI /\ 0 < Rsun_SI.
Proof.
  assert (P1 := G_pos). assert (P2 := Ms_pos). assert (P3 := Rs_pos). unfold G_SI, Msun_SI, Rsun_SI. split; [| split]; apply Rmult_lt_0_compat; lra.
Qed.
Lemma semi_pos w : bound_row w -> 0 < semi w.
Proof. intros (A & _). unfold semi. apply Rmult_lt_0_compat; [assumption | apply SI_pos]. Qed.
Lemma mu_pos w : bound_row w -> 0 < mu w.
Proof. intros (_ & _ & A & B). unfold mu. destruct SI_pos as (P & Q & _). apply Rmult_lt_0_compat; [apply Rmult_lt_0_compat; lra | assumption]. Qed.
Lemma trig E : sin E * sin E = 1 - cos E * cos E. Proof. assert (H := sin2_cos2 E). unfold Rsqr in H. lra. Qed.
Lemma den_pos e E : 0 <= e < 1 -> 0 < 1 - e * cos E. Proof. intros H. assert (B := COS_bound E). nra. Qed.
Lemma root_sq e : 0 <= e < 1 -> sqrt (1 - e ^ 2) * sqrt (1 - e ^ 2) = 1 - e ^ 2 /\ 0 < sqrt (1 - e ^ 2).
Proof. intros H. assert (0 < 1 - e ^ 2) by nra. split; [apply sqrt_sqrt; lra | now apply sqrt_lt_R0]. Qed.
Lemma r_norm w E : bound_row w -> norm (r_vec w E) = semi w * (1 - ecc w * cos E).
Proof.
  intros H. assert (A := semi_pos w H). destruct H as (_ & He & _). destruct (root_sq _ He) as [S SP]. assert (D := den_pos _ E He). assert (T := trig E).
  unfold norm, r_vec, semi_minor. cbn [fst snd]. set (a := semi w) in *. set (e := ecc w) in *. set (s := sqrt (1 - e ^ 2)) in *. set (c := cos E) in *. set (n := sin E) in *. clearbody a e c n.
  replace ((a * (c - e)) ^ 2 + (a * s * n) ^ 2) with ((a * (1 - e * c)) ^ 2).
  - apply sqrt_pow2. left. apply Rmult_lt_0_compat; lra.
  - replace ((a * s * n) ^ 2) with (a ^ 2 * (s * s) * (n * n)) by ring. rewrite S, T. ring.
Qed.
Lemma v_norm w E : bound_row w -> norm (v_dir w E) = semi w * sqrt (1 - ecc w ^ 2 * cos E ^ 2) /\ 0 < 1 - ecc w ^ 2 * cos E ^ 2.
Proof.
  intros H. assert (A := semi_pos w H). destruct H as (_ & He & _). destruct (root_sq _ He) as [S SP]. assert (D := den_pos _ E He). assert (T := trig E). assert (B := COS_bound E).
  unfold norm, v_dir, semi_minor. cbn [fst snd]. set (a := semi w) in *. set (e := ecc w) in *. set (s := sqrt (1 - e ^ 2)) in *. set (c := cos E) in *. set (n := sin E) in *. clearbody a e c n.
  assert (P : 0 < 1 - e ^ 2 * c ^ 2). { replace (1 - e ^ 2 * c ^ 2) with ((1 - e * c) * (1 + e * c)) by ring. assert (0 < 1 + e * c) by nra. now apply Rmult_lt_0_compat. }
  split; [| assumption]. replace ((- a * n) ^ 2 + (a * s * c) ^ 2) with (a ^ 2 * (1 - e ^ 2 * c ^ 2)).
  - rewrite sqrt_mult_alt by (apply pow2_ge_0). rewrite sqrt_pow2 by lra. reflexivity.
  - replace ((- a * n) ^ 2) with (a ^ 2 * (n * n)) by ring. replace ((a * s * c) ^ 2) with (a ^ 2 * (s * s) * c ^ 2) by ring. rewrite S, T. ring.
Qed.
Lemma v_orb_value w E : bound_row w -> v_orb w E = sqrt (mu w / semi w) * sqrt (1 - ecc w ^ 2 * cos E ^ 2) / (1 - ecc w * cos E).
Proof.
  intros H. assert (A := semi_pos w H). assert (M := mu_pos w H). destruct (v_norm w E H) as [_ P]. unfold v_orb. fold (mu w). rewrite r_norm by assumption.
  destruct H as (_ & He & _). assert (D := den_pos _ E He). set (a := semi w) in *. set (e := ecc w) in *. set (c := cos E) in *. set (g := mu w) in *. clearbody a e c g.
  assert (GA : 0 < g / a) by (apply Rmult_lt_0_compat; [assumption | now apply Rinv_0_lt_compat]).
  rewrite <- sqrt_mult by lra.
  replace (g * (2 / (a * (1 - e * c)) - 1 / a)) with (g / a * (1 - e ^ 2 * c ^ 2) * (/ (1 - e * c)) ^ 2) by (field; lra).
  assert (ID : 0 < / (1 - e * c)) by now apply Rinv_0_lt_compat.
  rewrite sqrt_mult_alt by (apply Rmult_le_pos; lra). rewrite sqrt_pow2 by lra. reflexivity.
Qed.
(** What the code computes is the Kepler orbit: the distance, the speed, and the direction of the motion. *)
Theorem C107_orbit :
  forall w E, bound_row w ->
  r_vec w E = kepler_position (semi w) (ecc w) E /\ norm (r_vec w E) = semi w * (1 - ecc w * cos E) /\
  fst (v_dir w E) * v_orb w E / norm (v_dir w E) = fst (kepler_velocity (semi w) (ecc w) (mu w) E) /\
  snd (v_dir w E) * v_orb w E / norm (v_dir w E) = snd (kepler_velocity (semi w) (ecc w) (mu w) E).
Proof.
  intros w E H. split; [reflexivity |]. split; [now apply r_norm |].
  destruct (v_norm w E H) as [V P]. rewrite V, v_orb_value by assumption. assert (A := semi_pos w H). assert (M := mu_pos w H). unfold kepler_velocity, v_dir, semi_minor. cbn [fst snd].
  destruct H as (_ & He & _). assert (D := den_pos _ E He). set (a := semi w) in *. set (e := ecc w) in *. set (c := cos E) in *. set (g := mu w) in *. clearbody a e c g.
  assert (Q : sqrt (g / a ^ 3) = sqrt (g / a) / a).
  { replace (g / a ^ 3) with (g / a * (/ a) ^ 2) by (field; lra). assert (GA : 0 < g / a) by (apply Rmult_lt_0_compat; [assumption | now apply Rinv_0_lt_compat]).
    rewrite sqrt_mult_alt by lra. assert (0 < / a) by now apply Rinv_0_lt_compat. rewrite sqrt_pow2 by lra. reflexivity. }
  rewrite Q. assert (W : 0 < sqrt (1 - e ^ 2 * c ^ 2)) by now apply sqrt_lt_R0. set (z := sqrt (1 - e ^ 2 * c ^ 2)) in *. set (y := sqrt (g / a)). set (s := sqrt (1 - e ^ 2)). clearbody z y s.
  split; field; lra.
Qed.
(** The speed of the wind relative to the accretor is taken on the other side of the orbit: at the anomaly E that of -E.  As all anomalies are
    as likely as their negatives, the mistake does not change the distribution. *)
Theorem C107_mirror :
  forall w vw E, bound_row w -> 0 < vw ->
  (v_rel w vw E) ^ 2 = relative2 vw (kepler_position (semi w) (ecc w) (- E)) (kepler_velocity (semi w) (ecc w) (mu w) (- E)) /\ 0 < v_rel w vw E.
Proof.
  intros w vw E H VW. assert (HK := C107_orbit w E H). destruct HK as (_ & RN & V1 & V2). destruct (v_norm w E H) as [VN P]. assert (A := semi_pos w H). assert (M := mu_pos w H).
  assert (VO := v_orb_value w E H). unfold v_rel, relative2, kepler_position, length2. cbn [fst snd]. unfold k_of, dot. rewrite RN.
  rewrite cos_neg, sin_neg.
  assert (KV : kepler_velocity (semi w) (ecc w) (mu w) (- E) = (- fst (kepler_velocity (semi w) (ecc w) (mu w) E), snd (kepler_velocity (semi w) (ecc w) (mu w) E))).
  { unfold kepler_velocity. cbn [fst snd]. rewrite cos_neg, sin_neg. f_equal. destruct H as (_ & He & _). assert (D := den_pos _ E He). field. lra. }
  rewrite KV. cbn [fst snd]. rewrite <- V1, <- V2. clear KV V1 V2.
  assert (RN2 : sqrt ((semi w * (cos E - ecc w)) ^ 2 + (semi w * sqrt (1 - ecc w ^ 2) * - sin E) ^ 2) = semi w * (1 - ecc w * cos E)).
  { rewrite <- RN. unfold norm, r_vec, semi_minor. cbn [fst snd]. f_equal. ring. }
  rewrite RN2. clear RN2. unfold r_vec, v_dir, semi_minor. cbn [fst snd].
  assert (VN2 : norm (v_dir w E) ^ 2 = fst (v_dir w E) ^ 2 + snd (v_dir w E) ^ 2) by (unfold norm; rewrite pow2_sqrt; [reflexivity |]; assert (X := pow2_ge_0 (fst (v_dir w E))); assert (Y := pow2_ge_0 (snd (v_dir w E))); lra).
  assert (VP : 0 < norm (v_dir w E)) by (rewrite VN; apply Rmult_lt_0_compat; [assumption | now apply sqrt_lt_R0]).
  assert (OP : 0 < v_orb w E).
  { rewrite VO. destruct H as (_ & He & _). assert (D := den_pos _ E He). apply Rmult_lt_0_compat; [apply Rmult_lt_0_compat; apply sqrt_lt_R0; [apply Rmult_lt_0_compat; [assumption | now apply Rinv_0_lt_compat] | assumption] | now apply Rinv_0_lt_compat]. }
  assert (RN3 : norm (r_vec w E) ^ 2 = fst (r_vec w E) ^ 2 + snd (r_vec w E) ^ 2) by (unfold norm; rewrite pow2_sqrt; [reflexivity |]; assert (X := pow2_ge_0 (fst (r_vec w E))); assert (Y := pow2_ge_0 (snd (r_vec w E))); lra).
  rewrite RN in RN3. unfold v_dir, r_vec, semi_minor in VN2, RN3. cbn [fst snd] in VN2, RN3. fold (semi_minor w) in *. fold (v_dir w E) in *.
  destruct H as (_ & He & _). assert (D := den_pos _ E He). assert (RP : 0 < semi w * (1 - ecc w * cos E)) by now apply Rmult_lt_0_compat.
  (* abstract *)
  set (px := semi w * (cos E - ecc w)) in *. set (py := semi_minor w * sin E) in *. set (dx := - semi w * sin E) in *. set (dy := semi_minor w * cos E) in *.
  assert (PY : semi_minor w * - sin E = - py) by (unfold py; ring). rewrite PY.
  set (v := v_orb w E) in *. set (r := semi w * (1 - ecc w * cos E)) in *. set (n := norm (v_dir w E)) in *.
  assert (CS : (px * dx + py * dy) ^ 2 <> (r * n) ^ 2).
  { intros F. assert (Z : (px * dy - py * dx) ^ 2 = 0).
    { replace ((px * dy - py * dx) ^ 2) with ((px ^ 2 + py ^ 2) * (dx ^ 2 + dy ^ 2) - (px * dx + py * dy) ^ 2) by ring. rewrite F, <- VN2, <- RN3. ring. }
    assert (Z' : px * dy - py * dx = 0) by (apply Rsqr_0_uniq; unfold Rsqr; rewrite <- Z; ring).
    assert (T := trig E). assert (PX : px * dy - py * dx = semi w * semi_minor w * (1 - ecc w * cos E)) by (unfold px, py, dx, dy; replace (semi w * (cos E - ecc w) * (semi_minor w * cos E) - semi_minor w * sin E * (- semi w * sin E)) with (semi w * semi_minor w * (cos E * cos E + sin E * sin E - ecc w * cos E)) by ring; rewrite T; ring).
    assert (SM : 0 < semi_minor w) by (unfold semi_minor; apply Rmult_lt_0_compat; [assumption | apply (root_sq _ He)]).
    assert (0 < semi w * semi_minor w * (1 - ecc w * cos E)) by (apply Rmult_lt_0_compat; [now apply Rmult_lt_0_compat | assumption]). lra. }
  assert (CB : (px * dx + py * dy) ^ 2 <= (r * n) ^ 2).
  { replace ((r * n) ^ 2) with ((px ^ 2 + py ^ 2) * (dx ^ 2 + dy ^ 2)) by (rewrite <- VN2, <- RN3; ring). assert (X := pow2_ge_0 (px * dy - py * dx)). nra. }
  assert (RNP : 0 < r * n) by now apply Rmult_lt_0_compat.
  assert (KB : -1 < (px * dx + py * dy) / (r * n)).
  { apply (Rmult_lt_reg_r (r * n)); [assumption |]. replace ((px * dx + py * dy) / (r * n) * (r * n)) with (px * dx + py * dy) by (field; lra).
    destruct (Rlt_dec (-1 * (r * n)) (px * dx + py * dy)) as [|N]; [assumption |]. exfalso. apply CS. apply Rle_antisym; [assumption |]. nra. }
  assert (POS : 0 < v ^ 2 + vw ^ 2 + 2 * v * vw * ((px * dx + py * dy) / (r * n))).
  { set (k := (px * dx + py * dy) / (r * n)) in *. clearbody k. replace (v ^ 2 + vw ^ 2 + 2 * v * vw * k) with ((v - vw) ^ 2 + 2 * (v * vw) * (1 + k)) by ring.
    assert (X := pow2_ge_0 (v - vw)). assert (0 < v * vw) by now apply Rmult_lt_0_compat. assert (0 < (v * vw) * (1 + k)) by (apply Rmult_lt_0_compat; lra). lra. }
  split; [| now apply sqrt_lt_R0].
  rewrite pow2_sqrt by lra.
  replace ((vw * px / r - - (dx * v / n)) ^ 2 + (vw * - py / r - dy * v / n) ^ 2)
    with (vw ^ 2 * (px ^ 2 + py ^ 2) / r ^ 2 + v ^ 2 * (dx ^ 2 + dy ^ 2) / n ^ 2 + 2 * v * vw * ((px * dx + py * dy) / (r * n))).
  - rewrite <- VN2, <- RN3. field. split; lra.
  - field. split; lra.
Qed.

(** ** The rate *)
Lemma circular w vw E : bound_row w -> ecc w = 0 -> 0 < vw ->
  norm (r_vec w E) = semi w /\ v_orb w E ^ 2 = mu w / semi w /\ 0 < v_orb w E /\ v_rel w vw E ^ 2 = v_orb w E ^ 2 + vw ^ 2.
Proof.
  intros H Z VW. assert (A := semi_pos w H). assert (M := mu_pos w H). assert (RN := r_norm w E H). assert (VO := v_orb_value w E H).
  rewrite Z in RN, VO. replace (1 - 0 * cos E) with 1 in * by ring. replace (1 - 0 ^ 2 * cos E ^ 2) with 1 in VO by ring. rewrite sqrt_1 in VO. unfold Rdiv in VO. rewrite Rinv_1, !Rmult_1_r in VO. rewrite Rmult_1_r in RN. fold (mu w / semi w) in VO.
  assert (GA : 0 < mu w / semi w) by (apply Rmult_lt_0_compat; [assumption | now apply Rinv_0_lt_compat]).
  split; [assumption |]. rewrite VO. split; [apply pow2_sqrt; lra |]. split; [now apply sqrt_lt_R0 |].
  assert (K : k_of w E = 0).
  { unfold k_of, dot, r_vec, v_dir, semi_minor. cbn [fst snd]. rewrite Z. replace (1 - 0 ^ 2) with 1 by ring. rewrite sqrt_1.
    replace (semi w * (cos E - 0) * (- semi w * sin E) + semi w * 1 * sin E * (semi w * 1 * cos E)) with 0 by ring. unfold Rdiv. apply Rmult_0_l. }
  unfold v_rel. rewrite K, Rmult_0_r, Rplus_0_r, VO. apply pow2_sqrt. assert (X := pow2_ge_0 (sqrt (mu w / semi w))). assert (Y := pow2_ge_0 vw). lra.
Qed.
(** On a circular orbit the fraction of the wind that is captured is (3/4) (m_acc / M)^2 / (u (1 + u^2)^(3/2)), u being the ratio of the
    speeds of wind and orbit. *)
Theorem C107_fraction :
  forall w vw E, bound_row w -> ecc w = 0 -> 0 < vw ->
  let u := vw / v_orb w E in
  capture w vw E = 3 / 4 * (m_acc w / (m w + m_acc w)) ^ 2 / (u * sqrt (1 + u ^ 2) ^ 3) * Rpower 10 (lg_mdot w).
Proof.
  intros w vw E H Z VW u. destruct (circular w vw E H Z VW) as (RN & V2 & VP & VR). unfold capture. rewrite RN. f_equal.
  assert (A := semi_pos w H). assert (RP := proj2 (C107_mirror w vw E H VW)).
  assert (Q : v_rel w vw E = v_orb w E * sqrt (1 + u ^ 2)).
  { assert (X := pow2_ge_0 u). assert (0 < sqrt (1 + u ^ 2)) by (apply sqrt_lt_R0; lra). apply square_inj; [lra | apply Rmult_le_pos; lra |].
    rewrite VR, Rpow_mult_distr, pow2_sqrt by lra. unfold u. field. lra. }
  assert (SP : 0 < sqrt (1 + u ^ 2)) by (assert (X := pow2_ge_0 u); apply sqrt_lt_R0; lra).
  rewrite Q. unfold u at 2. set (s := sqrt (1 + u ^ 2)) in *. destruct H as (_ & _ & M1 & M2). destruct SI_pos as (G1 & G2 & _).
  assert (MU : G_SI * m_acc w * Msun_SI = m_acc w / (m w + m_acc w) * (v_orb w E ^ 2 * semi w)) by (rewrite V2; unfold mu; field; split; lra).
  rewrite MU. clearbody s. clear RN V2 VR RP Q MU u. set (v := v_orb w E) in *. set (a := semi w) in *. clearbody v a. replace 1.5 with (3 / 2) by lra. field. repeat split; lra.
Qed.
(** What comes out is never above the Eddington limit that was computed last, and positive. *)
Theorem C107_limited :
  forall edd eta scheme disk junk rows Es l, 0 < edd -> length Es = length rows -> Forall bound_row rows ->
  bondi_hoyle (Ok (edd, eta)) scheme disk junk rows Es = Ok l -> length l = length rows /\ Forall (fun x => 0 < x <= edd) l.
Proof.
  intros edd eta scheme disk junk rows Es l ED LEN B. unfold bondi_hoyle. destruct (factors scheme junk rows) as [fs|] eqn:F; [| discriminate]. cbn [rbind fst]. intros EQ.
  assert (LF := proj1 (C107_schemes scheme junk rows) fs F).
  assert (FP : Forall (fun f => 0 < f) fs).
  { unfold factors in F. destruct (String.eqb scheme "Hurley+2002").
    - assert (E : fs = map (fun w => sqrt (hurley_beta junk w)) rows) by congruence. rewrite E. apply Forall_map. apply Forall_forall. intros w _. apply sqrt_lt_R0.
      assert (K : exists helium, helium = true <-> helium_star (h1 w)).
      { unfold helium_star. destruct (h1 w) as [x|].
        - destruct (Rle_dec x 0.01) as [L|L]; [exists true | exists false]; split; intros; try discriminate; auto; [now exists x |]. destruct H as (y & Y & YL). injection Y; intros <-. lra.
        - exists false. split; [discriminate | now intros (y & Y & _)]. }
      destruct K as [helium K]. rewrite (C107_hurley junk w helium K). assert (Q := C107_range helium (m w)). lra.
    - destruct (String.eqb scheme "Kudritzki+2000"); [| discriminate]. destruct (rev rows) as [|w' ?]; [discriminate |]. assert (E : fs = map (fun _ => kudritzki w') rows) by congruence. rewrite E. apply Forall_map. apply Forall_forall. intros w _.
      unfold kudritzki. destruct (Rle_dec 21000 (Teff w')); [lra |]. destruct (Rle_dec (Teff w') 10000); lra. }
  match type of EQ with Ok ?a = Ok _ => assert (EQ' : l = a) by congruence end. rewrite EQ'. clear EQ EQ' F. split.
  - rewrite map_length, !combine_length. lia.
  - apply Forall_map. apply Forall_forall. intros [[w f] E] I. apply in_combine_l in I. assert (I1 := in_combine_l _ _ _ _ I). apply in_combine_r in I.
    rewrite Forall_forall in B, FP. specialize (B w I1). specialize (FP f I). split; [| apply Rmin_r]. apply Rmin_glb_lt; [| assumption].
    assert (VW : 0 < v_wind f w).
    { unfold v_wind. destruct (h1_lt w 0.4 && lt 1.0e4 (Teff w)).
      - apply Rmult_lt_0_compat; [apply Rpower_pos | lra].
      - apply Rmult_lt_0_compat; [| assumption]. unfold v_esc, star_radius. apply sqrt_lt_R0. destruct B as (_ & _ & M & _). destruct SI_pos as (P1 & P2 & P3). assert (P := Rpower_pos 10 (log_R w)).
        apply Rmult_lt_0_compat; [| apply Rinv_0_lt_compat; now apply Rmult_lt_0_compat]. apply Rmult_lt_0_compat; [| assumption]. apply Rmult_lt_0_compat; [| assumption]. lra. }
    unfold accreted. destruct (disk && le (rdisk_div_risco w (v_wind f w) E) 1); [apply Rpower_pos |].
    assert (RV := proj2 (C107_mirror w _ E B VW)). assert (RN := r_norm w E B). assert (A := semi_pos w B). destruct B as (_ & He & M & MA). assert (D := den_pos _ E He). destruct SI_pos as (P1 & P2 & P3).
    unfold capture. rewrite RN. assert (0 < semi w * (1 - ecc w * cos E)) by now apply Rmult_lt_0_compat.
    set (x := v_rel w (v_wind f w) E) in *. set (y := v_wind f w) in *. set (z := semi w * (1 - ecc w * cos E)) in *. set (g := G_SI) in *. set (s := Msun_SI) in *. clearbody x y z g s.
    apply Rmult_lt_0_compat; [| apply Rpower_pos]. apply Rmult_lt_0_compat; [lra |]. apply Rmult_lt_0_compat; [apply pow_lt; apply Rmult_lt_0_compat; [now apply Rmult_lt_0_compat | assumption] |].
    apply Rinv_0_lt_compat. apply Rmult_lt_0_compat; [apply Rmult_lt_0_compat; [apply Rmult_lt_0_compat; [lra | now apply pow_lt] | assumption] | now apply pow_lt].
Qed.
(** Where the orbit is fast and the accretor dominates, more is accreted than the donor loses: nothing limits the fraction to 1. *)
Theorem C107_more_than_lost :
  forall w vw E, bound_row w -> ecc w = 0 -> 0 < vw <= 0.4 * v_orb w E -> 9 * m w <= m_acc w -> Rpower 10 (lg_mdot w) < capture w vw E.
Proof.
  intros w vw E H Z [VW U] Q. rewrite C107_fraction by assumption. destruct (circular w vw E H Z VW) as (_ & _ & VP & _).
  assert (UB : 0 < vw / v_orb w E <= 0.4).
  { split; [apply Rmult_lt_0_compat; [assumption | now apply Rinv_0_lt_compat] |]. apply (Rmult_le_reg_r (v_orb w E)); [assumption |]. replace (vw / v_orb w E * v_orb w E) with vw by (field; lra). assumption. }
  set (u := vw / v_orb w E) in *. clearbody u. cbn zeta. assert (P := Rpower_pos 10 (lg_mdot w)). set (p := Rpower 10 (lg_mdot w)) in *. clearbody p.
  destruct H as (_ & _ & M & MA).
  assert (S1 : sqrt (1 + u ^ 2) <= 1.08). { rewrite <- (sqrt_pow2 1.08) by lra. apply sqrt_le_1_alt. nra. }
  assert (S0 : 0 < sqrt (1 + u ^ 2)) by (apply sqrt_lt_R0; nra). set (s := sqrt (1 + u ^ 2)) in *. clearbody s.
  assert (S3 : s ^ 3 <= 1.08 ^ 3) by (apply pow_incr; lra). assert (S3' : 0 < s ^ 3) by now apply pow_lt.
  assert (F : 0.9 <= m_acc w / (m w + m_acc w)).
  { apply (Rmult_le_reg_r (m w + m_acc w)); [lra |]. replace (m_acc w / (m w + m_acc w) * (m w + m_acc w)) with (m_acc w) by (field; lra). lra. }
  set (f := m_acc w / (m w + m_acc w)) in *. clearbody f.
  assert (D : 0 < u * s ^ 3) by (apply Rmult_lt_0_compat; lra). assert (DU : u * s ^ 3 <= 0.4 * 1.08 ^ 3) by (apply Rmult_le_compat; lra).
  assert (F2 : 0.81 <= f ^ 2) by nra.
  rewrite <- (Rmult_1_l p) at 1. apply Rmult_lt_compat_r; [assumption |]. apply (Rmult_lt_reg_r (u * s ^ 3)); [assumption |].
  replace (3 / 4 * f ^ 2 / (u * s ^ 3) * (u * s ^ 3)) with (3 / 4 * f ^ 2) by (field; split; lra). lra.
Qed.
(** A black hole of 49 solar masses next to a star like the sun, grown to 10 solar radii *)
Definition greedy : row := Row 80 0 49 1 (- 7) (Some 0.1) 1 (Some 0.7) 0.
Lemma greedy_bound : bound_row greedy. Proof. unfold bound_row, greedy. cbn [sep ecc m m_acc]. lra. Qed.
Lemma greedy_not_helium : false = true <-> helium_star (h1 greedy).
Proof. unfold helium_star, greedy. cbn [h1]. split; [discriminate |]. intros (x & X & L). injection X; intros <-. lra. Qed.
Lemma greedy_cool : ~ wolf_rayet (h1 greedy) (Teff greedy).
Proof. unfold wolf_rayet, greedy. cbn [h1]. intros [(x & X & L) _]. injection X; intros <-. lra. Qed.
Lemma greedy_radius : Rpower 10 (log_R greedy) = 10. Proof. unfold greedy. cbn [log_R]. apply Rpower_1. lra. Qed.
Lemma greedy_beta junk : hurley_beta junk greedy = 1 / 2.
Proof. rewrite (C107_hurley junk greedy false greedy_not_helium). unfold hurley. change (m greedy) with 1. apply ramp_low; lra. Qed.
Lemma greedy_wind junk : let vw := v_wind (sqrt (hurley_beta junk greedy)) greedy in vw ^ 2 = (0.4 * v_orb greedy 0) ^ 2 /\ 0 < vw.
Proof.
  cbv zeta. rewrite greedy_beta. assert (S := sqrt_pos (1 / 2)). destruct SI_pos as (G1 & G2 & G3).
  assert (A : v_wind (sqrt (1 / 2)) greedy ^ 2 = G_SI * Msun_SI / (10 * Rsun_SI)).
  { rewrite C107_other_winds; [| apply greedy_cool | unfold greedy; cbn [m]; lra | assumption]. rewrite greedy_radius. change (m greedy) with 1. rewrite pow2_sqrt by lra.
    set (g := G_SI) in *. set (y := Msun_SI) in *. set (r := Rsun_SI) in *. clearbody g y r. field. lra. }
  destruct (circular greedy 1 0 greedy_bound eq_refl) as (_ & V2 & VP & _); [lra |]. split.
  - rewrite A, Rpow_mult_distr, V2. unfold mu, semi. change (m greedy) with 1. change (m_acc greedy) with 49. change (sep greedy) with 80.
    set (g := G_SI) in *. set (y := Msun_SI) in *. set (r := Rsun_SI) in *. clearbody g y r. replace (0.4 ^ 2) with (4 / 25) by lra. field. lra.
  - assert (Q : 0 <= v_wind (sqrt (1 / 2)) greedy).
    { unfold v_wind. destruct (h1_lt greedy 0.4 && lt 1.0e4 (Teff greedy)); [apply Rmult_le_pos; [left; apply Rpower_pos | lra] |]. apply Rmult_le_pos; [apply sqrt_pos | assumption]. }
    destruct Q as [Q | Q]; [assumption |]. exfalso. rewrite <- Q in A. assert (B : 0 < G_SI * Msun_SI / (10 * Rsun_SI)).
    { apply Rmult_lt_0_compat; [now apply Rmult_lt_0_compat |]. apply Rinv_0_lt_compat. apply Rmult_lt_0_compat; lra. } simpl in A. lra.
Qed.
Lemma greedy_disk junk : 1 < rdisk_div_risco greedy (v_wind (sqrt (hurley_beta junk greedy)) greedy) 0.
Proof.
  destruct (greedy_wind junk) as [W2 WP]. destruct (circular greedy 1 0 greedy_bound eq_refl) as (_ & V2 & VP & _); [lra |].
  set (vw := v_wind (sqrt (hurley_beta junk greedy)) greedy) in *. clearbody vw. unfold rdisk_div_risco. change (m greedy / m_acc greedy) with (1 / 49). cbv zeta.
  assert (U : (vw / v_orb greedy 0) ^ 2 = 0.16) by (unfold Rdiv; rewrite Rpow_mult_distr, W2; replace 0.16 with (4 / 25) by lra; replace 0.4 with (2 / 5) by lra; field; lra). rewrite U.
  assert (VB : v_orb greedy 0 ^ 2 < 1.3e11).
  { rewrite V2. unfold mu, semi. change (m greedy) with 1. change (m_acc greedy) with 49. change (sep greedy) with 80. unfold G_SI, Msun_SI, Rsun_SI, standard_cgrav, Msun, Rsun. lra. }
  assert (VV : 0 < v_orb greedy 0 ^ 2) by now apply pow_lt.
  assert (CC : (v_orb greedy 0 / (clight * 0.01)) ^ 2 = v_orb greedy 0 ^ 2 / (clight * 0.01) ^ 2) by (assert (P := c_pos); field; lra). rewrite CC.
  assert (CL : 8e16 < (clight * 0.01) ^ 2) by (unfold clight; lra). set (c2 := (clight * 0.01) ^ 2) in *. set (v2 := v_orb greedy 0 ^ 2) in *. clearbody c2 v2.
  replace (1 / (v2 / c2)) with (c2 / v2) by (field; lra).
  assert (B : 100000 < c2 / v2). { apply (Rmult_lt_reg_r v2); [assumption |]. replace (c2 / v2 * v2) with c2 by (field; lra). lra. }
  set (z := c2 / v2) in *. clearbody z. lra.
Qed.
Theorem C107_more_than_lost_refuted :
  exists edd eta l, edd_one [] (Some "BH") (m_acc greedy) (h1 greedy) = Ok (edd, eta) /\ bondi_hoyle (Ok (edd, eta)) "Hurley+2002" true 0 [greedy] [0] = Ok [l] /\
    Rpower 10 (lg_mdot greedy) < l /\ l < edd.
Proof.
  destruct (C105_limit [] "BH" 49 (Some 0.7)) as (edd & eta & H & Hp & He & L & B & _); [lra | now left | intros x E; inversion E; lra |].
  destruct (B eq_refl) as [Be _].
  assert (ED : 1e-6 < edd).
  { unfold L_edd in L. assert (P1 := PI_RGT_0). assert (P3 := PI2_3_2).
    assert (Q : eta * edd = 4 * PI * standard_cgrav * 49 * secyer / (0.2 * (1 + 0.7) * clight)).
    { assert (C := c_pos). assert (D := Ms_pos). assert (F := yr_pos).
      replace (eta * (edd * Msun / secyer) * clight ^ 2) with ((eta * edd) * (Msun * clight ^ 2 / secyer)) in L by (field; lra).
      apply (Rmult_eq_reg_r (Msun * clight ^ 2 / secyer)).
      - rewrite L. set (k := clight) in *. set (y := Msun) in *. set (g := standard_cgrav) in *. set (s := secyer) in *. clearbody k y g s. field. lra.
      - apply Rgt_not_eq. apply Rmult_lt_0_compat; [apply Rmult_lt_0_compat; [assumption | now apply pow_lt] | now apply Rinv_0_lt_compat]. }
    assert (Q1 : 4e-8 * PI < eta * edd) by (rewrite Q; unfold standard_cgrav, secyer, clight; lra). clear Q L H. nra. }
  destruct (greedy_wind 0) as [W2 WP]. assert (DK := greedy_disk 0). set (vw := v_wind (sqrt (hurley_beta 0 greedy)) greedy) in *.
  destruct (circular greedy 1 0 greedy_bound eq_refl) as (_ & V2 & VP & _); [lra |].
  assert (U : vw = 0.4 * v_orb greedy 0) by (apply square_inj; [lra | apply Rmult_le_pos; lra | assumption]).
  assert (MORE : Rpower 10 (lg_mdot greedy) < capture greedy vw 0).
  { apply C107_more_than_lost; [apply greedy_bound | reflexivity | lra | unfold greedy; cbn [m m_acc]; lra]. }
  assert (LESS : capture greedy vw 0 < edd).
  { assert (FR := C107_fraction greedy vw 0 greedy_bound eq_refl WP). cbv zeta in FR. rewrite FR. clear FR. change (m greedy) with 1. change (m_acc greedy) with 49. change (lg_mdot greedy) with (- 7).
    assert (P7 : Rpower 10 (- 7) = 1e-7).
    { replace (- 7) with (- INR 7) by (cbn; lra). rewrite Rpower_Ropp, Rpower_pow by lra. lra. }
    rewrite P7.
    assert (UU : vw / v_orb greedy 0 = 0.4) by (rewrite U; replace 0.4 with (2 / 5) by lra; field; lra). rewrite UU.
    assert (S1 : 1 <= sqrt (1 + 0.4 ^ 2)) by (rewrite <- sqrt_1 at 1; apply sqrt_le_1_alt; lra). set (s := sqrt (1 + 0.4 ^ 2)) in *. clearbody s.
    assert (S3 : 1 <= s ^ 3) by (rewrite <- (pow1 3); apply pow_incr; lra). set (t := s ^ 3) in *. clearbody t.
    apply (Rle_lt_trans _ 2e-7); [| lra]. unfold Rdiv. rewrite Rinv_mult. assert (T : / t <= 1) by (rewrite <- Rinv_1; apply Rinv_le_contravar; lra). assert (T0 : 0 < / t) by (apply Rinv_0_lt_compat; lra). lra. }
  exists edd, eta, (capture greedy vw 0). split; [exact H |]. split; [| split; assumption].
  unfold bondi_hoyle, factors. cbn [String.eqb Ascii.eqb Bool.eqb rbind map combine fst]. fold vw. unfold accreted, le. destruct (Rle_dec (rdisk_div_risco greedy vw 0) 1); [lra |]. cbn [andb]. rewrite Rmin_left by lra. reflexivity.
Qed.
Example C107_case : Forall bound_row [greedy; supergiant].
Proof. constructor; [apply greedy_bound |]. constructor; [| constructor]. unfold bound_row, supergiant. cbn [sep ecc m m_acc]. lra. Qed.
Print Assumptions C107_hurley. Print Assumptions C107_range. Print Assumptions C107_giant_refuted. Print Assumptions C107_schemes. Print Assumptions C107_wolf_rayet. Print Assumptions C107_other_winds.
Print Assumptions C107_anomaly. Print Assumptions C107_orbit. Print Assumptions C107_mirror. Print Assumptions C107_fraction. Print Assumptions C107_limited. Print Assumptions C107_more_than_lost. Print Assumptions C107_more_than_lost_refuted.
