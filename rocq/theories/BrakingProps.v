(** Magnetic braking, and the differential equations of the detached step (C97, C98). *)
From Coq Require Import Reals String Bool List Lra.
From Verif Require Import PyBase RealLemmas OrbitModel InspiralModel GravRadProps DetachedModel.
Open Scope string_scope.
Open Scope R_scope.

(** ** C97: magnetic braking *)
(** Masses in g, radii in cm, rates in 1/s, turnover times in s, winds in g/s; torques in erg. *)
Definition grams (s : latest) : R := mass s * 1.9892e33.
Definition cms (s : latest) : R := radius s * 6.9598e10.
Definition per_second (s : latest) : R := omega s / 3.1558149984e7.
Definition turnover (s : latest) : R := tau_turn s * 3.1558149984e7.
Definition wind (s : latest) : R := mdot s * 1.9892e33 / 3.1558149984e7.
Definition torque (s : latest) (d : R) : R := inertia s * d * (1.9892e33 * 6.9598e10 ^ 2) / 3.1558149984e7 ^ 2.
(** Full below 1.3 solar masses, none from 1.5 solar masses, a line between *)
Definition fading (m f : R) : Prop := (m <= 1.3 -> f = 1) /\ (1.5 <= m -> f = 0) /\ (1.3 <= m <= 1.5 -> f = (1.5 - m) / 0.2).
Definition rossby (s : latest) : R := 2 * c_pi / (per_second s * turnover s).
(** Rappaport et al. 1983 *)
Definition rappaport (s : latest) : R := - 3.8e-30 * grams s * cms s ^ 4 * per_second s ^ 3.
(** Garraffo et al. 2018 *)
Definition garraffo (s : latest) : R :=
  - 3e41 * per_second s ^ 3 * turnover s * (4.05 * exp (- 1.4 * (0.03 / rossby s + 0.5 * rossby s + 1))).
(** Matt et al. 2015 *)
Definition matt0 (s : latest) : R :=
  let critical := sqrt (6.67428e-8 * grams s / cms s ^ 3) in
  1.4e30 * Rpower (radius s) 3.1 * sqrt (mass s) * Rpower (sqrt (1 + (per_second s / critical / 0.072) ^ 2)) (- 0.44).
Definition matt (s : latest) : R :=
  if Rlt_dec (rossby s) 0.14 then - matt0 s * Rpower (2 / 0.14) 2.6 * (per_second s / 2.6e-6)
  else - matt0 s * Rpower (tau_turn s * 365.25 / 12.9) 2.6 * Rpower (per_second s / 2.6e-6) 3.6.
(** Van and Ivanova 2019, with a field of 1 G at the rate of rotation and turnover time of the Sun *)
Definition alfven (s : latest) : R :=
  cms s * Rpower (cms s ^ 4 * (per_second s / 3e-6) ^ 4 * (turnover s / 2.8e6) ^ 4 /
    (wind s ^ 2 * (2 * 6.67428e-8 * grams s / cms s + 2 * per_second s ^ 2 * cms s ^ 2 / 0.07 ^ 2))) (1 / 3).
Definition van (s : latest) : R := - (2 / 3) * per_second s * Rabs (wind s) * alfven s ^ 2.
(** A star with positive properties *)
Definition star (s : latest) : Prop := 0 < mass s /\ 0 < radius s /\ 0 < omega s /\ 0 < inertia s /\ 0 < tau_turn s.

Lemma fade_fading m : fading m (fade m).
Proof.
  unfold fading, fade, clip01. replace (1.5 - 1.3) with 0.2 by lra. repeat split; intros H.
  - rewrite Rmax_left by lra. apply Rmin_right. lra.
  - rewrite Rmax_right by lra. apply Rmin_left. lra.
  - rewrite Rmax_left by lra. apply Rmin_left. lra.
Qed.
Lemma fade_range m : 0 <= fade m <= 1.
Proof.
  unfold fade, clip01. set (z := (1.5 - m) / (1.5 - 1.3)). split.
  - apply Rmin_glb; [apply Rmax_r|lra].
  - apply Rmin_r.
Qed.
Lemma fade_pos m : m < 1.5 -> 0 < fade m.
Proof.
  intros H. unfold fade, clip01. apply Rmin_glb_lt; [|lra]. eapply Rlt_le_trans; [|apply Rmax_l]. lra.
Qed.
Lemma fade_zero m : 1.5 <= m -> fade m = 0.
Proof. apply (fade_fading m). Qed.

Lemma torque_rappaport s : inertia s <> 0 -> torque s (RVJ83_star s) = rappaport s * fade (mass s).
Proof.
  intros H. unfold torque, RVJ83_star, rappaport, grams, cms, per_second. change 1.9892e33 with Msun. change 6.9598e10 with Rsun. change 3.1558149984e7 with secyer.
  destruct consts as (_ & _ & M & R0 & Y). set (f := fade (mass s)). set (c := -3.8e-30). set (m := Msun) in *. set (r := Rsun) in *. set (y := secyer) in *. clearbody f c m r y.
  field. repeat split; lra.
Qed.
Theorem C97_RVJ83 :
  forall pri sec d2 d1, inertia pri <> 0 -> inertia sec <> 0 -> magnetic_braking "RVJ83" pri sec = Ok (d2, d1) ->
  exists f1 f2, fading (mass pri) f1 /\ fading (mass sec) f2 /\ torque pri d1 = rappaport pri * f1 /\ torque sec d2 = rappaport sec * f2.
Proof.
  intros pri sec d2 d1 H1 H2 E. exists (fade (mass pri)), (fade (mass sec)). split; [apply fade_fading|]. split; [apply fade_fading|].
  change (Ok (RVJ83_star sec, RVJ83_star pri) = Ok (d2, d1)) in E. assert (Z : RVJ83_star sec = d2 /\ RVJ83_star pri = d1) by (split; congruence).
  destruct Z as (<- & <-). split; now apply torque_rappaport.
Qed.
Print Assumptions C97_RVJ83.

Lemma torque_garraffo s : inertia s <> 0 -> omega s <> 0 -> tau_turn s <> 0 -> torque s (G18_star s) = garraffo s * fade (mass s).
Proof.
  intros H W T. unfold torque, G18_star, garraffo, G18_c. change 1.9892e33 with Msun. change 6.9598e10 with Rsun. change 3.1558149984e7 with secyer. cbv zeta.
  destruct consts as (_ & _ & M & R0 & Y).
  assert (RO : 2 * c_pi / omega s / tau_turn s = rossby s).
  { unfold rossby, per_second, turnover. change 3.1558149984e7 with secyer. set (k := c_pi). set (y := secyer) in *. clearbody k y. field. repeat split; lra. }
  rewrite RO. set (Q := 4.05 * exp (-1.4 * (0.03 / rossby s + 0.5 * rossby s + 1))).
  unfold per_second, turnover. change 3.1558149984e7 with secyer.
  set (f := fade (mass s)). set (c := -3e41). set (m := Msun) in *. set (r := Rsun) in *. set (y := secyer) in *. clearbody f c m r y Q.
  field. repeat split; lra.
Qed.
Theorem C97_G18 :
  forall pri sec d2 d1, star pri -> star sec -> magnetic_braking "G18" pri sec = Ok (d2, d1) ->
  exists f1 f2, fading (mass pri) f1 /\ fading (mass sec) f2 /\ torque pri d1 = garraffo pri * f1 /\ torque sec d2 = garraffo sec * f2.
Proof.
  intros pri sec d2 d1 (_ & _ & W1 & I1 & T1) (_ & _ & W2 & I2 & T2) E. exists (fade (mass pri)), (fade (mass sec)). split; [apply fade_fading|]. split; [apply fade_fading|].
  change (Ok (G18_star sec, G18_star pri) = Ok (d2, d1)) in E. assert (Z : G18_star sec = d2 /\ G18_star pri = d1) by (split; congruence).
  destruct Z as (<- & <-). split; apply torque_garraffo; apply Rgt_not_eq; assumption.
Qed.
Print Assumptions C97_G18.

Lemma rossby_code s : 0 < omega s -> 0 < tau_turn s -> 2 * c_pi / omega s / tau_turn s = rossby s.
Proof.
  intros W T. destruct consts as (_ & _ & _ & _ & Y). unfold rossby, per_second, turnover. change 3.1558149984e7 with secyer. set (k := c_pi). set (y := secyer) in *. clearbody k y. field. repeat split; lra.
Qed.
Lemma saturated_spec s : 0 < omega s -> 0 < tau_turn s -> saturated s = if Rlt_dec (rossby s) 0.14 then true else false.
Proof.
  intros W T. unfold saturated. rewrite rossby_code by assumption. destruct (Req_EM_T (omega s * tau_turn s) 0) as [Z|Z]; [|reflexivity].
  apply Rmult_integral in Z. destruct Z; lra.
Qed.
Lemma T0_matt s : star s -> M15_T0 s * (1.9892e33 * 6.9598e10 ^ 2) / 3.1558149984e7 ^ 2 = - matt0 s.
Proof.
  intros (M & Rr & W & I & T). unfold M15_T0, matt0, M15_K. cbv zeta. destruct consts as (G & _ & Ms & R0 & Y).
  change 1.9892e33 with Msun. change 6.9598e10 with Rsun. change 3.1558149984e7 with secyer.
  assert (CR : omega s / (sqrt (standard_cgrav * mass s * Msun / (radius s * Rsun) ^ 3) * secyer) = per_second s / sqrt (6.67428e-8 * grams s / cms s ^ 3)).
  { unfold per_second, grams, cms. change 1.9892e33 with Msun. change 6.9598e10 with Rsun. change 3.1558149984e7 with secyer. change 6.67428e-8 with standard_cgrav.
    replace (standard_cgrav * (mass s * Msun) / (radius s * Rsun) ^ 3) with (standard_cgrav * mass s * Msun / (radius s * Rsun) ^ 3) by (unfold Rdiv; ring).
    assert (P : 0 < sqrt (standard_cgrav * mass s * Msun / (radius s * Rsun) ^ 3)).
    { apply sqrt_lt_R0. set (g := standard_cgrav) in *. set (m := Msun) in *. set (r := Rsun) in *. clearbody g m r. pos. }
    set (q := sqrt _) in *. set (y := secyer) in *. clearbody q y. field. lra. }
  rewrite CR. set (u := per_second s / _). clearbody u.
  assert (S1 : Rpower (mass s) 0.5 = sqrt (mass s)) by (rewrite <- Rpower_sqrt by exact M; f_equal; lra).
  assert (S2 : Rpower (1 + (u / 0.072) ^ 2) 0.5 = sqrt (1 + (u / 0.072) ^ 2)).
  { rewrite <- Rpower_sqrt by (assert (Z := pow2_ge_0 (u / 0.072)); lra). f_equal. lra. }
  rewrite S1, S2. replace (- (2) * 0.22) with (- 0.44) by lra.
  set (g := Rpower (sqrt _) _). set (p := Rpower (radius s) 3.1). set (z := sqrt (mass s)).
  replace (-1.4e30) with (- (1.4e30)) by lra. set (c := 1.4e30).
  set (m := Msun) in *. set (r := Rsun) in *. set (y := secyer) in *. clearbody m r y g p z c. field. repeat split; lra.
Qed.
Lemma unsaturated_matt s : star s -> 0.14 <= rossby s -> torque s (M15_unsaturated s) = matt s * fade (mass s).
Proof.
  intros S HR. assert (T0 := T0_matt s S). destruct S as (M & Rr & W & I & T). destruct consts as (_ & _ & Ms & R0 & Y).
  unfold matt. destruct (Rlt_dec (rossby s) 0.14) as [Z|_]; [lra|]. unfold torque, M15_unsaturated.
  assert (A1 : zpow (tau_turn s / tau_conv_sol) 2.6 = Rpower (tau_turn s * 365.25 / 12.9) 2.6).
  { unfold zpow, tau_conv_sol. assert (0 < tau_turn s / (12.9 / 365.25)) by (apply Rdiv_lt_0_compat; lra). destruct (Req_EM_T _ 0); [lra|]. f_equal. set (k := 365.25). assert (K : k <> 0) by (unfold k; lra). set (l := 12.9). assert (L : l <> 0) by (unfold l; lra). clearbody k l. field. split; assumption. }
  assert (A2 : zpow (omega s / omega_sol) (2.6 + 1) = Rpower (per_second s / 2.6e-6) 3.6).
  { unfold zpow, omega_sol, per_second. change 3.1558149984e7 with secyer. assert (0 < omega s / (2.6e-6 * secyer)) by (apply Rdiv_lt_0_compat; [exact W|]; apply Rmult_lt_0_compat; [lra|exact Y]).
    destruct (Req_EM_T _ 0); [lra|]. replace (2.6 + 1) with 3.6 by lra. f_equal. set (y := secyer) in *. clearbody y. field. lra. }
  rewrite A1, A2, <- T0. change 1.9892e33 with Msun. change 6.9598e10 with Rsun. change 3.1558149984e7 with secyer.
  set (p := Rpower _ 2.6). set (v := Rpower _ 3.6). set (t := M15_T0 s). set (f := fade _). set (m := Msun) in *. set (r := Rsun) in *. set (y := secyer) in *. clearbody p v t f m r y.
  field. repeat split; lra.
Qed.
Lemma M15_sec_matt s : star s -> torque s (M15_sec s) = matt s * fade (mass s).
Proof.
  intros S. assert (T0 := T0_matt s S). assert (S' := S). destruct S as (M & Rr & W & I & T). destruct consts as (_ & _ & Ms & R0 & Y).
  unfold M15_sec. rewrite saturated_spec by assumption. destruct (Rlt_dec (rossby s) 0.14) as [Z|Z]; [|apply unsaturated_matt; [exact S'|lra]].
  unfold matt. destruct (Rlt_dec (rossby s) 0.14) as [_|N]; [|lra]. unfold torque.
  rewrite <- T0. unfold chi. replace (2.0 / 0.14) with (2 / 0.14) by lra. unfold omega_sol, per_second. change 1.9892e33 with Msun. change 6.9598e10 with Rsun. change 3.1558149984e7 with secyer.
  set (p := Rpower _ 2.6). set (t := M15_T0 s). set (f := fade _). set (m := Msun) in *. set (r := Rsun) in *. set (y := secyer) in *. clearbody p t f m r y.
  field. repeat split; lra.
Qed.
(** The torque of Matt et al. for the secondary; for the primary it is that torque times the seconds in a year, about 31.6 million, if the
    rotation is saturated. *)
Theorem C97_M15 :
  forall pri sec d2 d1, star pri -> star sec -> magnetic_braking "M15" pri sec = Ok (d2, d1) ->
  exists f1 f2, fading (mass pri) f1 /\ fading (mass sec) f2 /\ torque sec d2 = matt sec * f2 /\
  (0.14 <= rossby pri -> torque pri d1 = matt pri * f1) /\ (rossby pri < 0.14 -> torque pri d1 = 3.1558149984e7 * (matt pri * f1)).
Proof.
  intros pri sec d2 d1 S1 S2 E. exists (fade (mass pri)), (fade (mass sec)). split; [apply fade_fading|]. split; [apply fade_fading|].
  change (Ok (M15_sec sec, M15_pri pri) = Ok (d2, d1)) in E. assert (Z : M15_sec sec = d2 /\ M15_pri pri = d1) by (split; congruence).
  destruct Z as (<- & <-). split; [now apply M15_sec_matt|]. assert (S' := S1). destruct S1 as (M & Rr & W & I & T). unfold M15_pri. rewrite saturated_spec by assumption. split; intros HR.
  - destruct (Rlt_dec (rossby pri) 0.14) as [Z|_]; [lra|]. now apply unsaturated_matt.
  - destruct (Rlt_dec (rossby pri) 0.14) as [Z|N]; [|lra]. rewrite <- (M15_sec_matt pri S'). unfold M15_sec. rewrite saturated_spec by assumption.
    destruct (Rlt_dec (rossby pri) 0.14) as [_|N]; [|lra]. destruct consts as (_ & _ & Ms & R0 & Y).
    unfold torque, omega_sol. change 1.9892e33 with Msun. change 6.9598e10 with Rsun. change 3.1558149984e7 with secyer.
    set (p := Rpower _ 2.6). set (t := M15_T0 pri). set (f := fade _). set (m := Msun) in *. set (r := Rsun) in *. set (y := secyer) in *. clearbody p t f m r y.
    field. repeat split; lra.
Qed.
Print Assumptions C97_M15.

(** The torque of Van and Ivanova, divided by the square of the seconds in a year, since their Alfven radius comes out too small by the
    seconds in a year; the primary fades with the mass of the secondary. *)
Lemma cube_root x y : 0 < x -> 0 < y -> Rpower (x / y ^ 3) (1 / 3) = Rpower x (1 / 3) / y.
Proof.
  intros X Y. apply cube_inj. replace ((Rpower x (1 / 3) / y) ^ 3) with (Rpower x (1 / 3) ^ 3 / y ^ 3) by (field; lra).
  rewrite !Rpower_cube; [reflexivity|exact X|apply Rdiv_lt_0_compat; [exact X|now apply pow_lt]].
Qed.
Lemma alfven_code s : star s -> mdot s <> 0 -> CARB_alfven s * 6.9598e10 = alfven s / 3.1558149984e7.
Proof.
  intros (M & Rr & W & I & T) Md. destruct consts as (G & _ & Ms & R0 & Y). unfold CARB_alfven, alfven. cbv zeta.
  destruct (Rlt_dec 0 (Rabs (mdot s))) as [_|N]; [|exfalso; apply N; now apply Rabs_pos_lt].
  assert (M2 : 0 < mdot s ^ 2) by (assert (Z := pow2_ge_0 (mdot s)); assert (Z' := pow_nonzero (mdot s) 2 Md); lra).
  unfold per_second, turnover, grams, wind. change 1.9892e33 with Msun. change 3.1558149984e7 with secyer. change 6.67428e-8 with standard_cgrav.
  unfold cms. change 6.9598e10 with Rsun.
  assert (c7 : 0 < 0.07) by lra. assert (c3 : 0 < 3e-6) by lra. assert (c8 : 0 < 2.8e6) by lra.
  set (g := standard_cgrav) in *. set (m := Msun) in *. set (r := Rsun) in *. set (y := secyer) in *. set (k7 := 0.07) in *. set (k3 := 3e-6) in *. set (k8 := 2.8e6) in *. clearbody g m r y k7 k3 k8.
  set (w := omega s) in *. set (t := tau_turn s) in *. set (q := radius s) in *. set (mm := mass s) in *. set (d := mdot s) in *. clearbody w t q mm d.
  set (V := 2 * g * (mm * m) / (q * r) + 2 * (w / y) ^ 2 * (q * r) ^ 2 / k7 ^ 2).
  assert (EV : 2 * g * mm / q * (m * y ^ 2 / r ^ 3) + 2 * w ^ 2 * q ^ 2 / k7 ^ 2 = V * y ^ 2 / r ^ 2) by (unfold V; field; repeat split; lra).
  assert (PV : 0 < V) by (unfold V; pos). rewrite EV. clearbody V.
  match goal with |- q * zpow ?x _ * r = q * r * Rpower ?z _ / y => assert (EQ : x = z / y ^ 3); [|assert (PZ : 0 < z)] end.
  - field. repeat split; lra.
  - apply Rdiv_lt_0_compat; [pos|]. apply Rmult_lt_0_compat; [|exact PV]. replace ((d * m / y) ^ 2) with (d ^ 2 * (m / y) ^ 2) by (field; lra). pos.
  - rewrite EQ. match goal with |- context [zpow (?z / y ^ 3) _] => set (u := z) in * end.
    unfold zpow. assert (0 < u / y ^ 3) by (apply Rdiv_lt_0_compat; [exact PZ|now apply pow_lt]). destruct (Req_EM_T (u / y ^ 3) 0); [lra|].
    rewrite cube_root by assumption. field. lra.
Qed.
Lemma torque_van s m : star s -> torque s (CARB_star s m) = van s * fade m / 3.1558149984e7 ^ 2.
Proof.
  intros Ss. unfold CARB_star, van, torque. destruct (Req_dec (mdot s) 0) as [Z|N].
  - rewrite Z. unfold wind. rewrite Z. replace (0 * 1.9892e33 / 3.1558149984e7) with 0 by (unfold Rdiv; ring).
    replace (2 / 3 * omega s * 0 * CARB_alfven s ^ 2 / inertia s * fade m) with 0 by (unfold Rdiv; ring). rewrite Rabs_R0. unfold Rdiv. ring.
  - assert (AL := alfven_code s Ss N). assert (F := fade_range m). destruct Ss as (M & Rr & W & I & T). destruct consts as (G & _ & Ms & R0 & Y).
    change 6.9598e10 with Rsun in *. change 3.1558149984e7 with secyer in *. change 1.9892e33 with Msun in *.
    assert (A' : alfven s = CARB_alfven s * Rsun * secyer) by (rewrite AL; field; lra). rewrite A'.
    assert (EA : Rabs (2 / 3 * omega s * mdot s * CARB_alfven s ^ 2 / inertia s * fade m) = 2 / 3 * omega s * Rabs (mdot s) * CARB_alfven s ^ 2 / inertia s * fade m).
    { replace (2 / 3 * omega s * mdot s * CARB_alfven s ^ 2 / inertia s * fade m) with ((2 / 3 * omega s * CARB_alfven s ^ 2 / inertia s * fade m) * mdot s) by (unfold Rdiv; ring).
      rewrite Rabs_mult. rewrite (Rabs_right (2 / 3 * omega s * CARB_alfven s ^ 2 / inertia s * fade m)); [unfold Rdiv; ring|].
      apply Rle_ge. apply Rmult_le_pos; [|lra]. apply Rmult_le_pos; [|left; now apply Rinv_0_lt_compat]. apply Rmult_le_pos; [lra|apply pow2_ge_0]. }
    rewrite EA. unfold wind, per_second. change 3.1558149984e7 with secyer. change 1.9892e33 with Msun.
    assert (EM : Rabs (mdot s * Msun / secyer) = Rabs (mdot s) * Msun / secyer).
    { unfold Rdiv. rewrite !Rabs_mult. rewrite (Rabs_right Msun) by lra. rewrite (Rabs_right (/ secyer)); [reflexivity|]. apply Rle_ge. left. now apply Rinv_0_lt_compat. }
    rewrite EM. set (c := CARB_alfven s). set (f := fade m). set (d := Rabs (mdot s)). set (mm := Msun) in *. set (r := Rsun) in *. set (y := secyer) in *. clear AL A' EA EM. clearbody c f d mm r y.
    field. repeat split; lra.
Qed.
Theorem C97_CARB :
  forall pri sec d2 d1, star pri -> star sec -> magnetic_braking "CARB" pri sec = Ok (d2, d1) ->
  exists f, fading (mass sec) f /\ torque sec d2 = van sec * f / 3.1558149984e7 ^ 2 /\ torque pri d1 = van pri * f / 3.1558149984e7 ^ 2.
Proof.
  intros pri sec d2 d1 S1 S2 E. exists (fade (mass sec)). split; [apply fade_fading|].
  change (Ok (CARB_star sec (mass sec), CARB_star pri (mass sec)) = Ok (d2, d1)) in E.
  assert (Z : CARB_star sec (mass sec) = d2 /\ CARB_star pri (mass sec) = d1) by (split; congruence).
  destruct Z as (<- & <-). split; now apply torque_van.
Qed.
Print Assumptions C97_CARB.

(** Braking never spins a star up and does nothing to one that does not rotate or has at least 1.5 solar masses, but for the primary with CARB. *)
Definition sound (s : latest) : Prop := 0 < mass s /\ 0 < radius s /\ 0 <= omega s /\ 0 < inertia s /\ 0 <= tau_turn s.
Lemma neg_mul a b : a <= 0 -> 0 <= b -> a * b <= 0.
Proof. intros. assert (0 <= - a * b) by (apply Rmult_le_pos; lra). lra. Qed.
Lemma zpow_nonneg x y : 0 <= zpow x y.
Proof. unfold zpow. destruct (Req_EM_T x 0); [lra|left; apply Rpower_pos]. Qed.
Lemma T0_neg s : M15_T0 s < 0.
Proof.
  unfold M15_T0. cbv zeta. set (g := Rpower (Rpower _ 0.5) _). assert (0 < g) by apply Rpower_pos.
  assert (H1 := Rpower_pos (radius s) 3.1). assert (H2 := Rpower_pos (mass s) 0.5).
  assert (K : M15_K < 0).
  { unfold M15_K. destruct consts as (_ & _ & Ms & R0 & Y). set (m := Msun) in *. set (r := Rsun) in *. set (y := secyer) in *. clearbody m r y.
    replace (-1.4e30) with (- (1.4e30)) by lra. assert (C : 0 < 1.4e30) by lra. set (c := 1.4e30) in *. clearbody c.
    assert (0 < c * y ^ 2 / (m * r ^ 2)) by pos. replace (- c * y ^ 2 / (m * r ^ 2)) with (- (c * y ^ 2 / (m * r ^ 2))) by (unfold Rdiv; ring). lra. }
  assert (0 < - M15_K * Rpower (radius s) 3.1 * Rpower (mass s) 0.5 * g).
  { apply Rmult_lt_0_compat; [|assumption]. apply Rmult_lt_0_compat; [|assumption]. apply Rmult_lt_0_compat; [lra|assumption]. }
  lra.
Qed.
Lemma inv_nonneg x : 0 < x -> 0 <= / x.
Proof. intros. left. now apply Rinv_0_lt_compat. Qed.
Lemma omega_sol_pos : 0 < omega_sol.
Proof. unfold omega_sol. destruct consts as (_ & _ & _ & _ & Y). apply Rmult_lt_0_compat; [lra|exact Y]. Qed.
Definition brakes (f : latest -> R -> R) : Prop :=
  forall s m, sound s -> f s m <= 0 /\ (omega s = 0 -> f s m = 0) /\ (1.5 <= m -> f s m = 0).
Lemma rvj_brakes : brakes (fun s m => - 3.8e-30 * (Rsun ^ 2 / secyer) * mass s * radius s ^ 4 * omega s ^ 3 / inertia s * fade m).
Proof.
  intros s m (M & Rr & W & I & T). destruct consts as (_ & _ & Ms & R0 & Y). assert (F := fade_range m). split; [|split].
  - apply neg_mul; [|lra]. apply neg_mul; [|now apply inv_nonneg]. apply neg_mul; [|now apply pow_le]. apply neg_mul; [|apply pow_le; lra]. apply neg_mul; [|lra].
    apply neg_mul; [lra|]. apply Rmult_le_pos; [apply pow2_ge_0|now apply inv_nonneg].
  - intros Z. rewrite Z. unfold Rdiv. ring.
  - intros Z. rewrite fade_zero by exact Z. ring.
Qed.
Lemma g18_brakes : brakes (fun s m => let Rossby := 2 * c_pi / omega s / tau_turn s in
  G18_c * omega s ^ 3 * tau_turn s * (4.05 * exp (- 1.4 * (0.03 / Rossby + 0.5 * Rossby + 1))) / inertia s * fade m).
Proof.
  intros s m (M & Rr & W & I & T). destruct consts as (_ & _ & Ms & R0 & Y). assert (F := fade_range m). cbv zeta. set (e := exp _). assert (Ee : 0 < e) by apply exp_pos. split; [|split].
  - apply neg_mul; [|lra]. apply neg_mul; [|now apply inv_nonneg]. apply neg_mul; [|lra]. apply neg_mul; [|lra]. apply neg_mul; [|now apply pow_le].
    unfold G18_c. apply neg_mul; [lra|]. apply inv_nonneg. set (mm := Msun) in *. set (r := Rsun) in *. clearbody mm r. pos.
  - intros Z. rewrite Z. unfold Rdiv. ring.
  - intros Z. rewrite fade_zero by exact Z. ring.
Qed.
Lemma m15_brakes (unit : R) : 0 < unit -> brakes (fun s m => if saturated s then M15_T0 s * Rpower chi 2.6 * (omega s / unit) / inertia s * fade m
  else M15_T0 s * zpow (tau_turn s / tau_conv_sol) 2.6 * zpow (omega s / omega_sol) (2.6 + 1) / inertia s * fade m).
Proof.
  intros U s m (M & Rr & W & I & T). assert (F := fade_range m). assert (T0 := T0_neg s). destruct (saturated s).
  - split; [|split].
    + apply neg_mul; [|lra]. apply neg_mul; [|now apply inv_nonneg]. apply neg_mul; [apply neg_mul; [lra|left; apply Rpower_pos]|]. apply Rmult_le_pos; [lra|now apply inv_nonneg].
    + intros Z. rewrite Z. unfold Rdiv. ring.
    + intros Z. rewrite fade_zero by exact Z. ring.
  - split; [|split].
    + apply neg_mul; [|lra]. apply neg_mul; [|now apply inv_nonneg]. apply neg_mul; [apply neg_mul; [lra|apply zpow_nonneg]|apply zpow_nonneg].
    + intros Z. rewrite Z. assert (Z0 : zpow (0 / omega_sol) (2.6 + 1) = 0).
      { unfold zpow, Rdiv. rewrite Rmult_0_l. destruct (Req_EM_T 0 0); [reflexivity|contradiction]. }
      rewrite Z0. unfold Rdiv. ring.
    + intros Z. rewrite fade_zero by exact Z. ring.
Qed.
Lemma carb_brakes : brakes CARB_star.
Proof.
  intros s m (M & Rr & W & I & T). unfold CARB_star. split; [|split].
  - assert (Z := Rabs_pos (2 / 3 * omega s * mdot s * CARB_alfven s ^ 2 / inertia s * fade m)). lra.
  - intros Z. rewrite Z. match goal with |- - Rabs ?x = 0 => replace x with 0 by (unfold Rdiv; ring) end. rewrite Rabs_R0. ring.
  - intros Z. rewrite fade_zero by exact Z. rewrite Rmult_0_r, Rabs_R0. ring.
Qed.
Theorem C97_spin_down :
  forall mode pri sec d2 d1, sound pri -> sound sec -> magnetic_braking mode pri sec = Ok (d2, d1) ->
  (d2 <= 0 /\ (omega sec = 0 -> d2 = 0) /\ (1.5 <= mass sec -> d2 = 0)) /\
  (d1 <= 0 /\ (omega pri = 0 -> d1 = 0) /\ (mode <> "CARB" -> 1.5 <= mass pri -> d1 = 0) /\ (mode = "CARB" -> 1.5 <= mass sec -> d1 = 0)).
Proof.
  intros mode pri sec d2 d1 H1 H2 E. unfold magnetic_braking in E.
  destruct (String.eqb mode "RVJ83") eqn:M1; [|destruct (String.eqb mode "M15") eqn:M2; [|destruct (String.eqb mode "G18") eqn:M3; [|destruct (String.eqb mode "CARB") eqn:M4; [|discriminate]]]].
  - apply String.eqb_eq in M1. destruct (rvj_brakes pri (mass pri) H1) as (A1 & B1 & C1). destruct (rvj_brakes sec (mass sec) H2) as (A2 & B2 & C2).
    assert (Z : RVJ83_star sec = d2 /\ RVJ83_star pri = d1) by (unfold RVJ83_braking in E; split; congruence). destruct Z as (<- & <-).
    split; [now split|]. split; [exact A1|]. split; [exact B1|]. split; [intros _; exact C1|]. intros K. congruence.
  - apply String.eqb_eq in M2. assert (U : 0 < 2.6e-6) by lra. destruct (m15_brakes 2.6e-6 U pri (mass pri) H1) as (A1 & B1 & C1). destruct (m15_brakes omega_sol omega_sol_pos sec (mass sec) H2) as (A2 & B2 & C2).
    assert (Z : M15_sec sec = d2 /\ M15_pri pri = d1) by (unfold M15_braking in E; split; congruence). destruct Z as (<- & <-).
    split; [now split|]. split; [exact A1|]. split; [exact B1|]. split; [intros _; exact C1|]. intros K. congruence.
  - apply String.eqb_eq in M3. destruct (g18_brakes pri (mass pri) H1) as (A1 & B1 & C1). destruct (g18_brakes sec (mass sec) H2) as (A2 & B2 & C2).
    assert (Z : G18_star sec = d2 /\ G18_star pri = d1) by (unfold G18_braking in E; split; congruence). destruct Z as (<- & <-).
    split; [now split|]. split; [exact A1|]. split; [exact B1|]. split; [intros _; exact C1|]. intros K. congruence.
  - apply String.eqb_eq in M4. destruct (carb_brakes pri (mass sec) H1) as (A1 & B1 & C1). destruct (carb_brakes sec (mass sec) H2) as (A2 & B2 & C2).
    assert (Z : CARB_star sec (mass sec) = d2 /\ CARB_star pri (mass sec) = d1) by (unfold CARB_braking in E; split; congruence). destruct Z as (<- & <-).
    split; [now split|]. split; [exact A1|]. split; [exact B1|]. split; [intros K; congruence|]. intros _. exact C1.
Qed.
Print Assumptions C97_spin_down.

Lemma van_neg s : star s -> mdot s <> 0 -> van s < 0.
Proof.
  intros Ss N. assert (AL := alfven_code s Ss N). destruct Ss as (M & Rr & W & I & T). unfold van.
  assert (A : 0 < alfven s).
  { unfold alfven. apply Rmult_lt_0_compat; [|apply Rpower_pos]. unfold cms. apply Rmult_lt_0_compat; [exact Rr|]. destruct consts as (_ & _ & _ & R0 & _). exact R0. }
  assert (Wd : 0 < Rabs (wind s)).
  { apply Rabs_pos_lt. unfold wind. destruct consts as (_ & _ & Ms & _ & Y). change 1.9892e33 with Msun. change 3.1558149984e7 with secyer.
    unfold Rdiv. apply Rmult_integral_contrapositive_currified; [apply Rmult_integral_contrapositive_currified; lra|]. apply Rinv_neq_0_compat. lra. }
  assert (P : 0 < per_second s) by (unfold per_second; apply Rdiv_lt_0_compat; lra).
  assert (0 < 2 / 3 * per_second s * Rabs (wind s) * alfven s ^ 2) by pos. lra.
Qed.
Lemma torque_sign s d : 0 < inertia s -> torque s d < 0 -> d < 0.
Proof.
  intros I H. unfold torque in H. change 1.9892e33 with Msun in H. change 6.9598e10 with Rsun in H. change 3.1558149984e7 with secyer in H.
  destruct consts as (_ & _ & Ms & R0 & Y). set (m := Msun) in *. set (r := Rsun) in *. set (y := secyer) in *. clearbody m r y.
  destruct (Rlt_dec d 0) as [L|N]; [exact L|exfalso]. assert (0 <= inertia s * d * (m * r ^ 2) / y ^ 2); [|lra].
  apply Rmult_le_pos; [|apply inv_nonneg; pos]. apply Rmult_le_pos; [apply Rmult_le_pos; lra|]. left. pos.
Qed.
(** With CARB a primary of any mass is braked if the secondary has less than 1.5 solar masses, and one of 1 solar mass is not if it has more. *)
Theorem C97_CARB_primary_refuted :
  forall pri sec d2 d1, star pri -> star sec -> mdot pri <> 0 -> magnetic_braking "CARB" pri sec = Ok (d2, d1) ->
  (mass sec < 1.5 -> d1 < 0) /\ (1.5 <= mass sec -> d1 = 0).
Proof.
  intros pri sec d2 d1 S1 S2 N E.
  change (Ok (CARB_star sec (mass sec), CARB_star pri (mass sec)) = Ok (d2, d1)) in E.
  assert (Z : CARB_star pri (mass sec) = d1) by congruence. rewrite <- Z. clear E Z. split; intros H.
  - assert (S1' := S1). destruct S1 as (M & Rr & W & I & T). apply (torque_sign pri); [exact I|]. rewrite torque_van by exact S1'.
    assert (V := van_neg pri S1' N). assert (F := fade_pos _ H). destruct consts as (_ & _ & _ & _ & Y). change 3.1558149984e7 with secyer.
    assert (0 < - van pri * fade (mass sec) / secyer ^ 2). { apply Rdiv_lt_0_compat; [apply Rmult_lt_0_compat; lra|]. apply pow_lt. exact Y. }
    unfold Rdiv in *. lra.
  - unfold CARB_star. rewrite fade_zero by exact H. rewrite Rmult_0_r, Rabs_R0. ring.
Qed.
Print Assumptions C97_CARB_primary_refuted.

(** With M15 two equal stars whose rotation is saturated are braked differently. *)
Theorem C97_M15_twins_refuted :
  forall s d2 d1, star s -> mass s < 1.5 -> rossby s < 0.14 -> magnetic_braking "M15" s s = Ok (d2, d1) -> d2 < 0 /\ d1 = 3.1558149984e7 * d2.
Proof.
  intros s d2 d1 Ss M15 HR E. change (Ok (M15_sec s, M15_pri s) = Ok (d2, d1)) in E. assert (Z : M15_sec s = d2 /\ M15_pri s = d1) by (split; congruence).
  destruct Z as (<- & <-). destruct Ss as (M & Rr & W & I & T). unfold M15_sec, M15_pri. rewrite saturated_spec by assumption.
  destruct (Rlt_dec (rossby s) 0.14) as [_|N]; [|lra]. assert (T0 := T0_neg s). assert (F := fade_pos _ M15). assert (C := Rpower_pos chi 2.6). split.
  - assert (O := omega_sol_pos). assert (0 < - M15_T0 s * Rpower chi 2.6 * (omega s / omega_sol) / inertia s * fade (mass s)).
    { set (c := Rpower chi 2.6) in *. set (f := fade (mass s)) in *. set (t0 := M15_T0 s) in *. set (o := omega_sol) in *. clearbody c f t0 o.
      apply Rmult_lt_0_compat; [|exact F]. apply Rdiv_lt_0_compat; [|exact I]. apply Rmult_lt_0_compat; [apply Rmult_lt_0_compat; lra|]. now apply Rdiv_lt_0_compat. }
    unfold Rdiv in *. lra.
  - unfold omega_sol. change 3.1558149984e7 with secyer. destruct consts as (_ & _ & _ & _ & Y).
    set (c := Rpower chi 2.6) in *. set (f := fade (mass s)) in *. set (t0 := M15_T0 s) in *. set (y := secyer) in *. clearbody c f t0 y. field. lra.
Qed.
Print Assumptions C97_M15_twins_refuted.

(** With M15 braking is not continuous in the rate of rotation: a star at the limit of saturation is braked less when it rotates faster by 5 per cent. *)
Lemma T0_decreasing s w : 0 < mass s -> 0 < radius s -> 0 < omega s -> omega s <= w -> - M15_T0 (with_omega s w) <= - M15_T0 s.
Proof.
  intros M Rr W L. unfold M15_T0. cbv zeta. cbn [mass radius omega with_omega].
  assert (K : M15_K < 0).
  { unfold M15_K. destruct consts as (_ & _ & Ms & R0 & Y). set (m := Msun) in *. set (r := Rsun) in *. set (y := secyer) in *. clearbody m r y.
    replace (-1.4e30) with (- (1.4e30)) by lra. assert (C : 0 < 1.4e30) by lra. set (c := 1.4e30) in *. clearbody c.
    assert (0 < c * y ^ 2 / (m * r ^ 2)) by pos. replace (- c * y ^ 2 / (m * r ^ 2)) with (- (c * y ^ 2 / (m * r ^ 2))) by (unfold Rdiv; ring). lra. }
  assert (CR : 0 < sqrt (standard_cgrav * mass s * Msun / (radius s * Rsun) ^ 3) * secyer).
  { destruct consts as (G & _ & Ms & R0 & Y). apply Rmult_lt_0_compat; [|exact Y]. apply sqrt_lt_R0. set (g := standard_cgrav) in *. set (m := Msun) in *. set (r := Rsun) in *. clearbody g m r. pos. }
  set (cr := sqrt _ * secyer) in *. clearbody cr.
  set (u := 1 + (w / cr / 0.072) ^ 2). set (v := 1 + (omega s / cr / 0.072) ^ 2).
  assert (V : 1 <= v <= u).
  { unfold u, v. assert (0 < omega s / cr) by (now apply Rdiv_lt_0_compat). assert (omega s / cr <= w / cr) by (apply Rmult_le_compat_r; [now apply inv_nonneg|exact L]).
    split; [assert (Z := pow2_ge_0 (omega s / cr / 0.072)); lra|]. apply Rplus_le_compat_l. apply pow_incr. split; lra. }
  assert (P : Rpower (Rpower u 0.5) (- (2) * 0.22) <= Rpower (Rpower v 0.5) (- (2) * 0.22)).
  { rewrite !Rpower_mult. replace (0.5 * (- (2) * 0.22)) with (- 0.22) by lra. destruct (proj2 V) as [V'| ->]; [|lra]. left. apply Rpower_lt_neg; lra. }
  assert (H1 := Rpower_pos (radius s) 3.1). assert (H2 := Rpower_pos (mass s) 0.5).
  assert (Q : 0 <= - M15_K * Rpower (radius s) 3.1 * Rpower (mass s) 0.5).
  { apply Rmult_le_pos; [|lra]. apply Rmult_le_pos; lra. }
  assert (Z := Rmult_le_compat_l _ _ _ Q P). lra.
Qed.
Theorem C97_M15_jump_refuted :
  forall s, star s -> mass s < 1.5 -> rossby s = 0.14 -> M15_sec s < M15_sec (with_omega s (1.05 * omega s)) < 0.
Proof.
  intros s Ss M15 HR. destruct Ss as (M & Rr & W & I & T).
  assert (S1 : saturated s = false) by (rewrite saturated_spec by assumption; destruct (Rlt_dec (rossby s) 0.14); [lra|reflexivity]).
  assert (HR' : rossby (with_omega s (1.05 * omega s)) < 0.14).
  { assert (Q : rossby (with_omega s (1.05 * omega s)) = rossby s / 1.05).
    { rewrite <- !rossby_code by (cbn [omega tau_turn with_omega]; lra). cbn [omega tau_turn with_omega]. set (k := c_pi). clearbody k. field. lra. }
    rewrite Q, HR. lra. }
  assert (S2 : saturated (with_omega s (1.05 * omega s)) = true).
  { rewrite saturated_spec by (cbn [omega tau_turn with_omega]; lra). destruct (Rlt_dec (rossby (with_omega s (1.05 * omega s))) 0.14); [reflexivity|lra]. }
  unfold M15_sec. rewrite S1, S2. unfold M15_unsaturated.
  assert (TD := T0_decreasing s (1.05 * omega s) M Rr W ltac:(lra)). assert (TN := T0_neg s). assert (TN' := T0_neg (with_omega s (1.05 * omega s))).
  cbn [mass radius omega inertia tau_turn with_omega]. set (t0 := M15_T0 s) in *. set (t1 := M15_T0 (with_omega s (1.05 * omega s))) in *.
  assert (F := fade_pos _ M15). set (f := fade (mass s)) in *. assert (O := omega_sol_pos).
  assert (PT : 0 < tau_turn s / tau_conv_sol) by (apply Rdiv_lt_0_compat; [exact T|unfold tau_conv_sol; lra]).
  assert (PW : 0 < omega s / omega_sol) by (now apply Rdiv_lt_0_compat).
  unfold zpow. destruct (Req_EM_T (tau_turn s / tau_conv_sol) 0); [lra|]. destruct (Req_EM_T (omega s / omega_sol) 0); [lra|].
  assert (RR : Rpower (tau_turn s / tau_conv_sol) 2.6 * Rpower (omega s / omega_sol) (2.6 + 1) = Rpower (tau_turn s / tau_conv_sol * (omega s / omega_sol)) 2.6 * (omega s / omega_sol)).
  { rewrite Rpower_plus, Rpower_1 by exact PW. rewrite <- Rmult_assoc, Rpower_mult_distr by assumption. reflexivity. }
  assert (WT : omega s * tau_turn s = 2 * c_pi / 0.14).
  { rewrite <- HR, <- rossby_code by assumption. set (k := c_pi) in *. assert (k <> 0) by (unfold k, c_pi; lra). clearbody k. field. repeat split; lra. }
  assert (RQ : 1.08 * chi < tau_turn s / tau_conv_sol * (omega s / omega_sol)).
  { replace (tau_turn s / tau_conv_sol * (omega s / omega_sol)) with (omega s * tau_turn s / (tau_conv_sol * omega_sol)) by (field; split; apply Rgt_not_eq; [exact O|unfold tau_conv_sol; lra]).
    rewrite WT. unfold chi, tau_conv_sol, omega_sol, secyer, c_pi. lra. }
  assert (RB : 1.08 * Rpower chi 2.6 < Rpower (tau_turn s / tau_conv_sol * (omega s / omega_sol)) 2.6).
  { assert (CP : 0 < chi) by (unfold chi; lra). apply Rle_lt_trans with (Rpower (1.08 * chi) 2.6).
    - rewrite <- Rpower_mult_distr by lra. apply Rmult_le_compat_r; [left; apply Rpower_pos|]. rewrite <- (Rpower_1 1.08) at 1 by lra. apply Rle_Rpower; lra.
    - apply Rlt_Rpower_l; [lra|]. split; [|exact RQ]. apply Rmult_lt_0_compat; lra. }
  set (big := Rpower (tau_turn s / tau_conv_sol * (omega s / omega_sol)) 2.6) in *. set (ch := Rpower chi 2.6) in *. assert (CH : 0 < ch) by apply Rpower_pos.
  replace (t0 * Rpower (tau_turn s / tau_conv_sol) 2.6 * Rpower (omega s / omega_sol) (2.6 + 1) / inertia s * f) with (- (- t0 * big) * (omega s / omega_sol * / inertia s * f)).
  2:{ transitivity (t0 * (Rpower (tau_turn s / tau_conv_sol) 2.6 * Rpower (omega s / omega_sol) (2.6 + 1)) * / inertia s * f); [rewrite RR; ring|].
      set (A := Rpower _ 2.6). set (B := Rpower _ (2.6 + 1)). clearbody A B. unfold Rdiv. ring. }
  replace (t1 * ch * (1.05 * omega s / omega_sol) / inertia s * f) with (- (- t1 * (1.05 * ch)) * (omega s / omega_sol * / inertia s * f)) by (unfold Rdiv; ring).
  assert (PP : 0 < omega s / omega_sol * / inertia s * f).
  { apply Rmult_lt_0_compat; [|exact F]. apply Rmult_lt_0_compat; [exact PW|]. now apply Rinv_0_lt_compat. }
  split.
  - apply Rmult_lt_compat_r; [exact PP|]. apply Ropp_lt_contravar. apply Rle_lt_trans with (- t0 * (1.05 * ch)); [apply Rmult_le_compat_r; lra|]. apply Rmult_lt_compat_l; lra.
  - assert (0 < - t1 * (1.05 * ch)) by (apply Rmult_lt_0_compat; lra). assert (0 < (- t1 * (1.05 * ch)) * (omega s / omega_sol * / inertia s * f)) by (now apply Rmult_lt_0_compat). lra.
Qed.
Print Assumptions C97_M15_jump_refuted.

(** RVJ83 and G18 do not depend on the role of the star. *)
Theorem C97_symmetric :
  forall mode pri sec d2 d1, mode = "RVJ83" \/ mode = "G18" -> magnetic_braking mode pri sec = Ok (d2, d1) -> magnetic_braking mode sec pri = Ok (d1, d2).
Proof.
  intros mode pri sec d2 d1 [-> | ->] E; unfold magnetic_braking in *; cbn [String.eqb Ascii.eqb Bool.eqb] in *; unfold RVJ83_braking, G18_braking in *; congruence.
Qed.
Print Assumptions C97_symmetric.

Example C97_example :
  let s := Latest 1 1 50 (- / 10 ^ 12) (7 / 100) 0 None None None 0 0 None 1 (1 / 10) in
  let heavy := Latest 10 4 50 (- / 10 ^ 7) 10 0 None None None 0 0 None 1 (1 / 10) in
  star s /\ star heavy /\ sound s /\ mass s < 1.5 /\ 1.5 <= mass heavy /\ mdot heavy <> 0 /\ 0.14 < rossby s /\ rossby (with_omega s 1000) < 0.14.
Proof.
  cbv zeta. unfold star, sound. cbn [mass radius omega inertia tau_turn mdot with_omega].
  rewrite <- !rossby_code by (cbn [omega tau_turn with_omega]; lra). cbn [mass radius omega inertia tau_turn mdot with_omega]. unfold c_pi.
  assert (0 < / 10 ^ 7) by (apply Rinv_0_lt_compat; lra). repeat split; lra.
Qed.
