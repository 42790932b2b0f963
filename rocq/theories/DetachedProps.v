(** The differential equations of the detached step and the events that end it (C98). *)
From Coq Require Import Reals String Bool List Lra.
From Verif Require Import PyBase RealLemmas OrbitModel OrbitProofs OrbitProps InspiralModel DetachedModel.
Open Scope string_scope.
Open Scope R_scope.

Definition add (x y : R * R * R * R) : R * R * R * R :=
  let '(a, b, c, d) := x in let '(a', b', c', d') := y in (a + a', b + b', c + c', d + d').
Definition zero : R * R * R * R := (0, 0, 0, 0).
Definition modes : list string := "RVJ83" :: "M15" :: "G18" :: "CARB" :: nil.
(** The state that is used: nothing negative, and eccentricities below 0.001 are 0. *)
Definition used (y y' : R * R * R * R) : Prop :=
  let '(a, e, w2, w1) := y in let '(a', e', w2', w1') := y' in
  (a' = if Rlt_dec a 0 then 0 else a) /\ (e' = if Rlt_dec e 0.001 then 0 else e) /\
  (w2' = if Rlt_dec w2 0 then 0 else w2) /\ (w1' = if Rlt_dec w1 0 then 0 else w1).

Lemma max_used x : (if Rlt_dec x 0 then 0 else x) = Rmax x 0.
Proof. destruct (Rlt_dec x 0); [now rewrite Rmax_right by lra|now rewrite Rmax_left by lra]. Qed.
Lemma e_used x : (if Rlt_dec x 0.001 then 0 else x) = used_e x.
Proof.
  unfold used_e. assert (K : / 10 ^ 3 = 0.001) by lra. rewrite K. destruct (Rlt_dec x 0.001) as [H|H].
  - destruct (Rlt_dec 0 (Rmax x 0)) as [P|P].
    + assert (M : Rmax x 0 = x) by (apply Rmax_left; destruct (Rle_dec 0 x); [assumption|rewrite Rmax_right in P by lra; lra]). rewrite M in *. destruct (Rlt_dec x 0.001); [reflexivity|lra].
    + assert (M := Rmax_r x 0). lra.
  - rewrite Rmax_left by lra. destruct (Rlt_dec 0 x); [|lra]. destruct (Rlt_dec x 0.001); [lra|reflexivity].
Qed.

Lemma four (a b c d a' b' c' d' : R) : a = a' -> b = b' -> c = c' -> d = d' -> @Ok (R * R * R * R) (a, b, c, d) = Ok (a', b', c', d').
Proof. now intros -> -> -> ->. Qed.
(** Each effect that is switched on adds its own changes, whatever others are on: tides to all four, gravitational radiation to the orbit,
    winds to the separation, and braking and winds to the spins. *)
Theorem C98_sum :
  forall o pri sec y a e w2 w1 b2 b1, used y (a, e, w2, w1) ->
  let p := with_omega pri w1 in let s := with_omega sec w2 in
  (do_magnetic_braking o = true -> magnetic_braking (magnetic_braking_mode o) p s = Ok (b2, b1)) ->
  derivatives o pri sec y = Ok (
    add (if do_tides o then default_tides a e p s else zero)
   (add (if do_gravitational_radiation o then (fst (default_gravrad a e (mass pri) (mass sec)), snd (default_gravrad a e (mass pri) (mass sec)), 0, 0) else zero)
   (add (if do_wind_loss o then (default_sep_from_winds a p s, 0, 0, 0) else zero)
   (add (if do_magnetic_braking o then (0, 0, b2, b1) else zero)
        (if do_spin_from_winds o then (0, 0, fst (default_spin_from_winds p s), snd (default_spin_from_winds p s)) else zero))))).
Proof.
  intros o pri sec (((y0, y1), y2), y3) a e w2 w1 b2 b1 (EA & EE & E2 & E1) p s HB.
  rewrite max_used in EA, E2, E1. rewrite e_used in EE. unfold derivatives. rewrite <- EA, <- EE, <- E2, <- E1. fold p s.
  change (mass p) with (mass pri). change (mass s) with (mass sec).
  destruct (default_tides a e p s) as (((ta, te), t2), t1). destruct (default_gravrad a e (mass pri) (mass sec)) as (ga, ge).
  destruct (default_spin_from_winds p s) as (v2, v1). cbn [fst snd].
  assert (B : (if do_magnetic_braking o then magnetic_braking (magnetic_braking_mode o) p s else Ok (0, 0)) = Ok (if do_magnetic_braking o then (b2, b1) else (0, 0))).
  { destruct (do_magnetic_braking o); [now apply HB|reflexivity]. }
  rewrite B. cbn [rbind]. unfold on, add, zero.
  destruct (do_tides o), (do_gravitational_radiation o), (do_wind_loss o), (do_magnetic_braking o), (do_spin_from_winds o); cbn [fst snd];
    apply four; ring.
Qed.
Print Assumptions C98_sum.

(** A prescription of braking that is not known is an error, although the documentation says that braking is skipped with a warning. *)
Theorem C98_mode :
  forall o pri sec y, (exists d, derivatives o pri sec y = Ok d) \/ derivatives o pri sec y = Raise TypeError /\ do_magnetic_braking o = true /\ ~ In (magnetic_braking_mode o) modes.
Proof.
  intros o pri sec (((y0, y1), y2), y3). unfold derivatives.
  destruct (default_tides _ _ _ _) as (((ta, te), t2), t1). destruct (default_gravrad _ _ _ _) as (ga, ge). destruct (default_spin_from_winds _ _) as (v2, v1).
  destruct (do_magnetic_braking o); [|left; eexists; reflexivity]. unfold magnetic_braking.
  destruct (String.eqb (magnetic_braking_mode o) "RVJ83") eqn:M1; [left; eexists; reflexivity|].
  destruct (String.eqb (magnetic_braking_mode o) "M15") eqn:M2; [left; eexists; reflexivity|].
  destruct (String.eqb (magnetic_braking_mode o) "G18") eqn:M3; [left; eexists; reflexivity|].
  destruct (String.eqb (magnetic_braking_mode o) "CARB") eqn:M4; [left; eexists; reflexivity|].
  right. split; [reflexivity|]. split; [reflexivity|]. intros H. cbn in H.
  apply String.eqb_neq in M1. apply String.eqb_neq in M2. apply String.eqb_neq in M3. apply String.eqb_neq in M4. intuition congruence.
Qed.
Print Assumptions C98_mode.
Theorem C98_mode_refuted :
  forall o pri sec y, do_magnetic_braking o = true -> ~ In (magnetic_braking_mode o) modes -> derivatives o pri sec y = Raise TypeError.
Proof.
  intros o pri sec (((y0, y1), y2), y3) B N. unfold derivatives. rewrite B.
  destruct (default_tides _ _ _ _) as (((ta, te), t2), t1). destruct (default_gravrad _ _ _ _) as (ga, ge). destruct (default_spin_from_winds _ _) as (v2, v1).
  assert (M : magnetic_braking (magnetic_braking_mode o) (with_omega pri (Rmax y3 0)) (with_omega sec (Rmax y2 0)) = Raise TypeError); [|now rewrite M].
  unfold magnetic_braking. unfold modes in N. cbn in N.
  destruct (String.eqb_spec (magnetic_braking_mode o) "RVJ83"); [exfalso; apply N; left; congruence|].
  destruct (String.eqb_spec (magnetic_braking_mode o) "M15"); [exfalso; apply N; right; left; congruence|].
  destruct (String.eqb_spec (magnetic_braking_mode o) "G18"); [exfalso; apply N; right; right; left; congruence|].
  destruct (String.eqb_spec (magnetic_braking_mode o) "CARB"); [exfalso; apply N; right; right; right; left; congruence|]. reflexivity.
Qed.
Print Assumptions C98_mode_refuted.

(** What is negative counts as 0, and an orbit with an eccentricity below 0.001 as circular. *)
Theorem C98_clamped :
  forall o pri sec y y', used y y' -> used y' y' /\ derivatives o pri sec y = derivatives o pri sec y'.
Proof.
  intros o pri sec (((y0, y1), y2), y3) (((a, e), w2), w1) (EA & EE & E2 & E1).
  assert (F : forall x z c, 0 <= c -> z = (if Rlt_dec x c then 0 else x) -> z = (if Rlt_dec z c then 0 else z)).
  { intros x z c C H. destruct (Rlt_dec x c); subst z; [destruct (Rlt_dec 0 c); reflexivity|]. destruct (Rlt_dec x c); [contradiction|reflexivity]. }
  assert (U : used (a, e, w2, w1) (a, e, w2, w1)).
  { unfold used. split; [apply (F y0); [lra|assumption]|]. split; [apply (F y1); [lra|assumption]|]. split; [apply (F y2)|apply (F y3)]; (lra || assumption). }
  split; [exact U|]. destruct U as (UA & UE & U2 & U1). rewrite max_used in EA, E2, E1, UA, U2, U1. rewrite e_used in EE, UE.
  unfold derivatives. rewrite <- EA, <- EE, <- E2, <- E1, <- UA, <- UE, <- U2, <- U1. reflexivity.
Qed.
Print Assumptions C98_clamped.

(** The integration ends once a star fills 95 per cent of the Roche lobe (Eggleton 1983) that it has at periastron, or its lobe for the
    relative criterion, which therefore is never met before the other. *)
Definition eggleton (q : R) : R := 0.49 * Rpower q (2 / 3) / (0.6 * Rpower q (2 / 3) + ln (1 + Rpower q (1 / 3))).
Theorem C98_overflow :
  forall pri sec sep ecc, 0 < mass pri -> 0 < mass sec -> 0 < sep -> 0 <= ecc < 1 ->
  exists r1 r2 v1 v2, ev_rlo2 pri sec sep ecc = Some r1 /\ ev_rlo1 pri sec sep ecc = Some r2 /\ ev_rel_rlo2 pri sec sep ecc = Some v1 /\ ev_rel_rlo1 pri sec sep ecc = Some v2 /\
  let L1 := sep * (1 - ecc) * eggleton (mass pri / mass sec) in
  let L2 := sep * (1 - ecc) * eggleton (mass sec / mass pri) in
  (0 <= r1 <-> 0.95 * L1 <= radius pri) /\ (0 <= r2 <-> 0.95 * L2 <= radius sec) /\
  (0 <= v1 <-> L1 <= radius pri) /\ (0 <= v2 <-> L2 <= radius sec) /\ (0 <= v1 -> 0 < r1) /\ (0 <= v2 -> 0 < r2).
Proof.
  intros pri sec sep ecc H1 H2 HS HE.
  assert (T : forall s c, 0 < mass s -> 0 < mass c -> exists r v, ev_rlo s c sep ecc = Some r /\ ev_rel_rlo s c sep ecc = Some v /\
    let L := sep * (1 - ecc) * eggleton (mass s / mass c) in (0 <= r <-> 0.95 * L <= radius s) /\ (0 <= v <-> L <= radius s) /\ (0 <= v -> 0 < r)).
  { intros s c Hs Hc. assert (P : 0 < (1 - ecc) * sep) by (apply Rmult_lt_0_compat; lra).
    assert (V := roche_value (mass s) (mass c) ((1 - ecc) * sep) Hs Hc ltac:(lra)).
    destruct (C18_numbers (mass s) (mass c) ((1 - ecc) * sep) Hs Hc P) as (r & r' & E & _ & B & _). rewrite E in V. injection V as V.
    assert (Q : r = sep * (1 - ecc) * eggleton (mass s / mass c)).
    { rewrite V, <- lobe_formula by apply Rpower_pos. unfold eggleton. rewrite Rpower_two_thirds. unfold Rdiv. ring. }
    unfold ev_rlo, ev_rel_rlo. rewrite E. eexists. eexists. split; [reflexivity|]. split; [reflexivity|]. cbv zeta. rewrite <- Q. clear V Q E.
    assert (W : 0 <= (radius s - r) / r <-> r <= radius s).
    { split; intros H.
      - assert (0 <= (radius s - r) / r * r) by (apply Rmult_le_pos; lra). replace ((radius s - r) / r * r) with (radius s - r) in H0 by (field; lra). lra.
      - apply Rmult_le_pos; [lra|]. left. apply Rinv_0_lt_compat. lra. }
    split; [split; lra|]. split; [exact W|]. rewrite W. lra. }
  destruct (T pri sec H1 H2) as (r1 & v1 & A1 & B1 & C1). destruct (T sec pri H2 H1) as (r2 & v2 & A2 & B2 & C2).
  exists r1, r2, v1, v2. split; [exact A1|]. split; [exact A2|]. split; [exact B1|]. split; [exact B2|]. cbv zeta in *. tauto.
Qed.
Print Assumptions C98_overflow.
(** And once the age on the track of a star, the time minus its offset, reaches the end of the track. *)
Theorem C98_track_end : forall t_max t_offset t, 0 <= ev_max_time t_max t_offset t <-> t - t_offset <= t_max.
Proof. intros. unfold ev_max_time. split; lra. Qed.
Print Assumptions C98_track_end.

Example C98_example :
  let o := Options true true true "M16" true true in let o' := Options true false true "RVJ83" false false in
  let pri := Latest 6 3 0 (- / 10 ^ 5) 1 0 None None None 0 0 None 1 0 in let sec := Latest 4 2 0 0 1 0 None None None 0 0 None 1 0 in
  used (100, 0.0005, - 1, 0) (100, 0, 0, 0) /\ derivatives o pri sec (100, 0.0005, - 1, 0) = Raise TypeError /\
  derivatives o' pri sec (100, 0.0005, - 1, 0) = Ok (1 / 10000, 0, 0, 0).
Proof.
  cbv zeta. assert (U : used (100, 0.0005, - 1, 0) (100, 0, 0, 0)).
  { unfold used. destruct (Rlt_dec 100 0); [lra|]. destruct (Rlt_dec 0.0005 0.001); [|lra]. destruct (Rlt_dec (- 1) 0); [|lra]. destruct (Rlt_dec 0 0); auto. }
  split; [exact U|]. split.
  - apply C98_mode_refuted; [reflexivity|]. cbn. intuition discriminate.
  - set (pri := Latest 6 3 0 (- / 10 ^ 5) 1 0 None None None 0 0 None 1 0). set (sec := Latest 4 2 0 0 1 0 None None None 0 0 None 1 0).
    rewrite (C98_sum (Options true false true "RVJ83" false false) pri sec _ _ _ _ _ 0 0 U).
    + cbn [do_tides do_gravitational_radiation do_wind_loss do_magnetic_braking do_spin_from_winds]. unfold add, zero, default_sep_from_winds. cbn [mass mdot with_omega pri sec]. apply four; [field|ring|ring|ring].
    + intros _. unfold magnetic_braking. cbn [String.eqb Ascii.eqb Bool.eqb]. unfold RVJ83_braking, RVJ83_star. cbn [omega with_omega].
      assert (Z : forall x y : R, x = 0 -> y = 0 -> @Ok (R * R) (x, y) = Ok (0, 0)) by now intros x y -> ->. apply Z; unfold Rdiv; ring.
Qed.
