(** The orbit after a common envelope (C88) and after a phase of stable mass transfer (C89). *)
From Coq Require Import Reals String Bool List Lra.
From Coquelicot Require Import Coquelicot.
From Verif Require Import PyBase RealLemmas KickModel OrbitModel OrbitProofs OrbitProps CEEModel.
Import ListNotations.
Open Scope string_scope.
Open Scope R_scope.
Open Scope list_scope.

(** ** C88 *)
(** Orbital energy of two masses (Msun) at a distance (cm); the energy that holds an envelope, for lambda a number or NaN. *)
Definition orbital_energy (m m' a : R) : R := - (6.67428e-8 * (m * 1.9892e33) * (m' * 1.9892e33) / (2 * a)).
Definition binding (lam : option R) (m mc r : R) : R :=
  match lam with Some l => 6.67428e-8 * (m * 1.9892e33) * ((m - mc) * 1.9892e33) / (l * (r * 6.9598e10)) | None => 0 end.
Definition positive (lam : option R) : Prop := match lam with Some l => 0 < l | None => True end.
(** Two stars with cores: masses and radii positive, cores no heavier than the stars. *)
Definition meaningful (alpha P m1 r1 : R) (k1 : core) (m2 r2 : R) (k2 : core) : Prop :=
  0 < alpha /\ 0 < P /\ 0 < r1 /\ 0 < r2 /\ 0 < c_mass k1 <= m1 /\ 0 < c_mass k2 <= m2 /\ positive (c_lambda k1) /\ positive (c_lambda k2).
(** What holds the envelope or envelopes. *)
Definition held (m1 r1 : R) (k1 : core) (m2 r2 : R) (k2 : core) (double : bool) : R :=
  binding (c_lambda k1) m1 (c_mass k1) r1 + (if double then binding (c_lambda k2) m2 (c_mass k2) r2 else 0).

Definition KK : R := standard_cgrav * Msun * Msun / 2.
Lemma KK_pos : 0 < KK. Proof. unfold KK, standard_cgrav, Msun. lra. Qed.
Lemma half : -0.5 = - (1 / 2). Proof. lra. Qed.
Lemma binding_pos lam m mc r : 0 < mc <= m -> 0 < r -> positive lam -> 0 <= binding lam m mc r.
Proof.
  intros H R0 L. unfold binding. destruct lam as [l|]; [|lra]. cbn in L.
  apply Rmult_le_pos; [|left; apply Rinv_0_lt_compat; apply Rmult_lt_0_compat; lra].
  apply Rmult_le_pos; [|nra]. apply Rmult_le_pos; lra.
Qed.
Lemma ebind_binding lam m mc r : positive lam -> 0 < r -> ebind lam m mc r = - binding lam m mc r.
Proof.
  intros L R0. unfold ebind, binding. destruct lam as [l|]; [|lra]. cbn in L.
  change 6.67428e-8 with standard_cgrav. change 1.9892e33 with Msun. change 6.9598e10 with Rsun.
  assert (0 < Rsun) by apply constants_pos. field. repeat split; lra.
Qed.
Lemma held_pos m1 r1 k1 m2 r2 k2 db alpha P : meaningful alpha P m1 r1 k1 m2 r2 k2 -> 0 <= held m1 r1 k1 m2 r2 k2 db.
Proof.
  intros (A & HP & R1 & R2 & M1 & M2 & L1 & L2). unfold held.
  pose proof (binding_pos (c_lambda k1) m1 (c_mass k1) r1 M1 R1 L1).
  destruct db; [pose proof (binding_pos (c_lambda k2) m2 (c_mass k2) r2 M2 R2 L2)|]; lra.
Qed.
Definition before (P m1 m2 : R) : R := 6.9598e10 * orbital_separation_from_period P m1 m2.
Lemma before_pos P m1 m2 : 0 < before P m1 m2.
Proof. unfold before. pose proof (separation_pos P m1 m2). lra. Qed.
Lemma after_closed alpha P m1 r1 k1 m2 r2 k2 db : meaningful alpha P m1 r1 k1 m2 r2 k2 ->
  separation_after alpha P m1 r1 k1 m2 r2 k2 db
  = KK * (c_mass k1 * c_mass k2) / (KK * (m1 * m2) / before P m1 m2 + held m1 r1 k1 m2 r2 k2 db / alpha) /\
  0 < KK * (m1 * m2) / before P m1 m2.
Proof.
  intros (A & HP & R1 & R2 & M1 & M2 & L1 & L2). pose proof KK_pos as K. pose proof (before_pos P m1 m2) as B.
  assert (M : 0 < m1 * m2) by (apply Rmult_lt_0_compat; lra).
  assert (P1 : 0 < KK * (m1 * m2) / before P m1 m2) by (apply Rdiv_lt_0_compat; [apply Rmult_lt_0_compat; lra|lra]).
  split; [|easy]. unfold separation_after. cbv zeta.
  rewrite (ebind_binding (c_lambda k1)) by easy.
  replace (- binding (c_lambda k1) m1 (c_mass k1) r1 + (if db then ebind (c_lambda k2) m2 (c_mass k2) r2 else 0))
    with (- held m1 r1 k1 m2 r2 k2 db).
  2:{ unfold held. destruct db; [rewrite ebind_binding by easy|]; ring. }
  pose proof (held_pos m1 r1 k1 m2 r2 k2 db alpha P (conj A (conj HP (conj R1 (conj R2 (conj M1 (conj M2 (conj L1 L2)))))))) as H0.
  change (separation_before P m1 m2) with (before P m1 m2).
  assert (H1 : 0 <= held m1 r1 k1 m2 r2 k2 db / alpha) by (apply Rmult_le_pos; [easy|left; now apply Rinv_0_lt_compat]).
  replace (- 0.5 * standard_cgrav * m1 * Msun * m2 * Msun / before P m1 m2) with (- (KK * (m1 * m2) / before P m1 m2))
    by (unfold KK; rewrite half; field; apply Rgt_not_eq; lra).
  replace (- (KK * (m1 * m2) / before P m1 m2) + - held m1 r1 k1 m2 r2 k2 db / alpha)
    with (- (KK * (m1 * m2) / before P m1 m2 + held m1 r1 k1 m2 r2 k2 db / alpha)) by (field; lra).
  set (D := KK * (m1 * m2) / before P m1 m2 + held m1 r1 k1 m2 r2 k2 db / alpha) in *.
  assert (0 < D) by (unfold D; lra). unfold KK. rewrite half. field. lra.
Qed.

(** The energy freed by the orbit, times the efficiency, is what held the envelope; the orbit never grows. *)
Theorem C88_energy :
  forall alpha P m1 r1 k1 m2 r2 k2 double, meaningful alpha P m1 r1 k1 m2 r2 k2 ->
  let a0 := 6.9598e10 * orbital_separation_from_period P m1 m2 in
  let a := separation_after alpha P m1 r1 k1 m2 r2 k2 double in
  0 < a /\
  alpha * (orbital_energy m1 m2 a0 - orbital_energy (c_mass k1) (c_mass k2) a) = held m1 r1 k1 m2 r2 k2 double /\
  a <= a0 * (c_mass k1 * c_mass k2 / (m1 * m2)) <= a0 /\
  (a = a0 * (c_mass k1 * c_mass k2 / (m1 * m2)) <-> held m1 r1 k1 m2 r2 k2 double = 0).
Proof.
  intros alpha P m1 r1 k1 m2 r2 k2 db H a0 a. destruct (after_closed alpha P m1 r1 k1 m2 r2 k2 db H) as [E D0]. fold a in E.
  pose proof (held_pos m1 r1 k1 m2 r2 k2 db alpha P H) as HP. destruct H as (A & P0 & R1 & R2 & M1 & M2 & L1 & L2).
  change (before P m1 m2) with a0 in *. pose proof (before_pos P m1 m2) as B. change (before P m1 m2) with a0 in B.
  pose proof KK_pos as K. set (h := held m1 r1 k1 m2 r2 k2 db) in *.
  assert (H1 : 0 <= h / alpha) by (apply Rmult_le_pos; [easy|left; now apply Rinv_0_lt_compat]).
  assert (M : 0 < m1 * m2) by (apply Rmult_lt_0_compat; lra). assert (MC : 0 < c_mass k1 * c_mass k2) by (apply Rmult_lt_0_compat; lra).
  set (mm := m1 * m2) in *. set (cc := c_mass k1 * c_mass k2) in *. set (D := KK * mm / a0 + h / alpha) in *.
  assert (DP : 0 < D) by (unfold D; lra).
  assert (AP : 0 < a) by (rewrite E; apply Rdiv_lt_0_compat; nra).
  assert (F : a0 * (cc / mm) = KK * cc / (KK * mm / a0)) by (field; repeat split; lra).
  assert (G : a * D = KK * cc) by (rewrite E; field; lra).
  assert (G' : a0 * (cc / mm) * (KK * mm / a0) = KK * cc) by (field; repeat split; lra).
  split; [easy|]. split; [|split; [split|]].
  - unfold orbital_energy.
    change 6.67428e-8 with standard_cgrav. change 1.9892e33 with Msun.
    replace (standard_cgrav * (m1 * Msun) * (m2 * Msun) / (2 * a0)) with (KK * mm / a0) by (unfold KK, mm; field; lra).
    replace (standard_cgrav * (c_mass k1 * Msun) * (c_mass k2 * Msun) / (2 * a)) with (KK * cc / a) by (unfold KK, cc; field; lra).
    replace (KK * cc / a) with D by (rewrite <- G; field; lra). unfold D. field. split; lra.
  - apply Rmult_le_reg_r with D; [easy|]. rewrite G, <- G'. apply Rmult_le_compat_l.
    + rewrite F. left. apply Rdiv_lt_0_compat; nra.
    + unfold D. lra.
  - rewrite <- (Rmult_1_r a0) at 2. apply Rmult_le_compat_l; [lra|]. apply Rmult_le_reg_r with mm; [easy|].
    replace (cc / mm * mm) with cc by (field; lra). unfold cc, mm. rewrite Rmult_1_l. apply Rmult_le_compat; lra.
  - split; intros Q.
    + rewrite Q in G. rewrite <- G' in G. apply Rmult_eq_reg_l in G.
      * unfold D in G. assert (Z : h / alpha = 0) by lra. replace h with (h / alpha * alpha) by (field; lra). rewrite Z. ring.
      * rewrite F. apply Rgt_not_eq. apply Rdiv_lt_0_compat; nra.
    + rewrite F. rewrite E. unfold D. rewrite Q. replace (KK * mm / a0 + 0 / alpha) with (KK * mm / a0) by (field; lra). reflexivity.
Qed.
Print Assumptions C88_energy.

(** A higher efficiency and a more loosely bound envelope leave a wider orbit. *)
Theorem C88_monotone :
  forall alpha P m1 r1 k1 m2 r2 k2 double, meaningful alpha P m1 r1 k1 m2 r2 k2 ->
  let a := separation_after alpha P m1 r1 k1 m2 r2 k2 double in
  (forall alpha', alpha < alpha' ->
     a <= separation_after alpha' P m1 r1 k1 m2 r2 k2 double /\
     (0 < held m1 r1 k1 m2 r2 k2 double -> a < separation_after alpha' P m1 r1 k1 m2 r2 k2 double)) /\
  (forall l l', c_lambda k1 = Some l -> l < l' -> c_mass k1 < m1 ->
     a < separation_after alpha P m1 r1 (Core (Some l') (c_mass k1) (c_radius k1) (c_type k1)) m2 r2 k2 double) /\
  (0 < held m1 r1 k1 m2 r2 k2 double ->
     a < alpha * (6.67428e-8 * (c_mass k1 * 1.9892e33) * (c_mass k2 * 1.9892e33) / 2) / held m1 r1 k1 m2 r2 k2 double).
Proof.
  intros alpha P m1 r1 k1 m2 r2 k2 db H a. destruct (after_closed alpha P m1 r1 k1 m2 r2 k2 db H) as [E D0]. fold a in E.
  pose proof (held_pos m1 r1 k1 m2 r2 k2 db alpha P H) as HP. pose proof H as H'. destruct H as (A & P0 & R1 & R2 & M1 & M2 & L1 & L2).
  pose proof KK_pos as K. set (h := held m1 r1 k1 m2 r2 k2 db) in *.
  assert (MC : 0 < KK * (c_mass k1 * c_mass k2)) by (apply Rmult_lt_0_compat; [easy|apply Rmult_lt_0_compat; lra]).
  assert (Q : forall x y, 0 < x -> x < y -> KK * (c_mass k1 * c_mass k2) / y < KK * (c_mass k1 * c_mass k2) / x).
  { intros x y X Y. apply Rmult_lt_compat_l; [easy|]. apply Rinv_lt_contravar; [apply Rmult_lt_0_compat; lra|easy]. }
  assert (H1 : 0 <= h / alpha) by (apply Rmult_le_pos; [easy|left; now apply Rinv_0_lt_compat]).
  split; [|split].
  - intros alpha' A'. assert (H2 : meaningful alpha' P m1 r1 k1 m2 r2 k2) by (repeat split; (easy || lra)).
    destruct (after_closed alpha' P m1 r1 k1 m2 r2 k2 db H2) as [E' _]. fold h in E'. rewrite E, E'.
    assert (I : / alpha' < / alpha) by (apply Rinv_lt_contravar; [apply Rmult_lt_0_compat; lra|easy]).
    assert (I0 : 0 < / alpha') by (apply Rinv_0_lt_compat; lra).
    destruct (Req_dec h 0) as [Z|Z].
    + rewrite Z. split; [|lra]. right. unfold Rdiv at 3 6. rewrite !Rmult_0_l. reflexivity.
    + assert (h0 : 0 < h) by (destruct HP as [HP|HP]; [exact HP|exfalso; apply Z; symmetry; exact HP]).
      assert (J : h / alpha' < h / alpha) by (apply Rmult_lt_compat_l; [exact h0|exact I]).
      assert (J0 : 0 < h / alpha') by (apply Rmult_lt_0_compat; [exact h0|exact I0]).
      assert (R : KK * (c_mass k1 * c_mass k2) / (KK * (m1 * m2) / before P m1 m2 + h / alpha) < KK * (c_mass k1 * c_mass k2) / (KK * (m1 * m2) / before P m1 m2 + h / alpha')) by (apply Q; lra).
      split; [left; exact R|intros _; exact R].
  - intros l l' EL L C. set (k1' := Core (Some l') (c_mass k1) (c_radius k1) (c_type k1)).
    unfold positive in L1. rewrite EL in L1.
    assert (H2 : meaningful alpha P m1 r1 k1' m2 r2 k2).
    { unfold meaningful, k1', positive. cbn [c_mass c_lambda]. repeat split; (easy || lra). }
    destruct (after_closed alpha P m1 r1 k1' m2 r2 k2 db H2) as [E' D']. rewrite E, E'.
    pose proof (held_pos m1 r1 k1' m2 r2 k2 db alpha P H2) as HP'. set (h' := held m1 r1 k1' m2 r2 k2 db) in *.
    change (c_mass k1') with (c_mass k1). apply Q.
    + assert (0 <= h' / alpha) by (apply Rmult_le_pos; [easy|left; now apply Rinv_0_lt_compat]). lra.
    + apply Rplus_lt_compat_l. apply Rmult_lt_compat_r; [now apply Rinv_0_lt_compat|].
      unfold h, h', held, k1'. cbn [c_lambda c_mass]. rewrite EL. apply Rplus_lt_compat_r. unfold binding.
      apply Rmult_lt_compat_l.
      * apply Rmult_lt_0_compat; [apply Rmult_lt_0_compat; lra|apply Rmult_lt_0_compat; lra].
      * assert (X : 0 < r1 * 6.9598e10) by lra.
        apply Rinv_lt_contravar; [apply Rmult_lt_0_compat; apply Rmult_lt_0_compat; lra|apply Rmult_lt_compat_r; lra].
  - intros h0. change 6.67428e-8 with standard_cgrav. change 1.9892e33 with Msun.
    replace (alpha * (standard_cgrav * (c_mass k1 * Msun) * (c_mass k2 * Msun) / 2) / h) with (KK * (c_mass k1 * c_mass k2) / (h / alpha)).
    2:{ unfold KK. field. split; lra. }
    rewrite E. apply Q; [apply Rdiv_lt_0_compat; lra|lra].
Qed.
Print Assumptions C88_monotone.

(** ** C89 *)
(** Orbital angular momentum of a circular orbit, up to a constant factor. *)
Definition momentum (m1 m2 P : R) : R := m1 * m2 * Rpower (P / (m1 + m2)) (1 / 3).
(** What the accretor weighs when the donor has come down to [x]. *)
Definition gained (Mdon Macc alpha beta x : R) : R := Macc + (1 - alpha) * (1 - beta) * (Mdon - x).

Lemma pc_formula P Mi x Ma a b : 0 <= a <= 1 -> 0 <= b <= 1 -> x <= Mi ->
  period_change_stable_MT P Mi x Ma a b =
  Ok (if Reqb b 1
      then P * Rpower (x / Mi) (3 * (a - 1)) * exp (3 * (1 - a) * (x - Mi) / gained Mi Ma a b x) * ((Mi + Ma) / (x + gained Mi Ma a b x)) ^ 2
      else P * Rpower (x / Mi) (3 * (a - 1)) * Rpower (gained Mi Ma a b x / Ma) (3 / (b - 1)) * ((Mi + Ma) / (x + gained Mi Ma a b x)) ^ 2).
Proof.
  intros A B X. unfold period_change_stable_MT, gained. cbv zeta. unfold Rltb.
  replace (Ma + (1 - b) * (1 - a) * (Mi - x)) with (Ma + (1 - a) * (1 - b) * (Mi - x)) by ring.
  destruct (Rlt_dec (Mi - x) 0); [lra|]. destruct (Rlt_dec a 0); [lra|]. destruct (Rlt_dec b 0); [lra|].
  destruct (Rlt_dec 1 a); [lra|]. destruct (Rlt_dec 1 b); [lra|]. cbn [orb]. destruct (Reqb b 1); reflexivity.
Qed.
Lemma gained_pos Mi Ma a b x : 0 < Ma -> 0 <= a <= 1 -> 0 <= b <= 1 -> x <= Mi -> Ma <= gained Mi Ma a b x.
Proof.
  intros M A B X. unfold gained. assert (0 <= (1 - a) * (1 - b) * (Mi - x)); [|lra].
  apply Rmult_le_pos; [apply Rmult_le_pos|]; lra.
Qed.
(** The logarithm of the result. *)
Definition log_period (P Mi Ma a b x : R) : R :=
  ln P + 3 * (a - 1) * (ln x - ln Mi)
  + (if Reqb b 1 then 3 * (1 - a) * (x - Mi) / Ma else 3 / (b - 1) * (ln (gained Mi Ma a b x) - ln Ma))
  + 2 * (ln (Mi + Ma) - ln (x + gained Mi Ma a b x)).
Lemma ln_quot x y : 0 < x -> 0 < y -> ln (x / y) = ln x - ln y.
Proof. intros X Y. unfold Rdiv. rewrite ln_mult by (try apply Rinv_0_lt_compat; lra). rewrite ln_Rinv by easy. ring. Qed.
Lemma pc_exp P Mi x Ma a b : 0 < P -> 0 < x <= Mi -> 0 < Ma -> 0 <= a <= 1 -> 0 <= b <= 1 ->
  period_change_stable_MT P Mi x Ma a b = Ok (exp (log_period P Mi Ma a b x)).
Proof.
  intros HP X M A B. rewrite pc_formula by lra. f_equal. pose proof (gained_pos Mi Ma a b x M A B (proj2 X)) as G.
  unfold log_period. set (g := gained Mi Ma a b x) in *.
  assert (S2 : forall y, 0 < y -> y ^ 2 = exp (2 * ln y)).
  { intros y Y. rewrite <- Rpower_pow by easy. unfold Rpower. replace (INR 2) with 2 by (cbn; lra). reflexivity. }
  assert (Q : 0 < (Mi + Ma) / (x + g)) by (apply Rdiv_lt_0_compat; lra).
  rewrite (S2 _ Q). rewrite (ln_quot (Mi + Ma) (x + g)) by lra.
  rewrite !exp_plus, (exp_ln P HP). unfold Rpower. rewrite (ln_quot x Mi) by lra.
  destruct (Reqb b 1) eqn:E.
  - assert (E1 : b = 1) by (unfold Reqb in E; destruct (Req_EM_T b 1); [easy|discriminate]).
    assert (g = Ma) by (unfold g, gained; rewrite E1; ring). rewrite H. reflexivity.
  - rewrite (ln_quot g Ma) by lra. reflexivity.
Qed.

Lemma log_momentum P Mi Ma a b z : 0 < Ma -> 0 <= a <= 1 -> 0 <= b <= 1 -> 0 < z < Mi ->
  ln (momentum z (gained Mi Ma a b z) (exp (log_period P Mi Ma a b z)))
  = ln z + ln (gained Mi Ma a b z) + 1 / 3 * (log_period P Mi Ma a b z - ln (z + gained Mi Ma a b z)).
Proof.
  intros HA A B Z1. pose proof (gained_pos Mi Ma a b z HA A B ltac:(lra)) as G.
  unfold momentum. set (g := gained Mi Ma a b z) in *.
  rewrite ln_mult; [|apply Rmult_lt_0_compat; lra|apply Rpower_pos]. rewrite ln_mult by lra.
  unfold Rpower. rewrite ln_exp. rewrite ln_quot by (try apply exp_pos; lra). rewrite ln_exp. ring.
Qed.

(** The call succeeds exactly when the donor does not gain mass and the efficiencies are fractions. *)
Theorem C89_errors :
  forall P Mi Mf Ma alpha beta, 0 < P -> 0 < Mf -> 0 < Mi -> 0 < Ma ->
  (Mf <= Mi /\ 0 <= alpha <= 1 /\ 0 <= beta <= 1 ->
     exists Pf, 0 < Pf /\ period_change_stable_MT P Mi Mf Ma alpha beta = Ok Pf) /\
  (~ (Mf <= Mi /\ 0 <= alpha <= 1 /\ 0 <= beta <= 1) -> period_change_stable_MT P Mi Mf Ma alpha beta = Raise ValueError).
Proof.
  intros P Mi Mf Ma a b HP H1 H2 H3. split.
  - intros (X & A & B). eexists. split; [apply exp_pos|apply pc_exp; lra].
  - intros N. unfold period_change_stable_MT, Rltb. cbv zeta.
    destruct (Rlt_dec (Mi - Mf) 0); [reflexivity|]. destruct (Rlt_dec a 0); [reflexivity|]. destruct (Rlt_dec b 0); [reflexivity|].
    destruct (Rlt_dec 1 a); [reflexivity|]. destruct (Rlt_dec 1 b); [reflexivity|]. exfalso. apply N. lra.
Qed.
Print Assumptions C89_errors.

(** Mass that leaves the donor's wind takes the donor's angular momentum per mass, mass that leaves from the accretor takes the accretor's. *)
Theorem C89_momentum :
  forall P Mdon Macc alpha beta, 0 < P -> 0 < Mdon -> 0 < Macc -> 0 <= alpha <= 1 -> 0 <= beta <= 1 ->
  exists f : R -> R,
    (forall x, 0 < x <= Mdon -> period_change_stable_MT P Mdon x Macc alpha beta = Ok (f x)) /\
    f Mdon = P /\
    forall x, 0 < x < Mdon ->
      let y := gained Mdon Macc alpha beta x in
      derivable_pt_lim (fun x => ln (momentum x (gained Mdon Macc alpha beta x) (f x))) x
        ((alpha * (y / x) + (1 - alpha) * beta * (x / y)) / (x + y)).
Proof.
  intros P Mi Ma a b HP HM HA A B. exists (fun x => exp (log_period P Mi Ma a b x)). split; [|split].
  - intros x X. apply pc_exp; lra.
  - pose proof (pc_exp P Mi Mi Ma a b HP ltac:(lra) HA A B) as E. rewrite pc_formula in E by lra.
    assert (G : gained Mi Ma a b Mi = Ma) by (unfold gained; ring). rewrite G in E.
    replace (Mi / Mi) with 1 in E by (field; lra). replace (Ma / Ma) with 1 in E by (field; lra).
    replace ((Mi + Ma) / (Mi + Ma)) with 1 in E by (field; lra).
    assert (R1 : forall c, Rpower 1 c = 1) by (intros c; unfold Rpower; rewrite ln_1, Rmult_0_r; apply exp_0). rewrite !R1 in E.
    replace (3 * (1 - a) * (Mi - Mi) / Ma) with 0 in E by (field; lra). rewrite exp_0 in E.
    injection E as <-. destruct (Reqb b 1); ring.
  - intros x X y. apply is_derive_Reals.
    set (h := fun x => ln x + ln (gained Mi Ma a b x) + 1 / 3 * (log_period P Mi Ma a b x - ln (x + gained Mi Ma a b x))).
    apply is_derive_ext_loc with h.
    { assert (D : 0 < Rmin x (Mi - x)) by (apply Rmin_glb_lt; lra).
      exists (mkposreal _ D). intros z Z. cbn in Z. unfold ball in Z. cbn in Z. unfold AbsRing_ball, abs, minus, plus, opp in Z. cbn in Z.
      apply Rabs_def2 in Z. pose proof (Rmin_l x (Mi - x)). pose proof (Rmin_r x (Mi - x)).
      symmetry. apply log_momentum; lra. }
    pose proof (gained_pos Mi Ma a b x HA A B ltac:(lra)) as G. fold y in G.
    unfold h, log_period. destruct (Reqb b 1) eqn:E.
    + assert (E1 : b = 1) by (unfold Reqb in E; destruct (Req_EM_T b 1); [easy|discriminate]).
      unfold gained in *. auto_derive.
      * change (Mi + - x) with (Mi - x). fold y. repeat split; lra.
      * change (Mi + - x) with (Mi - x). fold y. replace y with Ma by (unfold y; rewrite E1; ring). rewrite E1. field. repeat split; lra.
    + assert (E1 : b <> 1) by (unfold Reqb in E; destruct (Req_EM_T b 1); [discriminate|easy]).
      unfold gained in *. auto_derive.
      * change (Mi + - x) with (Mi - x). fold y. repeat split; lra.
      * change (Mi + - x) with (Mi - x). fold y. field. repeat split; lra.
Qed.
Print Assumptions C89_momentum.

(** Two phases one after the other are one phase; nothing lost, nothing changes. *)
Theorem C89_chain :
  forall P Mi Mm Mf Ma alpha beta P1, 0 < P -> 0 < Mf <= Mm -> Mm <= Mi -> 0 < Ma -> 0 <= alpha <= 1 -> 0 <= beta <= 1 ->
  (period_change_stable_MT P Mi Mm Ma alpha beta = Ok P1 ->
   period_change_stable_MT P1 Mm Mf (gained Mi Ma alpha beta Mm) alpha beta = period_change_stable_MT P Mi Mf Ma alpha beta) /\
  period_change_stable_MT P Mi Mi Ma alpha beta = Ok P.
Proof.
  intros P Mi Mm Mf Ma a b P1 HP H1 H2 HA A B. split.
  - intros E. rewrite pc_exp in E by lra. injection E as <-. pose proof (gained_pos Mi Ma a b Mm HA A B H2) as G.
    rewrite !pc_exp by (try apply exp_pos; lra). f_equal. f_equal. unfold log_period. rewrite ln_exp. unfold log_period.
    assert (G2 : gained Mm (gained Mi Ma a b Mm) a b Mf = gained Mi Ma a b Mf) by (unfold gained; ring). rewrite G2.
    destruct (Reqb b 1) eqn:E.
    + assert (E1 : b = 1) by (unfold Reqb in E; destruct (Req_EM_T b 1); [easy|discriminate]).
      assert (G3 : gained Mi Ma a b Mm = Ma) by (unfold gained; rewrite E1; ring). rewrite G3. field. lra.
    + ring.
  - destruct (C89_momentum P Mi Ma a b HP ltac:(lra) HA A B) as (f & F & E & _). rewrite F by lra. now rewrite E.
Qed.
Print Assumptions C89_chain.

(** The three pure cases: nothing is lost; all is lost from the donor; all is lost from the accretor. *)
Theorem C89_pure :
  forall P Mi Mf Ma, 0 < P -> 0 < Mf <= Mi -> 0 < Ma ->
  (exists Pf, period_change_stable_MT P Mi Mf Ma 0 0 = Ok Pf /\
     Pf * (Mf * (Ma + (Mi - Mf))) ^ 3 = P * (Mi * Ma) ^ 3) /\
  (forall beta, 0 <= beta <= 1 -> exists Pf, period_change_stable_MT P Mi Mf Ma 1 beta = Ok Pf /\
     Pf * (Mf + Ma) ^ 2 = P * (Mi + Ma) ^ 2 /\ P <= Pf) /\
  (exists Pf, period_change_stable_MT P Mi Mf Ma 0 1 = Ok Pf /\
     Pf * Mf ^ 3 * (Mf + Ma) ^ 2 = P * Mi ^ 3 * (Mi + Ma) ^ 2 * exp (- (3 * (Mi - Mf) / Ma))).
Proof.
  intros P Mi Mf Ma HP H1 HA.
  assert (R1 : forall c, Rpower 1 c = 1) by (intros c; unfold Rpower; rewrite ln_1, Rmult_0_r; apply exp_0).
  assert (N3 : forall x, 0 < x -> Rpower x (-3) = / x ^ 3).
  { intros x X. replace (-3) with (- (3)) by lra. rewrite Rpower_Ropp. f_equal. rewrite <- Rpower_pow by easy. f_equal. cbn. lra. }
  split; [|split].
  - rewrite pc_formula by lra. eexists. split; [reflexivity|].
    assert (E : Reqb 0 1 = false) by (unfold Reqb; destruct (Req_EM_T 0 1); [lra|easy]). rewrite E.
    assert (G : gained Mi Ma 0 0 Mf = Ma + (Mi - Mf)) by (unfold gained; ring). rewrite G.
    replace (3 * (0 - 1)) with (-3) by lra. replace (3 / (0 - 1)) with (-3) by lra.
    assert (Q1 : 0 < Mf / Mi) by (apply Rdiv_lt_0_compat; lra). assert (Q2 : 0 < (Ma + (Mi - Mf)) / Ma) by (apply Rdiv_lt_0_compat; lra).
    rewrite !N3 by easy. field. repeat split; lra.
  - intros b B. rewrite pc_formula by lra. eexists. split; [reflexivity|].
    assert (G : gained Mi Ma 1 b Mf = Ma) by (unfold gained; ring). rewrite G.
    replace (3 * (1 - 1)) with 0 by lra. rewrite (Rpower_O (Mf / Mi)) by (apply Rdiv_lt_0_compat; lra).
    replace (0 * (Mf - Mi) / Ma) with 0 by (field; lra). rewrite exp_0. replace (Ma / Ma) with 1 by (field; lra). rewrite R1.
    replace (if Reqb b 1 then P * 1 * 1 * ((Mi + Ma) / (Mf + Ma)) ^ 2 else P * 1 * 1 * ((Mi + Ma) / (Mf + Ma)) ^ 2)
      with (P * ((Mi + Ma) / (Mf + Ma)) ^ 2) by (destruct (Reqb b 1); ring).
    split; [field; lra|]. rewrite <- (Rmult_1_r P) at 1. apply Rmult_le_compat_l; [lra|].
    replace 1 with (1 ^ 2) by ring. apply pow_incr. split; [lra|].
    apply Rmult_le_reg_r with (Mf + Ma); [lra|]. replace ((Mi + Ma) / (Mf + Ma) * (Mf + Ma)) with (Mi + Ma) by (field; lra). lra.
  - rewrite pc_formula by lra. eexists. split; [reflexivity|].
    assert (E : Reqb 1 1 = true) by (unfold Reqb; destruct (Req_EM_T 1 1); [easy|lra]). rewrite E.
    assert (G : gained Mi Ma 0 1 Mf = Ma) by (unfold gained; ring). rewrite G.
    replace (3 * (0 - 1)) with (-3) by lra. rewrite N3 by (apply Rdiv_lt_0_compat; lra).
    replace (3 * (1 - 0) * (Mf - Mi) / Ma) with (- (3 * (Mi - Mf) / Ma)) by (field; lra). field. repeat split; lra.
Qed.
Print Assumptions C89_pure.

Example C89_example : exists Pf, period_change_stable_MT 10 4 1 2 0 0 = Ok Pf /\ Pf = 10 * (8 / 5) ^ 3.
Proof.
  destruct (C89_pure 10 4 1 2 ltac:(lra) ltac:(lra) ltac:(lra)) as [(Pf & E & L) _]. exists Pf. split; [exact E|]. lra.
Qed.

(** ** C88, what happens to the orbit afterwards *)
Definition core_names (t : string) : string * string :=
  if String.eqb t "He_core" then ("he_core_mass", "he_core_radius") else ("co_core_mass", "co_core_radius").
(** The law of the option "two_phases_windloss", and of both options when both stars lose their envelopes. *)
Definition wind_law (P M P' M' : R) : Prop := P' * M' ^ 2 = P * M ^ 2.
(** The law of "two_phases_stableMT": the donor goes from [m] to [m'], its companion stays. *)
Definition transfer_law (P m m' comp P' : R) : Prop :=
  P' * m' ^ 3 * (m' + comp) ^ 2 = P * m ^ 3 * (m + comp) ^ 2 * exp (- (3 * (m - m') / comp)).

Lemma phases_masses donor k1 comp k2 db m1 r1 m2 r2 : post_CE_core_masses donor k1 comp k2 db = Ok (m1, r1, (m2, r2)) ->
  (exists x1, donor (fst (core_names (c_type k1))) = VNum x1 /\ donor (snd (core_names (c_type k1))) = VNum r1 /\ m1 = Rmin x1 (c_mass k1)) /\
  (if db then exists x2, comp (fst (core_names (c_type k2))) = VNum x2 /\ donor (snd (core_names (c_type k2))) = VNum r2 /\ m2 = Rmin x2 (c_mass k2)
   else m2 = c_mass k2 /\ r2 = c_radius k2).
Proof.
  unfold post_CE_core_masses. cbv zeta. fold (core_names (c_type k1)). fold (core_names (c_type k2)). unfold rd.
  assert (M : forall x c, (if Rltb c x then c else x) = Rmin x c).
  { intros x c. unfold Rltb, Rmin. destruct (Rlt_dec c x), (Rle_dec x c); lra. }
  destruct (donor (fst (core_names (c_type k1)))) as [| |x1| |]; cbn [rbind]; try discriminate.
  destruct (donor (snd (core_names (c_type k1)))) as [| |y1| |]; cbn [rbind]; try discriminate.
  destruct db; cbn [negb].
  - destruct (comp (fst (core_names (c_type k2)))) as [| |x2| |]; cbn [rbind]; try discriminate.
    destruct (donor (snd (core_names (c_type k2)))) as [| |y2| |]; cbn [rbind]; try discriminate.
    rewrite !M. intros E. injection E as <- <- <- <-. split; [exists x1|exists x2]; repeat split.
  - rewrite !M. intros E. injection E as <- <- <- <-. split; [exists x1; repeat split|split; reflexivity].
Qed.
Lemma post_surj (x : R * R * (R * R)) : exists a b c d, x = (a, b, (c, d)). Proof. destruct x as [[a b] [c d]]. now exists a, b, c, d. Qed.

Lemma rb {A B} (x : result A) (f : A -> result B) (v : B) : rbind x f = Ok v -> exists y, x = Ok y /\ f y = Ok v.
Proof. destruct x as [y|]; cbn; [exists y; auto|discriminate]. Qed.
Lemma wind_ok c donor k1 comp k2 db a l : 0 < c_mass k1 -> 0 < c_mass k2 ->
  windloss c donor k1 comp k2 db a = Ok l ->
  exists m1 r1 m2 r2, post_CE_core_masses donor k1 comp k2 db = Ok (m1, r1, (m2, r2)) /\
    let A := a / 6.9598e10 in let P := orbital_period_from_separation A (c_mass k1) (c_mass k2) in
    let early := check_for_RLO (Some (c_mass k1)) (Some r1) (Some (c_mass k2)) (Some r2) (Some A) (tolerance c) in
    (early = true -> l = Left (c_mass k1) r1 (c_mass k2) r2 A P true) /\
    (early = false -> 0 < m1 -> 0 < m2 ->
       l_m1 l = m1 /\ l_r1 l = r1 /\ l_m2 l = m2 /\ l_r2 l = r2 /\ wind_law P (c_mass k1 + c_mass k2) (l_period l) (m1 + m2) /\ P <= l_period l /\
       l_sep l = orbital_separation_from_period (l_period l) m1 m2 /\
       l_merger l = check_for_RLO (Some m1) (Some r1) (Some m2) (Some r2) (Some (l_sep l)) (tolerance c)).
Proof.
  intros C1 C2 E. unfold windloss in E. apply rb in E. destruct E as (x & Ex & E). destruct (post_surj x) as (m1 & r1 & m2 & r2 & ->).
  exists m1, r1, m2, r2. split; [exact Ex|]. cbv zeta in E |- *. cbn [fst snd] in E. unfold overflow in E. change Rsun with 6.9598e10 in E.
  destruct (phases_masses _ _ _ _ _ _ _ _ _ Ex) as [(x1 & _ & _ & M1) M2].
  assert (L1 : m1 <= c_mass k1) by (rewrite M1; apply Rmin_r).
  assert (L2 : m2 <= c_mass k2) by (destruct db; [destruct M2 as (x2 & _ & _ & ->); apply Rmin_r|destruct M2 as [-> _]; lra]).
  set (P := orbital_period_from_separation (a / 6.9598e10) (c_mass k1) (c_mass k2)) in *.
  assert (HP : 0 < P) by apply period_pos.
  destruct (check_for_RLO (Some (c_mass k1)) (Some r1) (Some (c_mass k2)) (Some r2) (Some (a / 6.9598e10)) (tolerance c)); (split; [intros H|intros H H1 H2]); try discriminate H.
  - injection E as <-. reflexivity.
  - apply rb in E. destruct E as (P1 & E1 & E). apply rb in E. destruct E as (Pf & E2 & E). injection E as <-. cbn.
    destruct (C89_pure P (c_mass k1) m1 (c_mass k2) HP (conj H1 L1) C2) as (_ & W & _).
    destruct (W 0 ltac:(lra)) as (Q & F & W1 & W2). rewrite E1 in F. injection F as <-.
    destruct db.
    + destruct (C89_pure P1 (c_mass k2) m2 m1 ltac:(lra) (conj H2 L2) H1) as (_ & W' & _).
      destruct (W' 0 ltac:(lra)) as (Q & F & W3 & W4). rewrite E2 in F. injection F as <-.
      repeat split; try lra. unfold wind_law. rewrite (Rplus_comm m1), W3, (Rplus_comm (c_mass k2)). exact W1.
    + injection E2 as <-. destruct M2 as [-> ->]. repeat split; [exact W1|exact W2].
Qed.

(** The three options: which masses and radii are left, the laws for period and separation, and when the cores merge. *)
Theorem C88_phases :
  forall c donor k1 comp k2 double a l, phase c donor k1 comp k2 double a = Ok l -> 0 < c_mass k1 -> 0 < c_mass k2 ->
  let A := a / 6.9598e10 in let P := orbital_period_from_separation A (c_mass k1) (c_mass k2) in
  (option_after c = "one_phase_variable_core_definition" /\
   l = Left (c_mass k1) (c_radius k1) (c_mass k2) (c_radius k2) A P
         (check_for_RLO (Some (c_mass k1)) (Some (c_radius k1)) (Some (c_mass k2)) (Some (c_radius k2)) (Some A) (tolerance c))) \/
  (In (option_after c) ["two_phases_stableMT"; "two_phases_windloss"] /\
   exists m1 r1 m2 r2,
     (exists x1, donor (fst (core_names (c_type k1))) = VNum x1 /\ donor (snd (core_names (c_type k1))) = VNum r1 /\ m1 = Rmin x1 (c_mass k1)) /\
     (double = false -> m2 = c_mass k2 /\ r2 = c_radius k2) /\
     (double = true -> exists x2, comp (fst (core_names (c_type k2))) = VNum x2 /\ donor (snd (core_names (c_type k2))) = VNum r2 /\ m2 = Rmin x2 (c_mass k2)) /\
     let early := check_for_RLO (Some (c_mass k1)) (Some r1) (Some (c_mass k2)) (Some r2) (Some A) (tolerance c) in
     (early = true -> l = Left (c_mass k1) r1 (c_mass k2) r2 A P true) /\
     (early = false -> 0 < m1 -> 0 < m2 ->
        l_m1 l = m1 /\ l_r1 l = r1 /\ l_m2 l = m2 /\ l_r2 l = r2 /\
        (if String.eqb (option_after c) "two_phases_stableMT" && negb double
         then transfer_law P (c_mass k1) m1 m2 (l_period l)
         else wind_law P (c_mass k1 + c_mass k2) (l_period l) (m1 + m2) /\ P <= l_period l) /\
        l_sep l = orbital_separation_from_period (l_period l) m1 m2 /\
        l_merger l = check_for_RLO (Some m1) (Some r1) (Some m2) (Some r2) (Some (l_sep l)) (tolerance c))).
Proof.
  intros c donor k1 comp k2 db a l E C1 C2 A P. unfold phase in E.
  destruct (String.eqb_spec (option_after c) "one_phase_variable_core_definition") as [O|O].
  { left. split; [exact O|]. injection E as <-. reflexivity. }
  right.
  assert (W : forall o, option_after c = o -> In o ["two_phases_stableMT"; "two_phases_windloss"] -> (o = "two_phases_stableMT" -> db = true) ->
    windloss c donor k1 comp k2 db a = Ok l -> exists m1 r1 m2 r2,
     (exists x1, donor (fst (core_names (c_type k1))) = VNum x1 /\ donor (snd (core_names (c_type k1))) = VNum r1 /\ m1 = Rmin x1 (c_mass k1)) /\
     (db = false -> m2 = c_mass k2 /\ r2 = c_radius k2) /\
     (db = true -> exists x2, comp (fst (core_names (c_type k2))) = VNum x2 /\ donor (snd (core_names (c_type k2))) = VNum r2 /\ m2 = Rmin x2 (c_mass k2)) /\
     let early := check_for_RLO (Some (c_mass k1)) (Some r1) (Some (c_mass k2)) (Some r2) (Some A) (tolerance c) in
     (early = true -> l = Left (c_mass k1) r1 (c_mass k2) r2 A P true) /\
     (early = false -> 0 < m1 -> 0 < m2 ->
        l_m1 l = m1 /\ l_r1 l = r1 /\ l_m2 l = m2 /\ l_r2 l = r2 /\
        (if String.eqb o "two_phases_stableMT" && negb db
         then transfer_law P (c_mass k1) m1 m2 (l_period l)
         else wind_law P (c_mass k1 + c_mass k2) (l_period l) (m1 + m2) /\ P <= l_period l) /\
        l_sep l = orbital_separation_from_period (l_period l) m1 m2 /\
        l_merger l = check_for_RLO (Some m1) (Some r1) (Some m2) (Some r2) (Some (l_sep l)) (tolerance c))).
  { intros o _ I T E'. destruct (wind_ok _ _ _ _ _ _ _ _ C1 C2 E') as (m1 & r1 & m2 & r2 & Q & S1 & S2).
    destruct (phases_masses _ _ _ _ _ _ _ _ _ Q) as [X1 X2]. exists m1, r1, m2, r2. split; [exact X1|].
    split; [intros ->; exact X2|]. split; [intros ->; exact X2|]. cbv zeta. split; [exact S1|].
    intros K H1 H2. destruct (S2 K H1 H2) as (Y1 & Y2 & Y3 & Y4 & Y5 & Y6 & Y7 & Y8).
    replace (String.eqb o "two_phases_stableMT" && negb db) with false; [repeat split; assumption|].
    destruct (String.eqb_spec o "two_phases_stableMT") as [->|_]; [rewrite T by reflexivity|]; reflexivity. }
  destruct (String.eqb_spec (option_after c) "two_phases_stableMT") as [S|S].
  - split; [rewrite S; now left|]. unfold stableMT in E. destruct db.
    + rewrite S in *. apply (W "two_phases_stableMT"); auto. now left.
    + apply rb in E. destruct E as (x & Ex & E). destruct (post_surj x) as (m1 & r1 & m2 & r2 & ->).
      destruct (phases_masses _ _ _ _ _ _ _ _ _ Ex) as [X1 X2]. exists m1, r1, m2, r2. split; [exact X1|]. split; [intros _; exact X2|].
      split; [discriminate|]. cbv zeta in E |- *. cbn [fst snd] in E. unfold overflow in E. change (a / Rsun) with A in E. fold P in E.
      assert (HP : 0 < P) by apply period_pos. destruct X1 as (x1 & _ & _ & M1). assert (L1 : m1 <= c_mass k1) by (rewrite M1; apply Rmin_r).
      destruct X2 as [-> ->].
      destruct (check_for_RLO (Some (c_mass k1)) (Some r1) (Some (c_mass k2)) (Some (c_radius k2)) (Some A) (tolerance c));
        (split; [intros H|intros H H1 H2]); try discriminate H.
      * injection E as <-. reflexivity.
      * apply rb in E. destruct E as (Pf & E1 & E). injection E as <-. cbn.
        destruct (C89_pure P (c_mass k1) m1 (c_mass k2) HP (conj H1 L1) C2) as (_ & _ & Q & F & W1). rewrite E1 in F. injection F as <-.
        repeat split. exact W1.
  - destruct (String.eqb_spec (option_after c) "two_phases_windloss") as [S'|S']; [|discriminate E].
    split; [rewrite S'; right; now left|]. destruct (W "two_phases_windloss" S' ltac:(right; now left) ltac:(discriminate) E) as (m1 & r1 & m2 & r2 & H).
    exists m1, r1, m2, r2. exact H.
Qed.
Print Assumptions C88_phases.

(** Losing the rest as a wind keeps separation times total mass, up to the fixed factor between the two conversions of C17. *)
Theorem C88_wind :
  exists k, 1.00009 < k < 1.0001 /\
  forall A c1 c2 m1 m2 P', 0 < A -> 0 < c1 -> 0 < c2 -> 0 < m1 -> 0 < m2 -> 0 < P' ->
  wind_law (orbital_period_from_separation A c1 c2) (c1 + c2) P' (m1 + m2) ->
  orbital_separation_from_period P' m1 m2 * (m1 + m2) = k * A * (c1 + c2).
Proof.
  destruct C17_round_trip as (k & l & _ & L & _ & H). exists l. split; [exact L|].
  intros A c1 c2 m1 m2 P' HA C1 C2 M1 M2 HP W. unfold wind_law in W.
  destruct (H c1 c2 C1 C2) as [_ HR]. specialize (HR A HA). set (P := orbital_period_from_separation A c1 c2) in *.
  assert (P0 : 0 < P) by apply period_pos.
  destruct (C17_laws c1 c2 C1 C2) as [La _]. destruct (La P P0) as [_ E1]. rewrite HR in E1.
  destruct (C17_laws m1 m2 M1 M2) as [Lb _]. destruct (Lb P' HP) as [S E2].
  set (a' := orbital_separation_from_period P' m1 m2) in *. apply cube_inj.
  assert (PI : 0 < 4 * 3.1415926535897932384626433832795028841971693993751 ^ 2 * 6.9598e10 ^ 3) by (apply Rmult_lt_0_compat; [|apply pow_lt]; lra).
  set (N := 4 * 3.1415926535897932384626433832795028841971693993751 ^ 2) in *.
  apply Rmult_eq_reg_l with (N * 6.9598e10 ^ 3); [|lra].
  replace (N * 6.9598e10 ^ 3 * (a' * (m1 + m2)) ^ 3) with (N * (a' * 6.9598e10) ^ 3 * (m1 + m2) ^ 3) by ring.
  replace (N * 6.9598e10 ^ 3 * (l * A * (c1 + c2)) ^ 3) with (N * (l * A * 6.9598e10) ^ 3 * (c1 + c2) ^ 3) by ring.
  rewrite E1, E2.
  replace (6.67428e-8 * ((m1 + m2) * 1.9892e33) * (P' * 86400) ^ 2 * (m1 + m2) ^ 3)
    with (6.67428e-8 * 1.9892e33 * 86400 ^ 2 * (P' * (m1 + m2) ^ 2) ^ 2) by ring.
  rewrite W. ring.
Qed.
Print Assumptions C88_wind.

(** So the two options of two phases move the orbit even when there is nothing left to strip. *)
Theorem C88_nothing_to_strip_refuted :
  forall A c1 c2 P', 0 < A -> 0 < c1 -> 0 < c2 -> 0 < P' ->
  wind_law (orbital_period_from_separation A c1 c2) (c1 + c2) P' (c1 + c2) \/ transfer_law (orbital_period_from_separation A c1 c2) c1 c1 c2 P' ->
  1.00009 * A < orbital_separation_from_period P' c1 c2.
Proof.
  intros A c1 c2 P' HA C1 C2 HP W.
  assert (E : P' = orbital_period_from_separation A c1 c2).
  { set (P := orbital_period_from_separation A c1 c2) in *. destruct W as [W|W].
    - unfold wind_law in W. apply Rmult_eq_reg_r in W; [exact W|]. apply Rgt_not_eq. apply pow_lt. lra.
    - unfold transfer_law in W. replace (3 * (c1 - c1) / c2) with 0 in W by (field; lra). rewrite Ropp_0, exp_0, Rmult_1_r in W.
      apply Rmult_eq_reg_r in W; [|apply Rgt_not_eq; apply pow_lt; lra].
      apply Rmult_eq_reg_r in W; [exact W|apply Rgt_not_eq; apply pow_lt; lra]. }
  subst P'. destruct C17_round_trip as (k & l & _ & L & _ & H). destruct (H c1 c2 C1 C2) as [_ HR]. rewrite HR by easy.
  apply Rmult_lt_compat_r; lra.
Qed.
Print Assumptions C88_nothing_to_strip_refuted.

(** NaN for lambda: the envelope of a single common envelope costs nothing, whatever its mass and the efficiency. *)
Theorem C88_free_ejection :
  forall alpha P m1 r1 mc rc ty m2 r2 k2, meaningful alpha P m1 r1 (Core None mc rc ty) m2 r2 k2 ->
  separation_after alpha P m1 r1 (Core None mc rc ty) m2 r2 k2 false
  = 6.9598e10 * orbital_separation_from_period P m1 m2 * (mc * c_mass k2 / (m1 * m2)).
Proof.
  intros alpha P m1 r1 mc rc ty m2 r2 k2 H.
  destruct (C88_energy alpha P m1 r1 (Core None mc rc ty) m2 r2 k2 false H) as (_ & _ & _ & E). apply E.
  unfold held, binding. cbn [c_lambda]. lra.
Qed.
Print Assumptions C88_free_ejection.

(** A giant of 10 Msun and 500 Rsun with a core of 4 Msun and a neutron star. *)
Example C88_example :
  meaningful 1 1000 10 500 (Core (Some 0.5) 4 1 "He_core") 1.4 0.00001 (Core None 1.4 0.00001 "not_giant_companion") /\
  0 < held 10 500 (Core (Some 0.5) 4 1 "He_core") 1.4 0.00001 (Core None 1.4 0.00001 "not_giant_companion") false.
Proof.
  split.
  - unfold meaningful, positive. cbn. repeat split; lra.
  - unfold held, binding. cbn [c_lambda c_mass]. rewrite Rplus_0_r. apply Rdiv_lt_0_compat; lra.
Qed.
