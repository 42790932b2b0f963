(** The time until two compact objects merge (C94). *)
From Coq Require Import Reals String Bool List Lra.
From Coquelicot Require Import Coquelicot.
From Verif Require Import PyBase RealLemmas IntegralLemmas OrbitModel InspiralModel GravRadProps InspiralProofs DoubleCOProps.
Open Scope R_scope.

(** ** The integral *)
Definition ipow (x y : R) : R := if Rle_dec x 0 then 0 else Rpower x y.
Lemma ipow_cont y x : 0 < y -> continuous (fun t => ipow t y) x.
Proof.
  intros Y. destruct (Rtotal_order x 0) as [H|[-> |H]].
  - apply (continuous_ext_loc (fun t => ipow t y) (fun _ => 0) x); [|apply continuous_const].
    exists (mkposreal (- x) ltac:(lra)). intros t B. apply Rabs_lt_between in B. cbn in B. unfold minus, plus, opp in B. cbn in B.
    unfold ipow. destruct (Rle_dec t 0); [reflexivity|]. lra.
  - intros P [eps HP]. unfold ipow in *.
    exists (mkposreal (Rpower eps (/ y)) (Rpower_pos _ _)). intros t B. apply HP.
    apply Rabs_lt_between in B. cbn in B. unfold minus, plus, opp in B. cbn in B.
    apply Rabs_lt_between. cbn. unfold minus, plus, opp. cbn. destruct (Rle_dec 0 0) as [_|N]; [|lra].
    pose proof (cond_pos eps) as EP. destruct (Rle_dec t 0) as [N|N]; [lra|].
    pose proof (Rpower_pos t y). split; [lra|].
    assert (Rpower t y < Rpower (Rpower eps (/ y)) y) by (apply Rlt_Rpower_l; lra).
    rewrite Rpower_mult, Rinv_l, Rpower_1 in H0 by (try apply cond_pos; lra). lra.
  - apply (continuous_ext_loc (fun t => ipow t y) (fun t => Rpower t y) x); [|now apply continuous_power].
    exists (mkposreal x H). intros t B. apply Rabs_lt_between in B. cbn in B. unfold minus, plus, opp in B. cbn in B.
    unfold ipow. destruct (Rle_dec t 0); [lra|reflexivity].
Qed.
Definition rest (x : R) : R := Rpower (1 + (121 / 304) * x ^ 2) (1181 / 2299) / Rpower (1 - x ^ 2) (3 / 2).
Definition ig (x : R) : R := ipow x (29 / 19) * rest x.
Lemma ig_eq x : 0 <= x -> integrand x = ig x.
Proof.
  intros H. unfold integrand, ig, rest, zpow, ipow. destruct (Req_EM_T x 0) as [E|E]; destruct (Rle_dec x 0) as [F|F]; try lra; unfold Rdiv; ring.
Qed.
Lemma ig_cont x : - 1 < x < 1 -> continuous ig x.
Proof.
  intros H. unfold ig. apply (continuous_mult (K := R_AbsRing)); [apply ipow_cont; lra|].
  unfold rest. apply (ex_derive_continuous (V := R_NormedModule)). unfold Rpower. auto_derive. repeat split; try nra. apply Rgt_not_eq. apply exp_pos.
Qed.
Lemma ig_pos x : 0 < x -> 0 < ig x.
Proof. intros H. unfold ig, ipow, rest. destruct (Rle_dec x 0); [lra|]. pos. Qed.
Lemma ig_int a b : - 1 < a < 1 -> - 1 < b < 1 -> ex_RInt ig a b.
Proof.
  intros A B. apply (ex_RInt_continuous (V := R_CompleteNormedModule)). intros z Z. apply ig_cont. unfold Rmin, Rmax in Z. destruct (Rle_dec a b); lra.
Qed.
Lemma J_eq e : 0 <= e < 1 -> RInt integrand 0 e = RInt ig 0 e.
Proof. intros H. apply RInt_ext. intros x X. rewrite Rmin_left in X by lra. apply ig_eq. lra. Qed.
Lemma J_derive e : 0 < e < 1 -> is_derive (fun e => RInt ig 0 e) e (ig e).
Proof.
  intros H. apply (is_derive_RInt (V := R_NormedModule) ig (fun e => RInt ig 0 e) 0); [|apply ig_cont; lra].
  assert (P : 0 < Rmin e (1 - e)) by (apply Rmin_pos; lra). exists (mkposreal _ P). intros y B. apply Rabs_lt_between in B. cbn in B. unfold minus, plus, opp in B. cbn in B.
  pose proof (Rmin_l e (1 - e)). pose proof (Rmin_r e (1 - e)).
  apply (RInt_correct (V := R_CompleteNormedModule)). apply ig_int; lra.
Qed.
Lemma J_pos e : 0 < e < 1 -> 0 < RInt ig 0 e.
Proof.
  intros H. apply RInt_gt_0; [lra| |]; intros x X; [apply ig_pos; lra|apply ig_cont; lra].
Qed.
Lemma J_small e0 e : 0 < e <= e0 -> e0 < 1 -> RInt ig 0 e <= e * (2 * / Rpower (1 - e0 ^ 2) (3 / 2)).
Proof.
  intros H H0. replace (e * (2 * / Rpower (1 - e0 ^ 2) (3 / 2))) with (RInt (fun _ => 2 * / Rpower (1 - e0 ^ 2) (3 / 2)) 0 e).
  2: { rewrite (RInt_const (V := R_CompleteNormedModule)). unfold scal. cbn. unfold mult. cbn. ring. }
  apply RInt_le; [lra|apply ig_int; lra|apply ex_RInt_const|]. intros x X. unfold ig, ipow, rest. destruct (Rle_dec x 0); [lra|].
  assert (A1 : Rpower x (29 / 19) <= 1).
  { unfold Rpower. rewrite <- exp_0. left. apply exp_increasing. assert (ln x < 0) by (rewrite <- ln_1; apply ln_increasing; lra). lra. }
  assert (A2 : Rpower (1 + 121 / 304 * x ^ 2) (1181 / 2299) <= 2).
  { apply Rle_trans with (Rpower 2 1); [|rewrite Rpower_1; lra]. apply Rle_trans with (Rpower 2 (1181 / 2299)); [apply Rpower_le_l; nra|]. apply Rle_Rpower; lra. }
  assert (A3 : Rpower (1 - e0 ^ 2) (3 / 2) <= Rpower (1 - x ^ 2) (3 / 2)) by (apply Rpower_le_l; nra).
  pose proof (Rpower_pos (1 - e0 ^ 2) (3 / 2)) as P3. pose proof (Rpower_pos x (29 / 19)) as PX. pose proof (Rpower_pos (1 + 121 / 304 * x ^ 2) (1181 / 2299)) as PF.
  replace (2 * / Rpower (1 - e0 ^ 2) (3 / 2)) with (1 * (2 * / Rpower (1 - e0 ^ 2) (3 / 2))) by ring.
  unfold Rdiv. apply Rmult_le_compat; [lra|left; apply Rmult_lt_0_compat; [lra|apply Rinv_0_lt_compat; apply Rpower_pos]|exact A1|].
  apply Rmult_le_compat; [lra|left; apply Rinv_0_lt_compat; apply Rpower_pos|exact A2|]. apply Rinv_le_contravar; lra.
Qed.

(** ** Along the evolution *)
Lemma c0_eq a l : l < 0 -> c_0 a (exp l) = a * exp (- lnA l).
Proof.
  intros H. pose proof (e2_lt l H) as Q. unfold c_0, lnA. replace (exp l ^ 2) with (exp l * exp l) by ring.
  replace (- (12 / 19 * l - ln (1 - exp l * exp l) + 870 / 2299 * ln (1 + 121 / 304 * (exp l * exp l)))) with
    (ln (1 - exp l * exp l) + (- (12) / 19 * l + - (870) / 2299 * ln (1 + 121 / 304 * (exp l * exp l)))) by field.
  rewrite !exp_plus, exp_ln by lra. unfold Rpower. rewrite ln_exp. ring.
Qed.
Lemma ig_alg l : l < 0 -> ig (exp l) * exp l = exp (4 * lnA l) * (Rpower (1 - exp l * exp l) (5 / 2) / f_of (exp l * exp l)).
Proof.
  intros H. pose proof (e2_lt l H) as Q. pose proof (exp_pos l). unfold ig, rest, ipow. destruct (Rle_dec (exp l) 0); [lra|].
  replace (exp l ^ 2) with (exp l * exp l) by ring. set (q := exp l * exp l) in *. unfold lnA. fold q. unfold f_of, Rpower. rewrite ln_exp.
  assert (FI : forall u v, u / exp v = u * exp (- v)) by (intros u v; rewrite exp_Ropp; reflexivity).
  assert (FQ : forall u, u / (1 + 121 / 304 * q) = u * exp (- ln (1 + 121 / 304 * q))) by (intros u; rewrite exp_Ropp, exp_ln by lra; reflexivity).
  rewrite FI, FQ. rewrite <- !exp_plus. f_equal. field.
Qed.
Definition T_years (m1 m2 a e : R) : R :=
  (12 / 19) * (c_0 (a * Rsun) e ^ 4 / ((64 / 5) * standard_cgrav ^ 3 * (m1 * Msun) * (m2 * Msun) * (m1 * Msun + m2 * Msun) / clight ^ 5)) * RInt ig 0 e / secyer.
Lemma inspiral_eq m1 m2 a e : 0 < m1 -> 0 < m2 -> 0 < a -> 0 < e < 1 -> inspiral_timescale_from_separation m1 m2 a e = Ok (T_years m1 m2 a e / 1e6).
Proof.
  intros M1 M2 A E. destruct consts as (G0 & C0 & MS & RS & Y0). unfold inspiral_timescale_from_separation. cbv zeta.
  assert (0 < m1 * Msun) by pos. assert (0 < m2 * Msun) by pos. assert (0 < a * Rsun) by pos.
  destruct (Rle_dec (m1 * Msun) 0); [lra|]. destruct (Rle_dec (m2 * Msun) 0); [lra|]. destruct (Rle_dec (a * Rsun) 0); [lra|].
  destruct (Rlt_dec e 0); [lra|]. destruct (Rle_dec 1 e); [lra|]. destruct (Req_EM_T e 0); [lra|]. rewrite J_eq by lra. f_equal. unfold T_years. 
  set (x := 12 / 19 * _ * _). unfold Rdiv. rewrite Rinv_mult. ring.
Qed.
Lemma T_along o s1 l tau s : double o -> 0 < e_0 o -> solution (l_0 o) s1 l tau -> 0 <= s <= s1 ->
  T_years (mass_1 o) (mass_2 o) (a_0 o) (e_0 o) = T_years (mass_1 o) (mass_2 o) (separation_at o s) (exp (l s)) + tau s * t_scale o.
Proof.
  intros D E0 H S0. pose proof (l_neg o D) as LN. pose proof (scale_pos o D) as TP.
  assert (L0 : exp (l_0 o) = e_0 o). { fold (recorded_e o). rewrite recorded_is. destruct (Rlt_dec 0 (e_0 o)); lra. }
  set (beta := (64 / 5) * standard_cgrav ^ 3 * (mass_1 o * Msun) * (mass_2 o * Msun) * (mass_1 o * Msun + mass_2 o * Msun) / clight ^ 5).
  assert (BP : 0 < beta). { unfold beta. destruct D as (A & _ & M1 & M2). destruct consts as (G0 & C0 & MS & RS & Y0). pos. }
  assert (SB : t_scale o = (a_0 o * Rsun) ^ 4 / beta / secyer).
  { rewrite scale_eq. unfold beta. destruct D as (A & _ & M1 & M2). destruct consts as (G0 & C0 & MS & RS & Y0). assert (0 < mass_1 o * Msun + mass_2 o * Msun) by pos.
    field. repeat split; apply Rgt_not_eq; assumption. }
  set (C := a_0 o * Rsun * exp (- lnA (l_0 o))).
  assert (CC : forall x, 0 <= x <= s1 -> c_0 (separation_at o x * Rsun) (exp (l x)) = C).
  { intros x X. pose proof (sol_neg _ _ _ _ x H LN X). rewrite c0_eq by lra. rewrite (motion _ _ _ _ x H LN X). unfold separation_at, C.
    replace (- (lnA (l_0 o) - x)) with (- lnA (l_0 o) + x) by ring. rewrite exp_plus. rewrite (exp_Ropp x). field. apply Rgt_not_eq. apply exp_pos. }
  set (phi := fun x => 12 / 19 * (C ^ 4 / beta) * RInt ig 0 (exp (l x)) / secyer + tau x * t_scale o).
  assert (PHI : forall x, 0 <= x <= s1 -> T_years (mass_1 o) (mass_2 o) (separation_at o x) (exp (l x)) + tau x * t_scale o = phi x).
  { intros x X. unfold T_years, phi. rewrite CC by exact X. reflexivity. }
  assert (START : T_years (mass_1 o) (mass_2 o) (a_0 o) (e_0 o) = phi 0).
  { rewrite <- PHI by lra. destruct H as (E & T & _). rewrite E, T, L0. unfold separation_at. rewrite Ropp_0, exp_0, Rmult_1_l. ring. }
  rewrite START, PHI by exact S0. clear START PHI.
  destruct consts as (_ & _ & _ & RS & Y0).
  assert (DD : forall x, 0 <= x <= s -> derivable_pt_lim phi x 0).
  { intros x X. assert (X' : 0 <= x <= s1) by lra. pose proof (sol_neg _ _ _ _ x H LN X') as LX. assert (NX : l x < 0) by lra.
    assert (EX : 0 < exp (l x) < 1) by (split; [apply exp_pos|rewrite <- exp_0; now apply exp_increasing]).
    pose proof (sol_l _ _ _ _ x H X') as DL. pose proof (sol_tau _ _ _ _ x H X') as DT. apply is_derive_Reals in DL, DT.
    pose proof (J_derive _ EX) as DJ. apply is_derive_Reals in DJ.
    pose proof (derivable_pt_lim_comp l exp x _ _ DL (derivable_pt_lim_exp (l x))) as DE.
    pose proof (derivable_pt_lim_comp _ (fun e => RInt ig 0 e) x _ _ DE DJ) as DI. unfold comp in DI.
    set (k := 12 / 19 * (C ^ 4 / beta) / secyer).
    assert (Z : 0 = k * (ig (exp (l x)) * (exp (l x) * fst (rhs x (l x)))) + t_scale o * snd (rhs x (l x))).
    { rewrite rhs_bound by exact NX. cbn [fst snd]. rewrite <- (Rmult_assoc (ig (exp (l x)))), ig_alg by exact NX. pose proof (e2_lt _ NX) as Q. set (q := exp (l x) * exp (l x)) in *.
      pose proof (g_pos q ltac:(lra)). pose proof (f_pos q ltac:(lra)).
      assert (P75 : Rpower (1 - q) (7 / 2) = (1 - q) * Rpower (1 - q) (5 / 2)) by (replace (7 / 2) with (5 / 2 + 1) by field; apply pow_step; lra).
      rewrite P75, SB. unfold k, C. rewrite (motion _ _ _ _ x H LN X').
      replace (exp (4 * (lnA (l_0 o) - x))) with (exp (-4 * x) * exp (lnA (l_0 o)) ^ 4).
      2: { rewrite <- Rpower_pow by apply exp_pos. unfold Rpower. rewrite ln_exp, <- exp_plus. f_equal. cbn. ring. }
      rewrite exp_Ropp. pose proof (exp_pos (lnA (l_0 o))). set (LA := exp (lnA (l_0 o))) in *. set (X4 := exp (-4 * x)). set (P := Rpower (1 - q) (5 / 2)).
      clearbody LA X4 P q beta. field. repeat split; apply Rgt_not_eq; lra. }
    rewrite Z. apply is_derive_Reals.
    apply (is_derive_ext (fun x => k * RInt ig 0 (exp (l x)) + t_scale o * tau x)).
    { intros t. unfold phi, k. match goal with |- ?a = ?b => change (@eq R a b) end. field. split; apply Rgt_not_eq; assumption. }
    apply is_derive_Reals. apply (derivable_pt_lim_plus (fun x => k * RInt ig 0 (exp (l x))) (fun x => t_scale o * tau x)).
    - apply (derivable_pt_lim_scal (fun x => RInt ig 0 (exp (l x)))). exact DI.
    - apply (derivable_pt_lim_scal tau). exact DT. }
  destruct (Req_dec 0 s) as [<-|NE]; [reflexivity|].
  destruct (MVT_cor2 phi (fun _ => 0) 0 s ltac:(lra)) as (c & EQ & _); [intros x X; now apply DD|]. lra.
Qed.

(** The merger time and the evolution of two compact objects agree: the time that passes is the difference of the merger times. *)
Theorem C94_consistent :
  forall o s1 l tau s, double o -> 0 < e_0 o -> solution (l_0 o) s1 l tau -> 0 <= s <= s1 ->
  exists T T', inspiral_timescale_from_separation (mass_1 o) (mass_2 o) (a_0 o) (e_0 o) = Ok T /\
    inspiral_timescale_from_separation (mass_1 o) (mass_2 o) (separation_at o s) (exp (l s)) = Ok T' /\
    T = T' + (time_at o (tau s) - t_0 o) / 1e6.
Proof.
  intros o s1 l tau s D E0 H S0. pose proof (T_along o s1 l tau s D E0 H S0) as E. pose proof (l_neg o D) as LN. pose proof (sol_neg _ _ _ _ s H LN S0).
  destruct D as (A & E1 & M1 & M2). exists (T_years (mass_1 o) (mass_2 o) (a_0 o) (e_0 o) / 1e6), (T_years (mass_1 o) (mass_2 o) (separation_at o s) (exp (l s)) / 1e6).
  split; [apply inspiral_eq; lra|]. split.
  - apply inspiral_eq; [lra|lra|unfold separation_at; pose proof (exp_pos (- s)); pos|]. split; [apply exp_pos|]. rewrite <- exp_0. apply exp_increasing. lra.
  - rewrite E. unfold time_at. lra.
Qed.

Definition circular_years (m1 m2 a : R) : R :=
  5 / 256 * 2.99792458e10 ^ 5 * (a * 6.9598e10) ^ 4 / (6.67428e-8 ^ 3 * (m1 * 1.9892e33) * (m2 * 1.9892e33) * (m1 * 1.9892e33 + m2 * 1.9892e33)) / 3.1558149984e7.
Lemma circular_scale o : double o -> circular_years (mass_1 o) (mass_2 o) (a_0 o) = t_scale o / 4.
Proof.
  intros D. unfold circular_years. rewrite scale_eq. change 6.67428e-8 with standard_cgrav. change 1.9892e33 with Msun. change 6.9598e10 with Rsun. change 2.99792458e10 with clight. change 3.1558149984e7 with secyer.
  destruct D as (A & _ & M1 & M2). destruct consts as (G0 & C0 & MS & RS & Y0). assert (0 < mass_1 o * Msun + mass_2 o * Msun) by pos.
  field. repeat split; apply Rgt_not_eq; try assumption.
Qed.
Lemma T_bounds m1 m2 a e : 0 < m1 -> 0 < m2 -> 0 < a -> 0 < e < 1 ->
  circular_years m1 m2 a * (Rpower (1 - e ^ 2) (7 / 2) / g_of (e ^ 2)) <= T_years m1 m2 a e <= circular_years m1 m2 a.
Proof.
  intros M1 M2 A E. set (o := Orbit 0 a e m1 "BH" m2 "BH"). assert (D : double o) by (unfold double; cbn; lra).
  pose proof (circular_scale o D) as CS. cbn [mass_1 mass_2 a_0 o] in CS. fold o in CS. rewrite CS. pose proof (l_neg o D) as LN. pose proof (scale_pos o D) as TP.
  destruct (solution_exists _ LN) as (l & tau & H & _).
  assert (L0 : exp (l_0 o) = e). { change (exp (l_0 o)) with (recorded_e o). rewrite recorded_is. cbn. destruct (Rlt_dec 0 e); lra. }
  assert (AL : forall s, 0 <= s -> T_years m1 m2 a e = T_years m1 m2 (separation_at o s) (exp (l s)) + tau s * t_scale o).
  { intros s S0. apply (T_along o s l tau s D); [cbn; lra|apply H|lra]. }
  destruct consts as (G0 & C0 & MS & RS & Y0).
  set (C := a * Rsun * exp (- lnA (l_0 o))).
  set (beta := (64 / 5) * standard_cgrav ^ 3 * (m1 * Msun) * (m2 * Msun) * (m1 * Msun + m2 * Msun) / clight ^ 5).
  assert (CP : 0 < C) by (unfold C; pose proof (exp_pos (- lnA (l_0 o))); pos). assert (BP : 0 < beta) by (unfold beta; pos).
  assert (TS : forall s, 0 <= s -> T_years m1 m2 (separation_at o s) (exp (l s)) = 12 / 19 * (C ^ 4 / beta) * RInt ig 0 (exp (l s)) / secyer).
  { intros s S0. unfold T_years. fold beta. pose proof (sol_neg _ _ _ _ s (H s) LN ltac:(lra)). rewrite c0_eq by lra. rewrite (motion _ _ _ _ s (H s) LN ltac:(lra)). f_equal. f_equal. f_equal. f_equal. f_equal.
    unfold separation_at, C. cbn [a_0 o]. fold o. replace (- (lnA (l_0 o) - s)) with (- lnA (l_0 o) + s) by ring. rewrite exp_plus. rewrite (exp_Ropp s). field. apply Rgt_not_eq. apply exp_pos. }
  assert (EL : forall s, 0 <= s -> 0 < exp (l s) <= e).
  { intros s S0. split; [apply exp_pos|]. rewrite <- L0. pose proof (sol_neg _ _ _ _ s (H s) LN ltac:(lra)) as [Q|Q]; [left; now apply exp_increasing|right; now f_equal]. }
  split.
  - (* the time that has passed never exceeds the merger time *)
    apply le_epsilon. intros eps EPS. set (k := Rpower (1 - e ^ 2) (7 / 2) / g_of (e ^ 2)).
    assert (KP : 0 < k <= 1). { unfold k. pose proof (g_pos (e ^ 2) ltac:(nra)). split; [pos|]. apply ratio_le_1. nra. }
    set (s := Rabs (ln (eps / t_scale o))). assert (S0 : 0 <= s) by apply Rabs_pos.
    assert (XE : exp (- 4 * s) <= eps / t_scale o).
    { assert (EP : 0 < eps / t_scale o) by pos. rewrite <- (exp_ln (eps / t_scale o)) by exact EP. pose proof (Rle_abs (- ln (eps / t_scale o))) as B. rewrite Rabs_Ropp in B. fold s in B.
      assert (B' : - 4 * s <= ln (eps / t_scale o)) by lra. destruct B' as [B'|B']; [left; now apply exp_increasing|right; now f_equal]. }
    pose proof (tau_bounds _ _ _ _ s (H s) LN ltac:(lra)) as [B _]. rewrite L0 in B. replace (e * e) with (e ^ 2) in B by ring. fold k in B.
    rewrite (AL s S0), (TS s S0). destruct (EL s S0) as [E1 E2]. pose proof (J_pos (exp (l s)) ltac:(lra)) as JP.
    assert (0 < 12 / 19 * (C ^ 4 / beta) * RInt ig 0 (exp (l s)) / secyer) by pos.
    assert (BB : k * ((1 - exp (- 4 * s)) / 4) * t_scale o <= tau s * t_scale o) by (apply Rmult_le_compat_r; lra).
    assert (XE' : exp (- 4 * s) * t_scale o <= eps). { apply Rle_trans with (eps / t_scale o * t_scale o); [apply Rmult_le_compat_r; lra|right; field; lra]. }
    pose proof (exp_pos (- 4 * s)) as XP. assert (XT : 0 < exp (- 4 * s) * t_scale o) by pos.
    replace (k * ((1 - exp (- 4 * s)) / 4) * t_scale o) with (t_scale o / 4 * k - k * (exp (- 4 * s) * t_scale o) / 4) in BB by field.
    assert (k * (exp (- 4 * s) * t_scale o) <= 1 * eps) by (apply Rmult_le_compat; lra). lra.
  - apply le_epsilon. intros eps EPS. set (K := 12 / 19 * (C ^ 4 / beta) * (2 * / Rpower (1 - e ^ 2) (3 / 2)) / secyer).
    assert (KP : 0 < K) by (unfold K; pose proof (Rpower_pos (1 - e ^ 2) (3 / 2)); pos).
    set (s := Rabs (lnA (l_0 o)) + Rabs (ln (eps / K))). assert (S0 : 0 <= s) by (unfold s; pose proof (Rabs_pos (lnA (l_0 o))); pose proof (Rabs_pos (ln (eps / K))); lra).
    rewrite (AL s S0), (TS s S0). destruct (EL s S0) as [E1 E2]. pose proof (J_small e (exp (l s)) ltac:(lra) ltac:(lra)) as JS.
    pose proof (tau_bounds _ _ _ _ s (H s) LN ltac:(lra)) as [_ B]. pose proof (exp_pos (- 4 * s)) as XP.
    assert (BB : tau s * t_scale o <= (1 / 4) * t_scale o) by (apply Rmult_le_compat_r; lra).
    assert (SMALL : exp (l s) * K <= eps).
    { assert (LS : l s <= ln (eps / K)).
      { pose proof (motion _ _ _ _ s (H s) LN ltac:(lra)) as M. pose proof (sol_neg _ _ _ _ s (H s) LN ltac:(lra)) as NS. pose proof (e2_lt (l s) ltac:(lra)) as Q.
        assert (LL : 12 / 19 * l s <= lnA (l s)).
        { unfold lnA. assert (ln (1 - exp (l s) * exp (l s)) < 0) by (rewrite <- ln_1; apply ln_increasing; lra). assert (0 < ln (1 + 121 / 304 * (exp (l s) * exp (l s)))) by (rewrite <- ln_1; apply ln_increasing; lra). lra. }
        pose proof (Rle_abs (lnA (l_0 o))). pose proof (Rle_abs (- ln (eps / K))) as B2. rewrite Rabs_Ropp in B2. assert (SE : s = Rabs (lnA (l_0 o)) + Rabs (ln (eps / K))) by reflexivity. pose proof (Rabs_pos (ln (eps / K))). lra. }
      apply Rle_trans with (exp (ln (eps / K)) * K); [apply Rmult_le_compat_r; [lra|]; destruct LS as [LS|LS]; [left; now apply exp_increasing|right; now f_equal]|].
      rewrite exp_ln by pos. right. field. lra. }
    assert (12 / 19 * (C ^ 4 / beta) * RInt ig 0 (exp (l s)) / secyer <= exp (l s) * K).
    { unfold K. apply Rle_trans with (12 / 19 * (C ^ 4 / beta) * (exp (l s) * (2 * / Rpower (1 - e ^ 2) (3 / 2))) / secyer); [|right; unfold Rdiv; ring].
      apply Rmult_le_compat_r; [left; now apply Rinv_0_lt_compat|]. apply Rmult_le_compat_l; [left; pos|exact JS]. }
    lra.
Qed.

(** The merger time compared to that of a circular orbit. *)
Theorem C94_bounds :
  forall m1 m2 a e, 0 < m1 -> 0 < m2 -> 0 < a -> 0 <= e < 1 ->
  exists T, inspiral_timescale_from_separation m1 m2 a e = Ok T /\ 0 < T /\ (e = 0 -> T = circular_years m1 m2 a / 1e6) /\
    circular_years m1 m2 a / 1e6 * (Rpower (1 - e ^ 2) (7 / 2) / (1 + 73 / 24 * e ^ 2 + 37 / 96 * e ^ 4)) <= T <= circular_years m1 m2 a / 1e6.
Proof.
  intros m1 m2 a e M1 M2 A E. replace (1 + 73 / 24 * e ^ 2 + 37 / 96 * e ^ 4) with (g_of (e ^ 2)) by (unfold g_of; ring).
  pose proof (g_pos (e ^ 2) ltac:(nra)) as GP. destruct consts as (G0 & C0 & MS & RS & Y0).
  assert (CP : 0 < circular_years m1 m2 a).
  { unfold circular_years. change 6.67428e-8 with standard_cgrav. change 1.9892e33 with Msun. change 6.9598e10 with Rsun. change 2.99792458e10 with clight. change 3.1558149984e7 with secyer. pos. }
  pose proof (Rpower_pos (1 - e ^ 2) (7 / 2)) as PP.
  assert (KP : 0 < Rpower (1 - e ^ 2) (7 / 2) / g_of (e ^ 2)) by (apply Rdiv_lt_0_compat; lra). set (k := Rpower (1 - e ^ 2) (7 / 2) / g_of (e ^ 2)) in *.
  destruct (Req_dec e 0) as [-> |NE].
  - exists (circular_years m1 m2 a / 1e6). split.
    + unfold inspiral_timescale_from_separation. cbv zeta. assert (0 < m1 * Msun) by pos. assert (0 < m2 * Msun) by pos. assert (0 < a * Rsun) by pos.
      destruct (Rle_dec (m1 * Msun) 0); [lra|]. destruct (Rle_dec (m2 * Msun) 0); [lra|]. destruct (Rle_dec (a * Rsun) 0); [lra|].
      destruct (Rlt_dec 0 0); [lra|]. destruct (Rle_dec 1 0); [lra|]. destruct (Req_EM_T 0 0); [|congruence]. f_equal. unfold circular_years.
      change 6.67428e-8 with standard_cgrav. change 1.9892e33 with Msun. change 6.9598e10 with Rsun. change 2.99792458e10 with clight. change 3.1558149984e7 with secyer.
      assert (0 < m1 * Msun + m2 * Msun) by pos. set (mi := 1e6). assert (0 < mi) by (unfold mi; lra). clearbody mi. field. repeat split; apply Rgt_not_eq; assumption.
    + split; [lra|]. split; [reflexivity|]. split; [|lra]. rewrite <- (Rmult_1_r (circular_years m1 m2 a / 1e6)) at 2. apply Rmult_le_compat_l; [lra|]. unfold k. apply ratio_le_1. lra.
  - exists (T_years m1 m2 a e / 1e6). split; [apply inspiral_eq; lra|]. pose proof (T_bounds m1 m2 a e M1 M2 A ltac:(lra)) as [B1 B2]. fold k in B1.
    assert (0 < circular_years m1 m2 a * k) by (apply Rmult_lt_0_compat; lra). split; [lra|]. split; [lra|]. split; lra.
Qed.
(** Wider orbits merge later, with the fourth power of the separation. *)
Theorem C94_scaling :
  forall m1 m2 a e k T, 0 < k -> inspiral_timescale_from_separation m1 m2 a e = Ok T -> inspiral_timescale_from_separation m1 m2 (k * a) e = Ok (k ^ 4 * T).
Proof.
  intros m1 m2 a e k T K. unfold inspiral_timescale_from_separation. cbv zeta. destruct consts as (G0 & C0 & MS & RS & Y0).
  destruct (Rle_dec (m1 * Msun) 0) as [|M1]; [discriminate|]. destruct (Rle_dec (m2 * Msun) 0) as [|M2]; [discriminate|]. destruct (Rle_dec (a * Rsun) 0) as [|A]; [discriminate|].
  destruct (Rlt_dec e 0); [discriminate|]. destruct (Rle_dec 1 e); [discriminate|]. intros E. assert (Z : forall x y : R, Ok x = Ok y -> x = y) by congruence. apply Z in E. rewrite <- E. clear E Z T.
  assert (0 < k * (a * Rsun)) by (apply Rmult_lt_0_compat; lra). destruct (Rle_dec (k * a * Rsun) 0); [lra|].
  f_equal. set (b := 64 / 5 * standard_cgrav ^ 3 * (m1 * Msun) * (m2 * Msun) * (m1 * Msun + m2 * Msun) / clight ^ 5). set (y := secyer * 1e6). clearbody b y.
  destruct (Req_EM_T e 0).
  - unfold Rdiv. ring.
  - unfold c_0. set (p := Rpower e _). set (q := Rpower (1 + 121 / 304 * e ^ 2) _). set (J := RInt _ _ _). clearbody p q J. unfold Rdiv. ring.
Qed.
(** Other arguments are refused. *)
Theorem C94_errors :
  forall m1 m2 a e, (exists T, inspiral_timescale_from_separation m1 m2 a e = Ok T) <-> 0 < m1 /\ 0 < m2 /\ 0 < a /\ 0 <= e < 1.
Proof.
  intros m1 m2 a e. destruct consts as (G0 & C0 & MS & RS & Y0). split.
  - intros [T H]. unfold inspiral_timescale_from_separation in H. cbv zeta in H.
    assert (P : forall x c, 0 < c -> ~ x * c <= 0 -> 0 < x). { intros x c C N. destruct (Rlt_dec 0 x) as [Q|Q]; [exact Q|]. exfalso. apply N. assert (0 <= - x * c) by (apply Rmult_le_pos; lra). lra. }
    destruct (Rle_dec (m1 * Msun) 0) as [|M1]; [discriminate|]. destruct (Rle_dec (m2 * Msun) 0) as [|M2]; [discriminate|]. destruct (Rle_dec (a * Rsun) 0) as [|A]; [discriminate|].
    destruct (Rlt_dec e 0); [discriminate|]. destruct (Rle_dec 1 e); [discriminate|]. apply P in M1; [|exact MS]. apply P in M2; [|exact MS]. apply P in A; [|exact RS]. repeat split; lra.
  - intros (M1 & M2 & A & E). destruct (C94_bounds m1 m2 a e M1 M2 A E) as (T & H & _). now exists T.
Qed.
(** A circular orbit of two neutron stars of 1.4 Msun at 1 Rsun: 25 to 26 Myr. *)
Example C94_example : exists T, inspiral_timescale_from_separation 1.4 1.4 1 0 = Ok T /\ 25 < T < 28.
Proof.
  destruct (C94_bounds 1.4 1.4 1 0 ltac:(lra) ltac:(lra) ltac:(lra) ltac:(lra)) as (T & H & _ & E & _). exists T. split; [exact H|]. rewrite (E eq_refl). unfold circular_years. lra.
Qed.
Print Assumptions C94_consistent.
Print Assumptions C94_bounds.
Print Assumptions C94_scaling.
Print Assumptions C94_errors.
