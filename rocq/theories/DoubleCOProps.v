(** Two compact objects spiralling in by gravitational radiation (C93). *)
From Coq Require Import Reals String Bool List Lra.
From Coquelicot Require Import Coquelicot.
From Verif Require Import PyBase RealLemmas IntegralLemmas OrbitModel InspiralModel GravRadProps InspiralProofs.
Open Scope R_scope.

(** A bound binary of two compact objects. *)
Definition double (o : orbit) : Prop := 0 < a_0 o /\ 0 <= e_0 o < 1 /\ 0 < mass_1 o /\ 0 < mass_2 o.
Lemma l_neg o : double o -> l_0 o < 0.
Proof.
  intros (_ & [H0 H1] & _). unfold l_0. destruct (Rlt_dec 0 (e_0 o)) as [H|H]; [rewrite <- ln_1; now apply ln_increasing|].
  unfold tiny. rewrite ln_Rinv by (apply pow_lt; lra). assert (0 < ln (2 ^ 1022)); [|lra]. rewrite <- ln_1. apply ln_increasing; [lra|]. apply Rlt_pow_R1; [lra|]. apply Nat.lt_0_succ.
Qed.
Lemma scale_eq o : t_scale o = 5 / 64 * clight ^ 5 * (a_0 o * Rsun) ^ 4 / (standard_cgrav ^ 3 * (mass_1 o * Msun + mass_2 o * Msun) * (mass_1 o * Msun) * (mass_2 o * Msun)) / secyer.
Proof. unfold t_scale. cbv zeta. replace (a_0 o * Rsun / 1e5 * 1e5) with (a_0 o * Rsun) by (field; lra). reflexivity. Qed.
Lemma scale_pos o : double o -> 0 < t_scale o.
Proof. intros (A & _ & M1 & M2). destruct consts as (G0 & C0 & MS & RS & Y0). rewrite scale_eq. pos. Qed.

(** Along the way separation and eccentricity change with time at Peters' rates. *)
Theorem C93_peters :
  forall o s1 l tau s, double o -> solution (l_0 o) s1 l tau -> 0 <= s <= s1 ->
  let a := separation_at o s in let e := exp (l s) in
  let M1 := mass_1 o * 1.9892e33 in let M2 := mass_2 o * 1.9892e33 in
  0 < e < 1 /\
  exists dt, 0 < dt /\
    derivable_pt_lim (fun x => time_at o (tau x)) s dt /\
    derivable_pt_lim (separation_at o) s (peters_a M1 M2 (a * 6.9598e10) e * 3.1558149984e7 / 6.9598e10 * dt) /\
    derivable_pt_lim (fun x => exp (l x)) s (peters_e M1 M2 (a * 6.9598e10) e * 3.1558149984e7 * dt).
Proof.
  intros o s1 l tau s D H S0 a e M1' M2'. pose proof (l_neg o D) as LN. pose proof (scale_pos o D) as TP. pose proof (sol_neg _ _ _ _ s H LN S0) as LS.
  assert (N : l s < 0) by lra. pose proof (e2_lt (l s) N) as Q.
  split. { unfold e. split; [apply exp_pos|]. rewrite <- exp_0. now apply exp_increasing. }
  destruct (rhs_signs s (l s)) as [_ Z]. specialize (Z N).
  pose proof (sol_l _ _ _ _ s H S0) as DL. pose proof (sol_tau _ _ _ _ s H S0) as DT. apply is_derive_Reals in DL, DT.
  rewrite rhs_bound in DL, DT, Z by exact N. cbn [fst snd] in DL, DT, Z.
  replace (exp (l s) * exp (l s)) with (e ^ 2) in * by (unfold e; ring).
  set (dtau := exp (-4 * s) * Rpower (1 - e ^ 2) (7 / 2) / g_of (e ^ 2)) in *.
  exists (dtau * t_scale o). split; [apply Rmult_lt_0_compat; lra|].
  pose proof (g_pos (e ^ 2) ltac:(lra)) as GP. pose proof (exp_pos (- s)) as EP.
  assert (E4 : exp (-4 * s) = exp (- s) ^ 4) by (rewrite <- Rpower_pow by apply exp_pos; unfold Rpower; rewrite ln_exp; f_equal; cbn; ring).
  pose proof (Rpower_pos (1 - e ^ 2) (7 / 2)) as P7. pose proof (Rpower_pos (1 - e ^ 2) (5 / 2)) as P5.
  assert (P75 : Rpower (1 - e ^ 2) (7 / 2) = (1 - e ^ 2) * Rpower (1 - e ^ 2) (5 / 2)) by (replace (7 / 2) with (5 / 2 + 1) by field; apply pow_step; lra).
  destruct D as (A & _ & M1 & M2). destruct consts as (G0 & C0 & MS & RS & Y0).
  assert (MM : 0 < mass_1 o * Msun + mass_2 o * Msun) by pos.
  split; [|split].
  - unfold time_at. replace (dtau * t_scale o) with (dtau * t_scale o + 0) by ring.
    apply (derivable_pt_lim_plus (fun x => tau x * t_scale o) (fun _ => t_0 o)); [|apply derivable_pt_lim_const].
    replace (dtau * t_scale o) with (dtau * t_scale o + tau s * 0) by ring. apply (derivable_pt_lim_mult tau (fun _ => t_scale o)); [exact DT|apply derivable_pt_lim_const].
  - replace (peters_a M1' M2' (a * 6.9598e10) e * 3.1558149984e7 / 6.9598e10 * (dtau * t_scale o)) with (- exp (- s) * a_0 o).
    + unfold separation_at. apply is_derive_Reals. auto_derive; [exact I|]. ring.
    + unfold peters_a, M1', M2', a, separation_at. rewrite scale_eq. unfold dtau. rewrite E4. unfold g_of in *.
      change 6.67428e-8 with standard_cgrav. change 1.9892e33 with Msun. change 6.9598e10 with Rsun. change 2.99792458e10 with clight. change 3.1558149984e7 with secyer.
      set (P := Rpower (1 - e ^ 2) (7 / 2)) in *. set (E := exp (- s)) in *. clearbody P E. field. repeat split; apply Rgt_not_eq; try assumption; try (pos; lra).
  - replace (peters_e M1' M2' (a * 6.9598e10) e * 3.1558149984e7 * (dtau * t_scale o)) with (exp (l s) * (- (19 / 12) * (1 - e ^ 2) * f_of (e ^ 2) / g_of (e ^ 2))).
    + apply (derivable_pt_lim_comp l exp); [exact DL|apply derivable_pt_lim_exp].
    + fold e. unfold peters_e, M1', M2', a, separation_at. rewrite scale_eq. unfold dtau. rewrite E4, P75. unfold g_of, f_of in *.
      change 6.67428e-8 with standard_cgrav. change 1.9892e33 with Msun. change 6.9598e10 with Rsun. change 2.99792458e10 with clight. change 3.1558149984e7 with secyer.
      set (P := Rpower (1 - e ^ 2) (5 / 2)) in *. set (E := exp (- s)) in *. clearbody P E. field. repeat split; apply Rgt_not_eq; try assumption; try (pos; lra).
Qed.

Definition recorded_e (o : orbit) : R := exp (l_0 o).
Lemma recorded_is o : recorded_e o = if Rlt_dec 0 (e_0 o) then e_0 o else / 2 ^ 1022.
Proof.
  unfold recorded_e, l_0, tiny. destruct (Rlt_dec 0 (e_0 o)) as [H|H]; [now apply exp_ln|]. apply exp_ln. apply Rinv_0_lt_compat. apply pow_lt. lra.
Qed.
Lemma recorded_ge o : double o -> e_0 o <= recorded_e o < 1.
Proof.
  intros D. split.
  - rewrite recorded_is. destruct (Rlt_dec 0 (e_0 o)) as [H|H]; [lra|]. assert (0 < / 2 ^ 1022) by (apply Rinv_0_lt_compat; apply pow_lt; lra). lra.
  - unfold recorded_e. rewrite <- exp_0. apply exp_increasing. now apply l_neg.
Qed.
Lemma exp4 s : exp (-4 * s) = exp (- s) ^ 4.
Proof. rewrite <- Rpower_pow by apply exp_pos. unfold Rpower. rewrite ln_exp. f_equal. cbn. ring. Qed.

(** How long it takes to shrink to a separation, compared to a circular orbit. *)
Theorem C93_duration :
  forall o s1 l tau s, double o -> solution (l_0 o) s1 l tau -> 0 <= s <= s1 ->
  let M1 := mass_1 o * 1.9892e33 in let M2 := mass_2 o * 1.9892e33 in
  let circular := 5 / 256 * 2.99792458e10 ^ 5 * (a_0 o * 6.9598e10) ^ 4 / (6.67428e-8 ^ 3 * M1 * M2 * (M1 + M2)) / 3.1558149984e7 in
  let elapsed := time_at o (tau s) - t_0 o in
  let left := 1 - (separation_at o s / a_0 o) ^ 4 in
  elapsed <= circular * left /\ elapsed <= 8 * circular * Rpower (1 - e_0 o ^ 2) (7 / 2) /\
  (forall e, e_0 o <= e < 1 -> / 2 ^ 1022 <= e -> circular * left * (Rpower (1 - e ^ 2) (7 / 2) / (1 + 73 / 24 * e ^ 2 + 37 / 96 * e ^ 4)) <= elapsed).
Proof.
  intros o s1 l tau s D H S0 M1' M2' circular elapsed left. pose proof (l_neg o D) as LN. pose proof (scale_pos o D) as TP.
  assert (CE : circular = t_scale o / 4).
  { unfold circular, M1', M2'. rewrite scale_eq. change 6.67428e-8 with standard_cgrav. change 1.9892e33 with Msun. change 6.9598e10 with Rsun. change 2.99792458e10 with clight. change 3.1558149984e7 with secyer.
    destruct D as (A & _ & M1 & M2). destruct consts as (G0 & C0 & MS & RS & Y0). assert (0 < mass_1 o * Msun + mass_2 o * Msun) by pos.
    field. repeat split; apply Rgt_not_eq; try assumption. }
  assert (LE : left = 1 - exp (- 4 * s)).
  { unfold left, separation_at. rewrite exp4. destruct D as (A & _). f_equal. f_equal. field. lra. }
  assert (EE : elapsed = tau s * t_scale o) by (unfold elapsed, time_at; ring).
  pose proof (tau_bounds _ _ _ _ s H LN S0) as [B1 B2]. pose proof (tau_eccentric _ _ _ _ s H LN S0) as B3.
  rewrite CE, LE, EE. clearbody elapsed left circular. pose proof (recorded_ge o D) as RG. unfold recorded_e in RG. pose proof (exp_pos (l_0 o)) as EP.
  assert (LP : 0 <= 1 - exp (- 4 * s)). { assert (exp (- 4 * s) <= exp 0); [|rewrite exp_0 in *; lra]. destruct (Req_dec s 0) as [-> |N]; [rewrite Rmult_0_r; lra|]. left. apply exp_increasing. lra. }
  split; [|split].
  - apply Rle_trans with ((1 - exp (- 4 * s)) / 4 * t_scale o); [apply Rmult_le_compat_r; lra|right; field].
  - apply Rle_trans with (2 * Rpower (1 - exp (l_0 o) * exp (l_0 o)) (7 / 2) * t_scale o); [apply Rmult_le_compat_r; lra|].
    apply Rle_trans with (2 * Rpower (1 - e_0 o ^ 2) (7 / 2) * t_scale o); [|right; field]. apply Rmult_le_compat_r; [lra|]. apply Rmult_le_compat_l; [lra|]. apply Rpower_le_l; [lra| |].
    + pose proof (e2_lt _ LN). lra.
    + destruct D as (_ & E & _). nra.
  - intros e E1 E2. assert (LEE : exp (l_0 o) <= e). { fold (recorded_e o). rewrite recorded_is. destruct (Rlt_dec 0 (e_0 o)); lra. }
    pose proof (e2_lt _ LN) as Q. assert (E2L : exp (l_0 o) * exp (l_0 o) <= e ^ 2) by nra.
    pose proof (ratio_le (exp (l_0 o) * exp (l_0 o)) (e ^ 2) ltac:(lra) ltac:(nra)) as RL.
    replace (1 + 73 / 24 * e ^ 2 + 37 / 96 * e ^ 4) with (g_of (e ^ 2)) by (unfold g_of; ring).
    set (k := Rpower (1 - e ^ 2) (7 / 2) / g_of (e ^ 2)) in *. set (k0 := Rpower (1 - exp (l_0 o) * exp (l_0 o)) (7 / 2) / g_of (exp (l_0 o) * exp (l_0 o))) in *.
    apply Rle_trans with (k0 * ((1 - exp (- 4 * s)) / 4) * t_scale o); [|apply Rmult_le_compat_r; lra].
    replace (t_scale o / 4 * (1 - exp (- 4 * s)) * k) with (k * ((1 - exp (- 4 * s)) / 4) * t_scale o) by field.
    apply Rmult_le_compat_r; [lra|]. apply Rmult_le_compat_r; [lra|exact RL].
Qed.

Lemma sol_restrict l0 s1 s2 l tau : solution l0 s1 l tau -> 0 <= s2 <= s1 -> solution l0 s2 l tau.
Proof.
  intros (A & B & C) H. split; [exact A|]. split; [exact B|]. intros s Hs. apply C. unfold Rmin, Rmax in *.
  destruct (Rle_dec 0 s2); destruct (Rle_dec 0 s1); lra.
Qed.
Lemma tau_cont l0 s1 l tau : solution l0 s1 l tau -> 0 <= s1 -> forall s, 0 <= s <= s1 -> continuity_pt tau s.
Proof. intros H _ s S0. apply continuity_pt_filterlim. apply (ex_derive_continuous (V := R_NormedModule)). eexists. eapply sol_tau; [exact H|exact S0]. Qed.

(** Each bound binary has exactly one evolution. *)
Theorem C93_runs :
  forall o max_time s_contact, double o -> 0 <= s_contact -> t_0 o <= max_time ->
  (exists st s l tau, solve_ivp (l_0 o) s_contact (tau_max o max_time) st s l tau) /\
  (forall st s l tau st' s' l' tau', solve_ivp (l_0 o) s_contact (tau_max o max_time) st s l tau ->
    solve_ivp (l_0 o) s_contact (tau_max o max_time) st' s' l' tau' ->
    st = st' /\ s = s' /\ forall x, 0 <= x <= s -> l x = l' x /\ tau x = tau' x).
Proof.
  intros o max_time sc D SC TM. pose proof (l_neg o D) as LN. pose proof (scale_pos o D) as TP.
  assert (TM0 : 0 <= tau_max o max_time). { unfold tau_max. apply Rmult_le_pos; [lra|]. left. now apply Rinv_0_lt_compat. }
  split.
  - destruct (solution_exists _ LN) as (l & tau & H & _).
    destruct (Rlt_dec (tau sc) (tau_max o max_time)) as [L|L].
    + exists 0%nat, sc, l, tau. apply Ends_at_contact; [apply H|]. right. intros s S0. apply Rle_lt_trans with (tau sc); [|exact L].
      destruct (Req_dec s sc) as [-> |N]; [lra|]. left. eapply (sol_strict _ _ _ _ s sc (H sc)); lra.
    + assert (T0 : tau 0 = 0) by apply (H 0).
      destruct (Req_dec (tau_max o max_time) 0) as [Z|Z].
      { exists 1%nat, 0, l, tau. apply Ends_at_time; [apply H|lra|congruence|]. intros s' S'. lra. }
      assert (SCP : 0 < sc). { destruct SC as [SC|SC]; [exact SC|]. rewrite <- SC, T0 in L. lra. }
      destruct (Req_dec (tau sc) (tau_max o max_time)) as [E|E].
      { exists 1%nat, sc, l, tau. apply Ends_at_time; [apply H|lra|exact E|]. intros s' S'. rewrite <- E. eapply (sol_strict _ _ _ _ s' sc (H sc)); lra. }
      destruct (IVT_Rbar_incr tau 0 sc (tau 0) (tau sc) (tau_max o max_time)) as (x & X1 & X2 & X3).
      * apply (is_lim_continuity tau 0). eapply (tau_cont _ _ _ _ (H sc)); lra.
      * apply (is_lim_continuity tau sc). eapply (tau_cont _ _ _ _ (H sc)); lra.
      * intros x A B. cbn in A, B. eapply (tau_cont _ _ _ _ (H sc)); lra.
      * exact SCP.
      * cbn. rewrite T0. lra.
      * cbn in X1, X2. exists 1%nat, x, l, tau. apply Ends_at_time; [apply H|lra|exact X3|]. intros s' S'. rewrite <- X3. eapply (sol_strict _ _ _ _ s' x (H x)); lra.
  - intros st s l tau st' s' l' tau' A B. inversion A as [? ? A1 A2|? ? ? A1 A2 A3 A4]; inversion B as [? ? B1 B2|? ? ? B1 B2 B3 B4]; subst.
    + split; [reflexivity|]. split; [reflexivity|]. now apply solution_unique with (l_0 o).
    + exfalso. destruct A2 as [A2|A2]; [lra|]. destruct (solution_unique _ s' l tau l' tau' LN (sol_restrict _ _ s' _ _ A1 B2) B1 s' ltac:(lra)) as [_ E]. specialize (A2 s' B2). lra.
    + exfalso. destruct B2 as [B2|B2]; [lra|]. destruct (solution_unique _ s l tau l' tau' LN A1 (sol_restrict _ _ s _ _ B1 A2) s ltac:(lra)) as [_ E]. specialize (B2 s A2). lra.
    + assert (SS : s = s').
      { destruct (Rtotal_order s s') as [O|[O|O]]; [|exact O|].
        - exfalso. destruct (solution_unique _ s l tau l' tau' LN A1 (sol_restrict _ _ s _ _ B1 ltac:(lra)) s ltac:(lra)) as [_ E]. specialize (B4 s ltac:(lra)). lra.
        - exfalso. destruct (solution_unique _ s' l tau l' tau' LN (sol_restrict _ _ s' _ _ A1 ltac:(lra)) B1 s' ltac:(lra)) as [_ E]. specialize (A4 s' ltac:(lra)). lra. }
      subst s'. split; [reflexivity|]. split; [reflexivity|]. now apply solution_unique with (l_0 o).
Qed.

(** ** Reading the solution at a time *)
Lemma tau_range o s1 l tau s : double o -> solution (l_0 o) s1 l tau -> 0 <= s <= s1 -> 0 <= tau s <= / 4.
Proof.
  intros D H S0. pose proof (l_neg o D) as LN. pose proof (tau_bounds _ _ _ _ s H LN S0) as [B1 B2]. pose proof (exp_pos (- 4 * s)). split; [|lra].
  destruct (Req_dec s 0) as [-> |N]; [destruct H as (_ & -> & _); lra|]. left. destruct H as (E0 & T0 & R0). rewrite <- T0.
  assert (HS : solution (l_0 o) s1 l tau) by (split; [exact E0|split; [exact T0|exact R0]]). eapply (sol_strict _ _ _ _ 0 s HS); lra.
Qed.
Lemma dense_unfold brentq o s1 l tau t : double o -> solution (l_0 o) s1 l tau -> 0 <= s1 ->
  dense brentq o tau 0 s1 t =
  (let target := (t - t_0 o) / t_scale o in
   if Rle_dec (Rabs (0 - target)) (1e4 * / 2 ^ 52) then Ok 0
   else if Rle_dec (Rabs (tau s1 - target)) (1e4 * / 2 ^ 52) then Ok s1
   else if Rlt_dec 0 ((0 - target) * (tau s1 - target)) then Raise ValueError
   else Ok (brentq (fun s => tau s - target) 0 s1)).
Proof.
  intros D H S0. pose proof (tau_range o s1 l tau s1 D H ltac:(lra)) as B. assert (T0 : tau 0 = 0) by apply H.
  unfold dense. cbv zeta. rewrite T0. rewrite Rabs_R0, (Rabs_right (tau s1)) by lra. rewrite (Rmax_left 1 0), (Rmax_left 1 (tau s1)), Rmult_1_r by lra. reflexivity.
Qed.
(** The state that is returned is that of a time within 3e-12 of the timescale of the orbit. *)
Theorem C93_dense :
  forall brentq o s1 l tau t, double o -> solution (l_0 o) s1 l tau -> 0 <= s1 ->
  (let f := fun s => tau s - (t - t_0 o) / t_scale o in f 0 * f s1 <= 0 -> 0 <= brentq f 0 s1 <= s1 /\ f (brentq f 0 s1) = 0) ->
  (forall s, dense brentq o tau 0 s1 t = Ok s -> 0 <= s <= s1 /\ Rabs (time_at o (tau s) - t) <= 3e-12 * t_scale o) /\
  (t_0 o <= t <= time_at o (tau s1) -> exists s, dense brentq o tau 0 s1 t = Ok s).
Proof.
  intros brentq o s1 l tau t D H S1 BR. rewrite (dense_unfold brentq o s1 l tau t D H S1). cbv beta zeta in *. pose proof (scale_pos o D) as TP.
  set (target := (t - t_0 o) / t_scale o) in *. assert (TT : t = target * t_scale o + t_0 o) by (unfold target; field; lra).
  assert (T0 : tau 0 = 0) by apply H. rewrite T0 in BR.
  assert (DIFF : forall x, Rabs (x - target) <= 1e4 * / 2 ^ 52 -> Rabs (time_at o x - t) <= 3e-12 * t_scale o).
  { intros x X. unfold time_at. rewrite TT. replace (x * t_scale o + t_0 o - (target * t_scale o + t_0 o)) with ((x - target) * t_scale o) by ring.
    rewrite Rabs_mult, (Rabs_right (t_scale o)) by lra. apply Rmult_le_compat_r; lra. }
  split.
  - intros s E. destruct (Rle_dec _ _) as [A|A] in E; [injection E as <-; rewrite T0; split; [lra|now apply DIFF]|].
    destruct (Rle_dec _ _) as [B|B] in E; [injection E as <-; split; [lra|now apply DIFF]|].
    destruct (Rlt_dec _ _) as [C|C] in E; [discriminate|]. injection E as <-. destruct (BR ltac:(lra)) as [X1 X2]. split; [exact X1|]. apply DIFF. rewrite X2, Rabs_R0. lra.
  - intros [A B]. assert (C : 0 <= target <= tau s1).
    { unfold time_at in B. rewrite TT in A, B. split.
      - destruct (Rle_dec 0 target) as [Q|Q]; [exact Q|]. exfalso. assert (target * t_scale o < 0 * t_scale o) by (apply Rmult_lt_compat_r; lra). lra.
      - destruct (Rle_dec target (tau s1)) as [Q|Q]; [exact Q|]. exfalso. assert (tau s1 * t_scale o < target * t_scale o) by (apply Rmult_lt_compat_r; lra). lra. }
    destruct (Rle_dec _ _); [eexists; reflexivity|]. destruct (Rle_dec _ _); [eexists; reflexivity|]. destruct (Rlt_dec _ _) as [Q|Q]; [|eexists; reflexivity].
    exfalso. assert (0 <= target * (tau s1 - target)) by (apply Rmult_le_pos; lra). lra.
Qed.

(** ** The outcome *)
Lemma contact_place o r1 r2 al : double o -> CO_radius (mass_1 o) (state_1 o) = Ok r1 -> CO_radius (mass_2 o) (state_2 o) = Ok r2 -> alpha_contact o = Ok al ->
  al = (r1 + r2) / a_0 o.
Proof.
  intros (A & _) R1 R2. unfold alpha_contact. rewrite R1, R2. cbn [rbind]. cbv zeta. intros E. assert (Z := eq_sym E). injection Z as ->.
  destruct consts as (_ & _ & _ & RS & _). field. split; apply Rgt_not_eq; lra.
Qed.
Lemma radius_pos M t r : CO_radius M t = Ok r -> 0 < r.
Proof.
  unfold CO_radius, Schwarzschild_Radius. destruct consts as (G0 & C0 & MS & RS & Y0). destruct (Rle_dec M 0) as [H|H]; [discriminate|].
  assert (0 < M) by lra. destruct (String.eqb t "BH"); [intros E; assert (Z := eq_sym E); injection Z as ->; pos|]. destruct (String.eqb t "NS"); [intros E; assert (Z := eq_sym E); injection Z as ->; pos|].
  destruct (String.eqb t "WD"); [|discriminate]. intros E. assert (Z := eq_sym E). injection Z as ->. pos.
Qed.
Theorem C93_outcome :
  forall brentq o max_time r1 r2 al st s l tau s_read, double o -> 0 <= t_0 o <= max_time ->
  CO_radius (mass_1 o) (state_1 o) = Ok r1 -> CO_radius (mass_2 o) (state_2 o) = Ok r2 -> r1 + r2 <= a_0 o -> alpha_contact o = Ok al ->
  solve_ivp (l_0 o) (- ln al) (tau_max o max_time) st s l tau ->
  dense brentq o tau 0 s (time_at o (tau s)) = Ok s_read ->
  let f := finish o max_time st s s_read l tau in
  let elapsed := time_at o (tau s) - t_0 o in
  (f_event f = "CO_contact"%string /\ f_state f = "contact"%string /\ f_ecc f = 0 /\ separation_at o s = r1 + r2 /\
   f_time f = t_0 o + elapsed /\ 0 <= elapsed /\ f_time f < max_time /\
   f_separation f = (if Rle_dec elapsed (1e4 / 2 ^ 52 * t_scale o) then a_0 o else r1 + r2)) \/
  (f_event f = "maxtime"%string /\ f_state f = "detached"%string /\ f_time f = max_time /\ t_0 o + elapsed = max_time /\ r1 + r2 <= separation_at o s <= a_0 o /\
   0 < f_ecc f < 1 /\ (0 < e_0 o -> f_ecc f <= e_0 o) /\
   f_separation f = (if Rle_dec elapsed (1e4 / 2 ^ 52 * t_scale o) then a_0 o else separation_at o s)).
Proof.
  intros brentq o max_time r1 r2 al st s l tau s_read D T0 R1 R2 RA AL RUN DE f elapsed.
  pose proof (contact_place o r1 r2 al D R1 R2 AL) as ALE. pose proof (radius_pos _ _ _ R1) as P1. pose proof (radius_pos _ _ _ R2) as P2.
  pose proof (l_neg o D) as LN. pose proof (scale_pos o D) as TP. assert (AP : 0 < a_0 o) by apply D.
  assert (AL01 : 0 < al <= 1).
  { rewrite ALE. split; [apply Rdiv_lt_0_compat; lra|]. apply Rmult_le_reg_r with (a_0 o); [exact AP|]. unfold Rdiv. rewrite Rmult_assoc, Rinv_l by lra. lra. }
  assert (SC : 0 <= - ln al). { assert (ln al <= ln 1) by (apply Rcomplements.ln_le; lra). rewrite ln_1 in *. lra. }
  assert (SEPC : separation_at o (- ln al) = r1 + r2).
  { unfold separation_at. rewrite Ropp_involutive, exp_ln by lra. rewrite ALE. field. lra. }
  assert (SOL : solution (l_0 o) s l tau /\ 0 <= s <= - ln al) by (inversion RUN; subst; split; try assumption; lra).
  destruct SOL as [SOL SR]. pose proof (tau_range o s l tau s D SOL ltac:(lra)) as TR.
  assert (READ : s_read = if Rle_dec elapsed (1e4 / 2 ^ 52 * t_scale o) then 0 else s).
  { rewrite (dense_unfold brentq o s l tau _ D SOL ltac:(lra)) in DE. cbv zeta in DE.
    replace ((time_at o (tau s) - t_0 o) / t_scale o) with (tau s) in DE by (unfold time_at; field; lra).
    replace (Rabs (0 - tau s)) with (tau s) in DE by (rewrite Rminus_0_l, Rabs_Ropp, Rabs_right; lra).
    unfold elapsed, time_at. destruct (Rle_dec (tau s) (1e4 * / 2 ^ 52)) as [A|A].
    - injection DE as <-. destruct (Rle_dec _ _) as [B|B]; [reflexivity|]. exfalso. apply B. replace (tau s * t_scale o + t_0 o - t_0 o) with (tau s * t_scale o) by ring. apply Rmult_le_compat_r; lra.
    - replace (tau s - tau s) with 0 in DE by ring. rewrite Rabs_R0 in DE. destruct (Rle_dec 0 (1e4 * / 2 ^ 52)) as [B|B]; [|exfalso; lra].
      injection DE as <-. destruct (Rle_dec _ _) as [C|C]; [|reflexivity]. exfalso. apply A. replace (tau s * t_scale o + t_0 o - t_0 o) with (tau s * t_scale o) in C by ring.
      apply Rmult_le_reg_r with (t_scale o); [exact TP|exact C]. }
  assert (EL : elapsed = tau s * t_scale o) by (unfold elapsed, time_at; ring).
  assert (EL0 : 0 <= elapsed) by (rewrite EL; apply Rmult_le_pos; lra).
  assert (SEP : nonneg (separation_at o s_read) = if Rle_dec elapsed (1e4 / 2 ^ 52 * t_scale o) then a_0 o else separation_at o s).
  { assert (NN : forall x, nonneg (separation_at o x) = separation_at o x).
    { intros x. unfold nonneg. destruct (Rlt_dec _ _) as [Q|Q]; [|reflexivity]. exfalso. unfold separation_at in Q. pose proof (exp_pos (- x)).
      assert (0 < exp (- x) * a_0 o) by (apply Rmult_lt_0_compat; lra). lra. }
    rewrite NN, READ. destruct (Rle_dec _ _); [|reflexivity]. unfold separation_at. rewrite Ropp_0, exp_0. ring. }
  inversion RUN as [l' tau' A1 A2|s' l' tau' A1 A2 A3 A4]; subst st s l' tau'; [left|right]; cbn [finish status_of] in *; subst f; cbn [f_event f_state f_ecc f_time f_separation].
  - rewrite SEPC in SEP. rewrite SEP. fold (time_at o (tau (- ln al))).
    assert (TIME : nonneg (time_at o (tau (- ln al))) = t_0 o + elapsed).
    { unfold nonneg, elapsed. destruct (Rlt_dec _ _) as [Q|Q]; [exfalso; unfold elapsed in EL0; lra|ring]. }
    rewrite TIME. repeat split; try reflexivity; try assumption.
    assert (TM : 0 <= tau_max o max_time). { unfold tau_max. apply Rmult_le_pos; [lra|]. left. now apply Rinv_0_lt_compat. }
    destruct A2 as [A2|A2]; [lra|]. specialize (A2 (- ln al) ltac:(lra)). rewrite EL.
    assert (tau (- ln al) * t_scale o < tau_max o max_time * t_scale o) by (apply Rmult_lt_compat_r; lra).
    replace (tau_max o max_time * t_scale o) with (max_time - t_0 o) in H by (unfold tau_max; field; lra). lra.
  - rename s' into s. rewrite SEP. pose proof (sol_neg _ _ _ _ s SOL LN ltac:(lra)) as LS.
    repeat split; try reflexivity.
    + rewrite EL, A3. unfold tau_max. field. lra.
    + rewrite <- SEPC. unfold separation_at. apply Rmult_le_compat_r; [lra|]. destruct (Req_dec s (- ln al)) as [-> |N]; [lra|]. left. apply exp_increasing. lra.
    + unfold separation_at. replace (a_0 o) with (exp 0 * a_0 o) at 2 by (rewrite exp_0; ring). apply Rmult_le_compat_r; [lra|]. destruct (Req_dec s 0) as [-> |N]; [rewrite Ropp_0; lra|]. left. apply exp_increasing. lra.
    + apply exp_pos.
    + rewrite <- exp_0. apply exp_increasing. lra.
    + intros E. apply Rle_trans with (exp (l_0 o)); [destruct LS as [LS| ->]; [left; now apply exp_increasing|lra]|]. fold (recorded_e o). rewrite recorded_is. destruct (Rlt_dec 0 (e_0 o)); lra.
Qed.

(** ** Findings *)
(** After a very eccentric orbit the merger is recorded with the separation before it. *)
Theorem C93_eccentric :
  forall brentq o max_time r1 r2 al st s l tau s_read, double o -> 0 <= t_0 o <= max_time ->
  CO_radius (mass_1 o) (state_1 o) = Ok r1 -> CO_radius (mass_2 o) (state_2 o) = Ok r2 -> r1 + r2 <= a_0 o -> alpha_contact o = Ok al ->
  solve_ivp (l_0 o) (- ln al) (tau_max o max_time) st s l tau ->
  dense brentq o tau 0 s (time_at o (tau s)) = Ok s_read ->
  1 - e_0 o ^ 2 <= / 2 ^ 12 -> f_separation (finish o max_time st s s_read l tau) = a_0 o.
Proof.
  intros brentq o max_time r1 r2 al st s l tau s_read D T0 R1 R2 RA AL RUN DE E.
  pose proof (C93_outcome brentq o max_time r1 r2 al st s l tau s_read D T0 R1 R2 RA AL RUN DE) as O. cbv zeta in O.
  pose proof (l_neg o D) as LN. pose proof (scale_pos o D) as TP.
  assert (SOL : solution (l_0 o) s l tau /\ 0 <= s).
  { inversion RUN; subst; split; try assumption; try lra. pose proof (contact_place o r1 r2 al D R1 R2 AL) as ALE. pose proof (radius_pos _ _ _ R1). pose proof (radius_pos _ _ _ R2).
    assert (AP : 0 < a_0 o) by apply D. assert (0 < al <= 1).
    { rewrite ALE. split; [apply Rdiv_lt_0_compat; lra|]. apply Rmult_le_reg_r with (a_0 o); [exact AP|]. unfold Rdiv. rewrite Rmult_assoc, Rinv_l by lra. lra. }
    assert (ln al <= ln 1) by (apply Rcomplements.ln_le; lra). rewrite ln_1 in *. lra. }
  destruct SOL as [SOL S0]. pose proof (tau_eccentric _ _ _ _ s SOL LN ltac:(lra)) as B.
  assert (SMALL : time_at o (tau s) - t_0 o <= 1e4 / 2 ^ 52 * t_scale o).
  { replace (time_at o (tau s) - t_0 o) with (tau s * t_scale o) by (unfold time_at; ring). apply Rmult_le_compat_r; [lra|].
    apply Rle_trans with (1 := B). pose proof (recorded_ge o D) as [RG _]. unfold recorded_e in RG. pose proof (e2_lt _ LN) as Q.
    apply Rle_trans with (2 * Rpower (/ 2 ^ 12) (7 / 2)).
    - apply Rmult_le_compat_l; [lra|]. apply Rpower_le_l; [lra|lra|]. destruct D as (_ & E0 & _). nra.
    - replace (Rpower (/ 2 ^ 12) (7 / 2)) with (/ 2 ^ 42); [lra|]. rewrite <- !(Rpower_pow _ 2) by lra. rewrite <- !Rpower_Ropp, Rpower_mult. f_equal. cbn. lra. }
  destruct O as [(_ & _ & _ & _ & _ & _ & _ & O)|(_ & _ & _ & _ & _ & _ & _ & O)]; rewrite O; destruct (Rle_dec _ _) as [Q|Q]; try reflexivity; exfalso; now apply Q.
Qed.

Definition nsns (t a e : R) : orbit := Orbit t a e 1.4 "NS" 1.4 "NS".
Lemma nsns_radius : CO_radius 1.4 "NS" = Ok (12.5e5 / Rsun).
Proof. unfold CO_radius. destruct (Rle_dec 1.4 0); [lra|reflexivity]. Qed.
Lemma nsns_double t a e : 0 < a -> 0 <= e < 1 -> double (nsns t a e).
Proof. intros. unfold double, nsns. cbn. lra. Qed.
Lemma nsns_alpha t a e : alpha_contact (nsns t a e) = Ok ((12.5e5 / Rsun * Rsun / 1e5 + 12.5e5 / Rsun * Rsun / 1e5) / (a * Rsun / 1e5)).
Proof. unfold alpha_contact, nsns. cbn [mass_1 mass_2 state_1 state_2 a_0]. rewrite nsns_radius. reflexivity. Qed.
Lemma nsns_al a : 0 < a -> (12.5e5 / Rsun * Rsun / 1e5 + 12.5e5 / Rsun * Rsun / 1e5) / (a * Rsun / 1e5) = 25e5 / Rsun / a.
Proof.
  intros A. assert (Z : forall r c k : R, 0 < c -> 0 < k -> (r / c * c / k + r / c * c / k) / (a * c / k) = 2 * r / c / a) by (intros r c k H1 H2; field; lra).
  destruct consts as (_ & _ & _ & RS & _). rewrite Z by lra. replace (2 * 12.5e5) with 25e5 by lra. reflexivity.
Qed.
(** A run that ends at contact, when there is more time than the timescale of the orbit. *)
Lemma contact_run o al : double o -> 0 < al <= 1 -> exists l tau, solve_ivp (l_0 o) (- ln al) (tau_max o (t_0 o + t_scale o)) 0 (- ln al) l tau /\
  forall brentq, exists s, dense brentq o tau 0 (- ln al) (time_at o (tau (- ln al))) = Ok s.
Proof.
  intros D AL. pose proof (scale_pos o D) as TP.
  assert (TM : tau_max o (t_0 o + t_scale o) = 1) by (unfold tau_max; field; lra).
  destruct (solution_exists _ (l_neg o D)) as (l & tau & H & _).
  assert (SC : 0 <= - ln al) by (assert (ln al <= ln 1) by (apply Rcomplements.ln_le; lra); rewrite ln_1 in *; lra).
  exists l, tau. split.
  - apply Ends_at_contact; [apply H|]. right. intros s S0. pose proof (tau_range o (- ln al) l tau s D (H _) S0). lra.
  - intros brentq. rewrite (dense_unfold brentq o (- ln al) l tau _ D (H _) SC). cbv zeta. destruct (Rle_dec _ _); [eexists; reflexivity|].
    replace ((time_at o (tau (- ln al)) - t_0 o) / t_scale o) with (tau (- ln al)) by (unfold time_at; field; lra).
    destruct (Rle_dec _ _) as [Q|Q]; [eexists; reflexivity|]. exfalso. apply Q. replace (tau (- ln al) - tau (- ln al)) with 0 by ring. rewrite Rabs_R0. lra.
Qed.
Lemma sum_radius : 12.5e5 / Rsun + 12.5e5 / Rsun < 0.0001.
Proof. unfold Rsun. lra. Qed.
Theorem C93_eccentric_contact_refuted :
  ~ forall brentq o max_time r1 r2 al st s l tau s_read, double o -> 0 <= t_0 o <= max_time ->
    CO_radius (mass_1 o) (state_1 o) = Ok r1 -> CO_radius (mass_2 o) (state_2 o) = Ok r2 -> r1 + r2 <= a_0 o -> alpha_contact o = Ok al ->
    solve_ivp (l_0 o) (- ln al) (tau_max o max_time) st s l tau ->
    dense brentq o tau 0 s (time_at o (tau s)) = Ok s_read ->
    f_event (finish o max_time st s s_read l tau) = "CO_contact"%string -> f_separation (finish o max_time st s s_read l tau) = r1 + r2.
Proof.
  intros C. set (o := nsns 0 10 0.9999). assert (D : double o) by (apply nsns_double; lra). pose proof (scale_pos o D) as TP.
  set (al := (12.5e5 / Rsun * Rsun / 1e5 + 12.5e5 / Rsun * Rsun / 1e5) / (10 * Rsun / 1e5)).
  assert (ALE : alpha_contact o = Ok al) by apply nsns_alpha.
  assert (AL : 0 < al <= 1) by (unfold al; rewrite nsns_al by lra; unfold Rsun; lra).
  destruct (contact_run o al D AL) as (l & tau & RUN & DE). destruct (DE (fun _ _ _ => 0)) as (s & DS).
  pose proof sum_radius. assert (T0 : 0 <= t_0 o <= t_0 o + t_scale o) by (cbn [t_0 o nsns]; lra).
  assert (RA : 12.5e5 / Rsun + 12.5e5 / Rsun <= a_0 o) by (cbn [a_0 o nsns]; lra).
  specialize (C (fun _ _ _ => 0) o _ _ _ al _ _ l tau s D T0 nsns_radius nsns_radius RA ALE RUN DS).
  rewrite (C93_eccentric (fun _ _ _ => 0) o _ _ _ al _ _ l tau s D T0 nsns_radius nsns_radius RA ALE RUN DS) in C by (cbn [e_0 o nsns]; lra).
  specialize (C eq_refl). cbn [a_0 o nsns] in C. lra.
Qed.
(** Objects that overlap merge before they were born. *)
Theorem C93_overlap_refuted :
  ~ forall o max_time al st s s_read l tau, double o -> 0 <= t_0 o <= max_time -> alpha_contact o = Ok al ->
    solve_ivp (l_0 o) (- ln al) (tau_max o max_time) st s l tau -> t_0 o <= f_time (finish o max_time st s s_read l tau).
Proof.
  intros C. set (o := nsns 1 0.00001 0.5). assert (D : double o) by (apply nsns_double; lra). pose proof (scale_pos o D) as TP.
  set (al := (12.5e5 / Rsun * Rsun / 1e5 + 12.5e5 / Rsun * Rsun / 1e5) / (0.00001 * Rsun / 1e5)).
  assert (ALE : alpha_contact o = Ok al) by apply nsns_alpha.
  assert (AL : 1 < al) by (unfold al; rewrite nsns_al by lra; unfold Rsun; lra).
  assert (SC : - ln al < 0) by (assert (ln 1 < ln al) by (apply ln_increasing; lra); rewrite ln_1 in *; lra).
  destruct (solution_exists _ (l_neg o D)) as (l & tau & H & N).
  specialize (C o 1 al 0%nat (- ln al) 0 l tau D ltac:(cbn; lra) ALE). cbn [finish status_of f_time] in C.
  assert (RUN : solve_ivp (l_0 o) (- ln al) (tau_max o 1) 0 (- ln al) l tau) by (apply Ends_at_contact; [apply H|right; intros s S0; lra]).
  specialize (C RUN).
  assert (TN : tau (- ln al) < 0).
  { destruct (H (- ln al)) as (_ & T0 & DD). rewrite <- T0.
    apply (increasing_derive tau (fun x => snd (rhs x (l x))) (- ln al) 0 SC).
    - intros x X. apply is_derive_Reals. apply DD. rewrite Rmin_right, Rmax_left by lra. exact X.
    - intros x _. destruct (rhs_signs x (l x)) as [_ Z]. apply Z. apply N. }
  unfold nonneg, time_at in C. cbn [t_0 o nsns] in C. fold o in C. assert (tau (- ln al) * t_scale o < 0) by nra. destruct (Rlt_dec _ _); lra.
Qed.
(** Unbound objects merge at once. *)
Theorem C93_unbound_refuted :
  forall o max_time al, 0 < a_0 o -> 1 <= e_0 o -> 0 < mass_1 o -> 0 < mass_2 o -> 0 <= t_0 o < max_time -> alpha_contact o = Ok al -> 0 < al <= 1 ->
  exists s l tau, solve_ivp (l_0 o) (- ln al) (tau_max o max_time) 0 s l tau /\
    forall s_read, let f := finish o max_time 0 s s_read l tau in f_event f = "CO_contact"%string /\ f_time f = t_0 o.
Proof.
  intros o max_time al A E M1 M2 T AL ALB.
  assert (TP : 0 < t_scale o). { destruct consts as (G0 & C0 & MS & RS & Y0). rewrite scale_eq. pos. }
  assert (L0 : 0 <= l_0 o). { unfold l_0. destruct (Rlt_dec 0 (e_0 o)); [|lra]. rewrite <- ln_1. apply Rcomplements.ln_le; lra. }
  exists (- ln al), (fun _ => l_0 o), (fun _ => 0). split.
  - apply Ends_at_contact.
    + split; [reflexivity|]. split; [reflexivity|]. intros s _. rewrite rhs_unbound by exact L0. split; apply derivable_pt_lim_const.
    + right. intros s _. unfold tau_max. apply Rdiv_lt_0_compat; lra.
  - intros s_read. cbn. split; [reflexivity|]. unfold nonneg, time_at. rewrite Rmult_0_l, Rplus_0_l. destruct (Rlt_dec _ _); lra.
Qed.
(** A binary that is already older than the maximum merges all the same. *)
Theorem C93_late_refuted :
  ~ forall o max_time al st s s_read l tau, double o -> 0 <= t_0 o -> alpha_contact o = Ok al -> 0 < al <= 1 ->
    solve_ivp (l_0 o) (- ln al) (tau_max o max_time) st s l tau -> f_time (finish o max_time st s s_read l tau) <= max_time.
Proof.
  intros C. set (o := nsns 2 10 0.5). assert (D : double o) by (apply nsns_double; lra). pose proof (scale_pos o D) as TP.
  set (al := (12.5e5 / Rsun * Rsun / 1e5 + 12.5e5 / Rsun * Rsun / 1e5) / (10 * Rsun / 1e5)).
  assert (ALE : alpha_contact o = Ok al) by apply nsns_alpha.
  assert (AL : 0 < al <= 1) by (unfold al; rewrite nsns_al by lra; unfold Rsun; lra).
  assert (SC : 0 <= - ln al) by (assert (ln al <= ln 1) by (apply Rcomplements.ln_le; lra); rewrite ln_1 in *; lra).
  destruct (solution_exists _ (l_neg o D)) as (l & tau & H & N).
  specialize (C o 1 al 0%nat (- ln al) 0 l tau D ltac:(cbn; lra) ALE AL). cbn [finish status_of f_time] in C.
  assert (RUN : solve_ivp (l_0 o) (- ln al) (tau_max o 1) 0 (- ln al) l tau).
  { apply Ends_at_contact; [apply H|]. left. unfold tau_max. cbn [t_0 o nsns]. fold o. apply Rmult_lt_reg_r with (t_scale o); [exact TP|]. unfold Rdiv. rewrite Rmult_assoc, Rinv_l by lra. lra. }
  specialize (C RUN). pose proof (tau_range o (- ln al) l tau (- ln al) D (H _) ltac:(lra)) as TR.
  unfold nonneg, time_at in C. cbn [t_0 o nsns] in C. fold o in C. assert (0 <= tau (- ln al) * t_scale o) by (apply Rmult_le_pos; lra). destruct (Rlt_dec _ _); lra.
Qed.

(** ** Examples: two neutron stars of 1.4 Msun *)
Example C93_example : double (nsns 1e8 3 0.6) /\ exists l tau al, alpha_contact (nsns 1e8 3 0.6) = Ok al /\
  solve_ivp (l_0 (nsns 1e8 3 0.6)) (- ln al) (tau_max (nsns 1e8 3 0.6) (1e8 + t_scale (nsns 1e8 3 0.6))) 0 (- ln al) l tau /\ 0 < tau (- ln al).
Proof.
  set (o := nsns 1e8 3 0.6). assert (D : double o) by (apply nsns_double; lra). split; [exact D|].
  set (al := (12.5e5 / Rsun * Rsun / 1e5 + 12.5e5 / Rsun * Rsun / 1e5) / (3 * Rsun / 1e5)).
  assert (AL : 0 < al < 1) by (unfold al; rewrite nsns_al by lra; unfold Rsun; lra).
  destruct (contact_run o al D ltac:(lra)) as (l & tau & RUN & _). exists l, tau, al. split; [apply nsns_alpha|]. split; [exact RUN|].
  assert (SOL : solution (l_0 o) (- ln al) l tau) by (inversion RUN; assumption).
  assert (SC : 0 < - ln al) by (assert (ln al < ln 1) by (apply ln_increasing; lra); rewrite ln_1 in *; lra).
  assert (T0 : tau 0 = 0) by apply SOL. rewrite <- T0. eapply (sol_strict _ _ _ _ 0 (- ln al) SOL); try lra. now apply l_neg.
Qed.
Example C93_maxtime_example : exists s l tau al, alpha_contact (nsns 0 3 0.5) = Ok al /\
  solve_ivp (l_0 (nsns 0 3 0.5)) (- ln al) (tau_max (nsns 0 3 0.5) (0.001 * t_scale (nsns 0 3 0.5))) 1 s l tau /\ 0 < s < - ln al.
Proof.
  set (o := nsns 0 3 0.5). assert (D : double o) by (apply nsns_double; lra). pose proof (scale_pos o D) as TP. pose proof (l_neg o D) as LN.
  set (al := (12.5e5 / Rsun * Rsun / 1e5 + 12.5e5 / Rsun * Rsun / 1e5) / (3 * Rsun / 1e5)).
  assert (AL : 0 < al < 0.001) by (unfold al; rewrite nsns_al by lra; unfold Rsun; lra).
  assert (SC : 0 < - ln al) by (assert (ln al < ln 1) by (apply ln_increasing; lra); rewrite ln_1 in *; lra).
  assert (TM : tau_max o (0.001 * t_scale o) = 0.001) by (unfold tau_max; cbn [t_0 o nsns]; fold o; field; lra).
  destruct (C93_runs o (0.001 * t_scale o) (- ln al) D ltac:(lra) ltac:(cbn [t_0 o nsns]; fold o; lra)) as [(st & s & l & tau & RUN) _].
  exists s, l, tau, al. split; [apply nsns_alpha|].
  assert (LATE : forall l tau, solution (l_0 o) (- ln al) l tau -> 0.001 < tau (- ln al)).
  { intros l' tau' H. pose proof (tau_bounds _ _ _ _ (- ln al) H LN ltac:(lra)) as [B _]. apply Rlt_le_trans with (2 := B).
    assert (E0 : exp (l_0 o) = 0.5). { change (exp (l_0 o)) with (recorded_e o). rewrite recorded_is. cbn [e_0 o nsns]. destruct (Rlt_dec 0 0.5); lra. }
    rewrite E0. assert (R4 : 0.3 <= Rpower (1 - 0.5 * 0.5) (7 / 2)).
    { apply Rle_trans with (Rpower (1 - 0.5 * 0.5) 4).
      - replace 4 with (INR 4) by (cbn; lra). rewrite Rpower_pow by lra. lra.
      - unfold Rpower. assert (LL : ln (1 - 0.5 * 0.5) < 0) by (rewrite <- ln_1; apply ln_increasing; lra). left. apply exp_increasing. nra. }
    assert (GG : g_of (0.5 * 0.5) < 1.8) by (unfold g_of; lra). assert (G1 : 1 <= g_of (0.5 * 0.5)) by (apply g_pos; lra).
    assert (K : 0.1 < Rpower (1 - 0.5 * 0.5) (7 / 2) / g_of (0.5 * 0.5)).
    { apply Rmult_lt_reg_r with (g_of (0.5 * 0.5)); [lra|]. unfold Rdiv. rewrite Rmult_assoc, Rinv_l by lra. lra. }
    assert (EX : exp (- 4 * - ln al) < 0.001).
    { rewrite exp4. rewrite Ropp_involutive, exp_ln by lra. assert (al ^ 2 < 0.001) by nra. assert (0 <= al ^ 2) by nra. replace (al ^ 4) with (al ^ 2 * al ^ 2) by ring. nra. }
    apply Rlt_trans with (0.1 * ((1 - exp (- 4 * - ln al)) / 4)); [lra|]. apply Rmult_lt_compat_r; lra. }
  rewrite TM in *. inversion RUN as [l' tau' A1 A2|s' l' tau' A1 A2 A3 A4]; subst.
  - exfalso. destruct A2 as [A2|A2]; [lra|]. specialize (A2 (- ln al) ltac:(lra)). specialize (LATE _ _ A1). lra.
  - split; [now apply Ends_at_time|]. assert (T0 : tau 0 = 0) by apply A1. destruct A2 as [B1 B2]. split.
    + destruct B1 as [B1|B1]; [exact B1|]. rewrite <- B1, T0 in A3. lra.
    + destruct B2 as [B2|B2]; [exact B2|]. rewrite B2 in A1, A3. specialize (LATE _ _ A1). lra.
Qed.
Print Assumptions C93_peters.
Print Assumptions C93_duration.
Print Assumptions C93_runs.
Print Assumptions C93_dense.
Print Assumptions C93_outcome.
Print Assumptions C93_eccentric.
