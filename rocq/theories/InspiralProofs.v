(** The equations of two compact objects: lemmas for C93 and C94. *)
From Coq Require Import Reals String Bool List Lra.
From Coquelicot Require Import Coquelicot.
From Verif Require Import PyBase RealLemmas IntegralLemmas OrbitModel InspiralModel GravRadProps.
Open Scope R_scope.

(** ** The right-hand side *)
Lemma e2_lt l : l < 0 -> 0 < exp l * exp l < 1.
Proof. intros H. pose proof (exp_pos l). assert (exp l < 1) by (rewrite <- exp_0; now apply exp_increasing). nra. Qed.
Lemma rhs_bound s l : l < 0 ->
  rhs s l = (- (19 / 12) * (1 - exp l * exp l) * f_of (exp l * exp l) / g_of (exp l * exp l),
             exp (- 4 * s) * Rpower (1 - exp l * exp l) (7 / 2) / g_of (exp l * exp l)).
Proof.
  intros H. pose proof (e2_lt l H). unfold rhs. cbv zeta. destruct (Rle_dec 1 (exp l * exp l)); [lra|].
  replace 3.5 with (7 / 2) by lra. reflexivity.
Qed.
Lemma rhs_unbound s l : 0 <= l -> rhs s l = (0, 0).
Proof.
  intros H. unfold rhs. cbv zeta. destruct (Rle_dec 1 (exp l * exp l)) as [_|N]; [reflexivity|].
  exfalso. apply N. assert (1 <= exp l) by (rewrite <- exp_0; destruct H as [H| <-]; [left; now apply exp_increasing|lra]). nra.
Qed.
Lemma g_pos x : 0 <= x -> 1 <= g_of x. Proof. intros H. unfold g_of. nra. Qed.
Lemma f_pos x : 0 <= x -> 1 <= f_of x. Proof. intros H. unfold f_of. nra. Qed.
Lemma rhs_signs s l : fst (rhs s l) <= 0 <= snd (rhs s l) /\ (l < 0 -> fst (rhs s l) < 0 < snd (rhs s l)).
Proof.
  assert (A : l < 0 -> fst (rhs s l) < 0 < snd (rhs s l)).
  { intros H. rewrite rhs_bound by exact H. cbn [fst snd]. pose proof (e2_lt l H) as E. set (q := exp l * exp l) in *.
    pose proof (g_pos q ltac:(lra)). pose proof (f_pos q ltac:(lra)).
    assert (Z : 0 < (19 / 12) * (1 - q) * f_of q / g_of q) by (pos). split.
    - replace (- (19 / 12) * (1 - q) * f_of q / g_of q) with (- ((19 / 12) * (1 - q) * f_of q / g_of q)) by (field; lra). lra.
    - apply Rdiv_lt_0_compat; [apply Rmult_lt_0_compat; [apply exp_pos|apply Rpower_pos]|lra]. }
  split; [|exact A]. destruct (Rlt_dec l 0) as [H|H]; [specialize (A H); lra|]. rewrite rhs_unbound by lra. cbn. lra.
Qed.

(** ** Along a solution *)
Lemma sol_range (s1 s : R) : 0 <= s <= s1 -> Rmin 0 s1 <= s <= Rmax 0 s1.
Proof. intros H. unfold Rmin, Rmax. destruct (Rle_dec 0 s1); lra. Qed.
Lemma sol_l l0 s1 l tau s : solution l0 s1 l tau -> 0 <= s <= s1 -> is_derive l s (fst (rhs s (l s))).
Proof. intros (_ & _ & D) H. apply is_derive_Reals. apply D. now apply sol_range. Qed.
Lemma sol_tau l0 s1 l tau s : solution l0 s1 l tau -> 0 <= s <= s1 -> is_derive tau s (snd (rhs s (l s))).
Proof. intros (_ & _ & D) H. apply is_derive_Reals. apply D. now apply sol_range. Qed.
Lemma sol_decreasing l0 s1 l tau s s' : solution l0 s1 l tau -> 0 <= s -> s <= s' -> s' <= s1 -> l s' <= l s.
Proof.
  intros H A B C.
  assert (Q : - l s <= - l s').
  { apply (nondecreasing_derive (fun x => - l x) (fun x => - fst (rhs x (l x))) s s' B).
    - intros x X. apply (is_derive_opp (V := R_NormedModule)). eapply sol_l; [exact H|lra].
    - intros x X. destruct (rhs_signs x (l x)) as [[Z _] _]. lra. }
  lra.
Qed.
Lemma sol_neg l0 s1 l tau s : solution l0 s1 l tau -> l0 < 0 -> 0 <= s <= s1 -> l s <= l0.
Proof. intros H L S0. pose proof (sol_decreasing l0 s1 l tau 0 s H ltac:(lra) ltac:(lra) ltac:(lra)). destruct H as (E & _). lra. Qed.
Lemma sol_strict l0 s1 l tau s s' : solution l0 s1 l tau -> l0 < 0 -> 0 <= s -> s < s' -> s' <= s1 -> l s' < l s /\ tau s < tau s'.
Proof.
  intros H L A B C. split.
  - assert (Q : - l s < - l s').
    { apply (increasing_derive (fun x => - l x) (fun x => - fst (rhs x (l x))) s s' B).
      - intros x X. apply (is_derive_opp (V := R_NormedModule)). eapply sol_l; [exact H|lra].
      - intros x X. pose proof (sol_neg l0 s1 l tau x H L ltac:(lra)). destruct (rhs_signs x (l x)) as [_ Z]. specialize (Z ltac:(lra)). lra. }
    lra.
  - apply (increasing_derive tau (fun x => snd (rhs x (l x))) s s' B).
    + intros x X. eapply sol_tau; [exact H|lra].
    + intros x X. pose proof (sol_neg l0 s1 l tau x H L ltac:(lra)). destruct (rhs_signs x (l x)) as [_ Z]. specialize (Z ltac:(lra)). lra.
Qed.

(** ** The constant of motion: ln of separation times (1 - e^2) / ... *)
Definition lnA (l : R) : R := 12 / 19 * l - ln (1 - exp l * exp l) + 870 / 2299 * ln (1 + 121 / 304 * (exp l * exp l)).
Definition dA (l : R) : R := 12 / 19 * g_of (exp l * exp l) / ((1 - exp l * exp l) * f_of (exp l * exp l)).
Lemma lnA_alg q : 0 < 1 - q -> 0 < 1 + 121 / 304 * q ->
  12 / 19 + 2 * q / (1 - q) + 870 / 2299 * (121 / 304 * (2 * q)) / (1 + 121 / 304 * q) = 12 / 19 * g_of q / ((1 - q) * f_of q).
Proof. intros A B. unfold g_of, f_of. field. lra. Qed.
Lemma lnA_derive l : l < 0 -> is_derive lnA l (dA l).
Proof.
  intros H. pose proof (e2_lt l H) as E. unfold lnA.
  assert (Z : dA l = 12 / 19 + 2 * (exp l * exp l) / (1 - exp l * exp l) + 870 / 2299 * (121 / 304 * (2 * (exp l * exp l))) / (1 + 121 / 304 * (exp l * exp l))).
  { unfold dA. symmetry. apply lnA_alg; lra. }
  rewrite Z. auto_derive; [split; [lra|split; [nra|easy]]|]. field. split; lra.
Qed.
Lemma dA_pos l : l < 0 -> 12 / 19 <= dA l.
Proof.
  intros H. pose proof (e2_lt l H) as E. unfold dA. set (q := exp l * exp l) in *.
  rewrite <- lnA_alg by lra. assert (0 < 2 * q / (1 - q)) by pos. assert (0 < 870 / 2299 * (121 / 304 * (2 * q)) / (1 + 121 / 304 * q)) by pos. lra.
Qed.
Lemma motion l0 s1 l tau s : solution l0 s1 l tau -> l0 < 0 -> 0 <= s <= s1 -> lnA (l s) = lnA l0 - s.
Proof.
  intros H L S0.
  assert (N : forall x, 0 <= x <= s1 -> l x < 0) by (intros x X; pose proof (sol_neg l0 s1 l tau x H L X); lra).
  assert (D : forall x, 0 <= x <= s -> is_derive (fun x => lnA (l x) + x) x 0).
  { intros x X. specialize (N x ltac:(lra)).
    replace 0 with (plus (scal (fst (rhs x (l x))) (dA (l x))) one).
    - apply (is_derive_plus (V := R_NormedModule)); [|apply (is_derive_id (K := R_AbsRing))].
      apply (is_derive_comp (V := R_NormedModule) lnA l x (dA (l x)) (fst (rhs x (l x)))); [now apply lnA_derive|eapply sol_l; [exact H|lra]].
    - rewrite rhs_bound by exact N. unfold scal, plus, one, dA. cbn -[f_of g_of]. unfold mult. cbn -[f_of g_of].
      pose proof (e2_lt (l x) N) as E. set (q := exp (l x) * exp (l x)) in *. pose proof (g_pos q ltac:(lra)). pose proof (f_pos q ltac:(lra)). field. repeat split; lra. }
  destruct (Req_dec 0 s) as [<-|NE]; [destruct H as (-> & _); ring|].
  destruct (MVT_cor2 (fun x => lnA (l x) + x) (fun _ => 0) 0 s ltac:(lra)) as (c & E & _).
  { intros x X. apply is_derive_Reals. now apply D. }
  destruct H as (E0 & _). rewrite E0 in E. lra.
Qed.
Lemma lnA_increasing l l' : l < l' -> l' < 0 -> 12 / 19 * (l' - l) <= lnA l' - lnA l.
Proof.
  intros A B. destruct (MVT_cor2 lnA dA l l' A) as (c & E & C).
  - intros x X. apply is_derive_Reals. apply lnA_derive. lra.
  - rewrite E. apply Rmult_le_compat_r; [lra|]. apply dA_pos. lra.
Qed.
Lemma lnA_inj l l' : l < 0 -> l' < 0 -> lnA l = lnA l' -> l = l'.
Proof.
  intros A B E. destruct (Rtotal_order l l') as [H|[H|H]]; [|exact H|].
  - pose proof (lnA_increasing l l' H B). lra.
  - pose proof (lnA_increasing l' l H A). lra.
Qed.

(** ** Existence *)
Lemma inverse_derive (F L : R -> R) (x d r : R) : 0 < r -> d <> 0 -> derivable_pt_lim F (L x) d -> continuity_pt L x ->
  (forall y, Rabs (y - x) < r -> F (L y) = y) -> derivable_pt_lim L x (/ d).
Proof.
  intros R0 DN DF CL E eps EPS.
  set (eta := Rmin (Rabs d / 2) (eps * (Rabs d * Rabs d) / 2)).
  assert (AD : 0 < Rabs d) by now apply Rabs_pos_lt.
  assert (ETA : 0 < eta). { unfold eta. apply Rmin_pos; [lra|]. repeat apply Rmult_lt_0_compat; lra. }
  destruct (DF eta ETA) as (del & DEL). destruct (CL del (cond_pos del)) as (al & AL0 & AL). cbn in AL. unfold R_dist in AL.
  assert (M : 0 < Rmin al r) by (apply Rmin_pos; [exact AL0|lra]).
  exists (mkposreal _ M). intros h HN HB. cbn in HB. pose proof (Rmin_l al r). pose proof (Rmin_r al r).
  set (k := L (x + h) - L x).
  assert (F1 : F (L (x + h)) = x + h) by (apply E; replace (x + h - x) with h by ring; lra).
  assert (F0 : F (L x) = x) by (apply E; replace (x - x) with 0 by ring; rewrite Rabs_R0; lra).
  assert (KN : k <> 0). { intros Z. assert (Q : L (x + h) = L x) by (unfold k in Z; lra). rewrite Q in F1. lra. }
  assert (KB : Rabs k < del).
  { unfold k. apply AL. split; [unfold D_x, no_cond; split; [exact I|lra]|]. replace (x + h - x) with h by ring. lra. }
  specialize (DEL k KN KB). replace (L x + k) with (L (x + h)) in DEL by (unfold k; ring). rewrite F1, F0 in DEL.
  replace (x + h - x) with h in DEL by ring. set (Q := h / k) in *.
  pose proof (Rmin_l (Rabs d / 2) (eps * (Rabs d * Rabs d) / 2)) as E1. pose proof (Rmin_r (Rabs d / 2) (eps * (Rabs d * Rabs d) / 2)) as E2. fold eta in E1, E2.
  assert (QB : Rabs d / 2 < Rabs Q).
  { replace d with (Q - (Q - d)) in E1 |- * by ring. pose proof (Rabs_triang_inv Q (Q - d)). pose proof (Rabs_triang Q (- (Q - d))). rewrite Rabs_Ropp in H2.
    assert (Rabs (Q - (Q - d)) <= Rabs Q + Rabs (Q - d)) by (replace (Q - (Q - d)) with (Q + - (Q - d)) by ring; exact H2). 
    replace (Q - (Q - d)) with d in * by ring. lra. }
  assert (QN : Q <> 0). { intros Z. rewrite Z, Rabs_R0 in QB. lra. }
  replace (k / h - / d) with ((d - Q) / (Q * d)).
  - rewrite Rabs_div by (apply Rmult_integral_contrapositive; split; assumption). rewrite Rabs_mult, (Rabs_minus_sym d Q).
    apply Rmult_lt_reg_r with (Rabs Q * Rabs d); [apply Rmult_lt_0_compat; lra|].
    unfold Rdiv. rewrite Rmult_assoc, Rinv_l, Rmult_1_r by (apply Rgt_not_eq; apply Rmult_lt_0_compat; lra).
    apply Rlt_le_trans with eta; [exact DEL|]. apply Rle_trans with (eps * (Rabs d * Rabs d) / 2); [exact E2|].
    replace (eps * (Rabs d * Rabs d) / 2) with (eps * (Rabs d / 2 * Rabs d)) by field. apply Rmult_le_compat_l; [lra|]. apply Rmult_le_compat_r; lra.
  - unfold Q. field. repeat split; assumption.
Qed.

(** The values of l for any separation: lnA takes each value on the negative numbers. *)
Lemma lnA_lower v : lnA (- (19 / 12) * (Rabs v + 4)) < v.
Proof.
  set (l := - (19 / 12) * (Rabs v + 4)). pose proof (Rabs_pos v).
  assert (LN : l <= - (1)) by (unfold l; lra).
  pose proof (e2_lt l ltac:(lra)) as E. unfold lnA.
  assert (E1 : exp l <= / 2).
  { apply Rle_trans with (exp (- (1))); [destruct LN as [LN| ->]; [left; now apply exp_increasing|lra]|].
    rewrite exp_Ropp. apply Rinv_le_contravar; [lra|]. pose proof (exp_ineq1_le 1). lra. }
  assert (E2 : exp l * exp l <= / 4) by (pose proof (exp_pos l); nra).
  assert (A1 : - ln (1 - exp l * exp l) <= 1).
  { rewrite <- ln_Rinv by lra. apply Rle_trans with (ln (exp 1)); [|rewrite ln_exp; lra]. apply Rcomplements.ln_le; [pos|]. pose proof (exp_ineq1_le 1).
    apply Rle_trans with 2; [|lra]. replace 2 with (/ / 2) by field. apply Rinv_le_contravar; lra. }
  assert (A2 : ln (1 + 121 / 304 * (exp l * exp l)) <= 1).
  { apply Rle_trans with (ln (exp 1)); [|rewrite ln_exp; lra]. apply Rcomplements.ln_le; [lra|]. pose proof (exp_ineq1_le 1). lra. }
  assert (12 / 19 * l = - (Rabs v + 4)) by (unfold l; field). pose proof (Rle_abs (- v)) as B. rewrite Rabs_Ropp in B. lra.
Qed.
Lemma lnA_upper v : {l | l < 0 /\ v < lnA l}.
Proof.
  set (K := Rabs v + 2). pose proof (Rabs_pos v). set (ep := exp (- K)).
  assert (K2 : K >= 2) by (unfold K; lra).
  assert (EP : 0 < ep <= / 2).
  { split; [apply exp_pos|]. unfold ep. rewrite exp_Ropp. apply Rinv_le_contravar; [lra|]. pose proof (exp_ineq1_le K). lra. }
  exists (ln (1 - ep) / 2).
  assert (L0 : ln (1 - ep) < 0) by (rewrite <- ln_1; apply ln_increasing; lra).
  assert (L1 : - (1) <= ln (1 - ep)).
  { apply Rle_trans with (ln (exp (- (1)))); [rewrite ln_exp; lra|]. apply Rcomplements.ln_le; [apply exp_pos|]. rewrite exp_Ropp. apply Rle_trans with (/ 2); [|lra].
    apply Rinv_le_contravar; [lra|]. pose proof (exp_ineq1_le 1). lra. }
  split; [lra|]. unfold lnA.
  assert (E : exp (ln (1 - ep) / 2) * exp (ln (1 - ep) / 2) = 1 - ep) by (rewrite <- exp_plus; replace (ln (1 - ep) / 2 + ln (1 - ep) / 2) with (ln (1 - ep)) by field; apply exp_ln; lra).
  rewrite E. replace (1 - (1 - ep)) with ep by ring. unfold ep at 2. rewrite ln_exp.
  assert (0 < ln (1 + 121 / 304 * (1 - ep))) by (rewrite <- ln_1; apply ln_increasing; lra).
  pose proof (Rle_abs v). unfold K. lra.
Qed.
Lemma lnA_cont l : l < 0 -> continuity_pt lnA l.
Proof. intros H. apply continuity_pt_filterlim. apply (ex_derive_continuous (V := R_NormedModule)). exists (dA l). now apply lnA_derive. Qed.
Lemma lnA_onto v : {l | l < 0 /\ lnA l = v}.
Proof.
  destruct (lnA_upper v) as (b & B & VB). pose proof (lnA_lower v) as VA. set (a := - (19 / 12) * (Rabs v + 4)) in *.
  assert (AN : a < 0) by (unfold a; pose proof (Rabs_pos v); lra).
  assert (AB : a < b). { destruct (Rlt_dec a b) as [H|H]; [exact H|]. exfalso. destruct (Req_dec a b) as [E|E]; [rewrite E in VA; lra|].
    pose proof (lnA_increasing b a ltac:(lra) AN). lra. }
  destruct (IVT_Rbar_incr lnA a b (lnA a) (lnA b) v) as (l & L1 & L2 & L3).
  - apply (is_lim_continuity lnA a). now apply lnA_cont.
  - apply (is_lim_continuity lnA b). now apply lnA_cont.
  - intros x X1 X2. cbn in X1, X2. apply lnA_cont. lra.
  - exact AB.
  - split; assumption.
  - exists l. cbn in L2. split; [lra|exact L3].
Qed.
Lemma L_exists l0 : l0 < 0 -> exists L : R -> R, L 0 = l0 /\ (forall s, L s < 0 /\ lnA (L s) = lnA l0 - s) /\ (forall s s', Rabs (L s - L s') <= 19 / 12 * Rabs (s - s')).
Proof.
  intros H0. set (L := fun s => proj1_sig (lnA_onto (lnA l0 - s))).
  assert (HL : forall s, L s < 0 /\ lnA (L s) = lnA l0 - s) by (intros s; exact (proj2_sig (lnA_onto (lnA l0 - s)))).
  clearbody L. exists L. split; [|split; [exact HL|]].
  - destruct (HL 0) as [A B]. apply lnA_inj; [exact A|exact H0|lra].
  - intros s s'. destruct (HL s) as [A B]. destruct (HL s') as [A' B'].
    destruct (Rtotal_order (L s) (L s')) as [O|[O|O]].
    + pose proof (lnA_increasing _ _ O A'). rewrite (Rabs_left (L s - L s')) by lra. rewrite (Rabs_right (s - s')) by lra. lra.
    + rewrite O. replace (L s' - L s') with 0 by ring. rewrite Rabs_R0. pose proof (Rabs_pos (s - s')). lra.
    + pose proof (lnA_increasing _ _ O A). rewrite (Rabs_right (L s - L s')) by lra. rewrite (Rabs_left1 (s - s')) by lra. lra.
Qed.
Lemma lipschitz_cont (L : R -> R) k : (forall s s', Rabs (L s - L s') <= k * Rabs (s - s')) -> 0 < k -> forall s, continuity_pt L s.
Proof.
  intros H K s eps EPS. exists (eps / k). split; [apply Rdiv_lt_0_compat; lra|]. intros x [_ X]. cbn in *. unfold R_dist in *.
  apply Rle_lt_trans with (1 := H x s). apply Rmult_lt_reg_l with (/ k); [now apply Rinv_0_lt_compat|]. rewrite <- Rmult_assoc, Rinv_l, Rmult_1_l by lra.
  unfold Rdiv in X. lra.
Qed.
Definition speed (s l : R) : R := exp (- 4 * s) * Rpower (1 - exp l * exp l) (7 / 2) / g_of (exp l * exp l).
Lemma speed_cont (L : R -> R) : (forall s, continuity_pt L s) -> (forall s, L s < 0) -> forall s, continuous (fun s => speed s (L s)) s.
Proof.
  intros C N s. apply continuity_pt_filterlim. unfold speed, Rpower, g_of.
  assert (EL : continuity_pt (fun x => exp (L x)) s) by (apply (continuity_pt_comp L exp); [apply C|apply derivable_continuous_pt; apply derivable_pt_exp]).
  assert (E2 : continuity_pt (fun x => exp (L x) * exp (L x)) s) by (apply continuity_pt_mult; exact EL).
  assert (ID : continuity_pt (fun x : R => x) s) by apply derivable_continuous_pt, derivable_pt_id.
  assert (K : forall c : R, continuity_pt (fun _ => c) s) by (intros c; apply continuity_pt_const; intros ? ?; reflexivity).
  assert (EXP : forall f, continuity_pt f s -> continuity_pt (fun x => exp (f x)) s) by (intros f F; apply (continuity_pt_comp f exp); [exact F|apply derivable_continuous_pt; apply derivable_pt_exp]).
  pose proof (e2_lt (L s) (N s)) as E.
  apply continuity_pt_div.
  - apply continuity_pt_mult.
    + apply EXP. apply continuity_pt_mult; [apply K|exact ID].
    + apply EXP. apply continuity_pt_mult; [apply K|]. apply (continuity_pt_comp (fun x => 1 - exp (L x) * exp (L x)) ln).
      * apply continuity_pt_minus; [apply K|exact E2].
      * apply derivable_continuous_pt. exists (/ (1 - exp (L s) * exp (L s))). apply derivable_pt_lim_ln. lra.
  - apply continuity_pt_plus; [apply continuity_pt_plus; [apply K|]|].
    + apply continuity_pt_mult; [apply K|exact E2].
    + apply continuity_pt_mult; [apply continuity_pt_mult; [apply K|exact E2]|exact E2].
  - apply Rgt_not_eq. pose proof (g_pos (exp (L s) * exp (L s)) ltac:(lra)). unfold g_of in H. lra.
Qed.
Lemma solution_exists l0 : l0 < 0 -> exists l tau, (forall s1, solution l0 s1 l tau) /\ forall s, l s < 0.
Proof.
  intros H0. destruct (L_exists l0 H0) as (L & L0 & HL & LIP). pose proof (lipschitz_cont L (19 / 12) LIP ltac:(lra)) as LC.
  assert (SC := speed_cont L LC (fun s => proj1 (HL s))).
  exists L, (fun s => RInt (fun x => speed x (L x)) 0 s). split; [|intros s; apply HL]. intros s1. split; [exact L0|]. split; [apply (RInt_point (V := R_CompleteNormedModule))|].
  intros s _. rewrite rhs_bound by exact (proj1 (HL s)). cbn [fst snd]. split.
  - destruct (HL s) as [N E]. pose proof (e2_lt (L s) N) as E2. set (q := exp (L s) * exp (L s)) in *. pose proof (g_pos q ltac:(lra)). pose proof (f_pos q ltac:(lra)).
    pose proof (dA_pos (L s) N) as DP.
    replace (- (19 / 12) * (1 - q) * f_of q / g_of q) with (/ - dA (L s)).
    + apply (inverse_derive (fun l => lnA l0 - lnA l) L s (- dA (L s)) 1); [lra|lra| |apply LC|].
      * replace (- dA (L s)) with (0 - dA (L s)) by ring. apply (derivable_pt_lim_minus (fun _ => lnA l0) lnA); [apply derivable_pt_lim_const|].
        apply is_derive_Reals. now apply lnA_derive.
      * intros y _. destruct (HL y) as [_ ->]. ring.
    + unfold dA. fold q. field. repeat split; lra.
  - apply is_derive_Reals. change (is_derive (fun s => RInt (fun x => speed x (L x)) 0 s) s (speed s (L s))).
    apply (is_derive_RInt (V := R_NormedModule) (fun x => speed x (L x)) (fun s => RInt (fun x => speed x (L x)) 0 s) 0); [|apply SC].
    exists (mkposreal 1 Rlt_0_1). intros y _. apply (RInt_correct (V := R_CompleteNormedModule)). apply (ex_RInt_continuous (V := R_CompleteNormedModule)). intros z _. apply SC.
Qed.
(** Uniqueness *)
Lemma solution_unique l0 s1 l tau l' tau' : l0 < 0 -> solution l0 s1 l tau -> solution l0 s1 l' tau' ->
  forall s, 0 <= s <= s1 -> l s = l' s /\ tau s = tau' s.
Proof.
  intros N H H'.
  assert (EL : forall s, 0 <= s <= s1 -> l s = l' s).
  { intros s S0. pose proof (sol_neg _ _ _ _ s H N S0). pose proof (sol_neg _ _ _ _ s H' N S0). apply lnA_inj; [lra|lra|].
    now rewrite (motion _ _ _ _ s H N S0), (motion _ _ _ _ s H' N S0). }
  intros s S0. split; [now apply EL|].
  assert (D : forall x, 0 <= x <= s -> is_derive (fun x => tau x - tau' x) x 0).
  { intros x X. pose proof (sol_tau _ _ _ _ x H ltac:(lra)) as A. pose proof (sol_tau _ _ _ _ x H' ltac:(lra)) as B. rewrite <- EL in B by lra.
    replace 0 with (minus (snd (rhs x (l x))) (snd (rhs x (l x)))) by (apply (minus_eq_zero (G := R_AbelianGroup))).
    now apply (is_derive_minus (V := R_NormedModule)). }
  destruct H as (_ & T0 & _). destruct H' as (_ & T0' & _).
  destruct (Req_dec 0 s) as [<-|NE]; [congruence|].
  destruct (MVT_cor2 (fun x => tau x - tau' x) (fun _ => 0) 0 s ltac:(lra)) as (c & E & _).
  { intros x X. apply is_derive_Reals. now apply D. }
  rewrite T0, T0' in E. lra.
Qed.

(** ** Bounds on the time *)
Lemma g_le x y : 0 <= x <= y -> g_of x <= g_of y.
Proof. intros H. unfold g_of. nra. Qed.
Lemma Rpower_le_l x y z : 0 < z -> 0 < x -> x <= y -> Rpower x z <= Rpower y z.
Proof. intros. apply Rle_Rpower_l; lra. Qed.
Lemma ratio_le q q' : 0 <= q <= q' -> q' < 1 -> Rpower (1 - q') (7 / 2) / g_of q' <= Rpower (1 - q) (7 / 2) / g_of q.
Proof.
  intros A B. pose proof (g_pos q ltac:(lra)). pose proof (g_pos q' ltac:(lra)). pose proof (g_le q q' A).
  apply Rmult_le_compat; [left; apply Rpower_pos|left; apply Rinv_0_lt_compat; lra|apply Rpower_le_l; lra|apply Rinv_le_contravar; lra].
Qed.
Lemma ratio_le_1 q : 0 <= q < 1 -> Rpower (1 - q) (7 / 2) / g_of q <= 1.
Proof.
  intros A. apply Rle_trans with (Rpower (1 - 0) (7 / 2) / g_of 0); [apply ratio_le; lra|].
  rewrite Rminus_0_r. unfold Rpower. rewrite ln_1, Rmult_0_r, exp_0. unfold g_of. lra.
Qed.
Lemma e2_le l l' : l <= l' -> exp l * exp l <= exp l' * exp l'.
Proof. intros H. pose proof (exp_pos l). assert (exp l <= exp l') by (destruct H as [H| ->]; [left; now apply exp_increasing|lra]). nra. Qed.
Lemma tau_diff l0 s1 l tau (h dh : R -> R) s : solution l0 s1 l tau -> 0 <= s <= s1 -> (forall x, is_derive h x (dh x)) -> h 0 = 0 ->
  ((forall x, 0 <= x <= s -> dh x <= snd (rhs x (l x))) -> h s <= tau s) /\ ((forall x, 0 <= x <= s -> snd (rhs x (l x)) <= dh x) -> tau s <= h s).
Proof.
  intros H S0 DH H0. assert (T0 : tau 0 = 0) by apply H. split; intros B.
  - assert (Q : tau 0 - h 0 <= tau s - h s); [|lra].
    apply (nondecreasing_derive (fun x => tau x - h x) (fun x => snd (rhs x (l x)) - dh x) 0 s); [lra| |].
    + intros x X. apply (is_derive_minus (V := R_NormedModule)); [eapply sol_tau; [exact H|lra]|apply DH].
    + intros x X. specialize (B x ltac:(lra)). lra.
  - assert (Q : h 0 - tau 0 <= h s - tau s); [|lra].
    apply (nondecreasing_derive (fun x => h x - tau x) (fun x => dh x - snd (rhs x (l x))) 0 s); [lra| |].
    + intros x X. apply (is_derive_minus (V := R_NormedModule)); [apply DH|eapply sol_tau; [exact H|lra]].
    + intros x X. specialize (B x ltac:(lra)). lra.
Qed.
Lemma tau_bounds l0 s1 l tau s : solution l0 s1 l tau -> l0 < 0 -> 0 <= s <= s1 ->
  Rpower (1 - exp l0 * exp l0) (7 / 2) / g_of (exp l0 * exp l0) * ((1 - exp (- 4 * s)) / 4) <= tau s <= (1 - exp (- 4 * s)) / 4.
Proof.
  intros H L0 S0. set (k := Rpower (1 - exp l0 * exp l0) (7 / 2) / g_of (exp l0 * exp l0)).
  assert (DH : forall c x, is_derive (fun x => c * ((1 - exp (- 4 * x)) / 4)) x (c * exp (- 4 * x))).
  { intros c x. auto_derive; [exact I|]. field. }
  assert (Z0 : forall c, c * ((1 - exp (- 4 * 0)) / 4) = 0) by (intros c; rewrite Rmult_0_r, exp_0; lra).
  split.
  - apply (tau_diff l0 s1 l tau (fun x => k * ((1 - exp (- 4 * x)) / 4)) (fun x => k * exp (- 4 * x)) s H S0 (DH k) (Z0 k)).
    intros x X. pose proof (sol_neg _ _ _ _ x H L0 ltac:(lra)) as LX. rewrite rhs_bound by lra. cbn [snd].
    pose proof (exp_pos (- 4 * x)). pose proof (e2_le _ _ LX). pose proof (e2_lt _ L0). pose proof (exp_pos (l x)).
    pose proof (ratio_le (exp (l x) * exp (l x)) (exp l0 * exp l0) ltac:(nra) ltac:(lra)) as B. fold k in B.
    unfold Rdiv in *. rewrite Rmult_assoc, (Rmult_comm k). apply Rmult_le_compat_l; lra.
  - replace ((1 - exp (- 4 * s)) / 4) with (1 * ((1 - exp (- 4 * s)) / 4)) by ring.
    apply (tau_diff l0 s1 l tau (fun x => 1 * ((1 - exp (- 4 * x)) / 4)) (fun x => 1 * exp (- 4 * x)) s H S0 (DH 1) (Z0 1)).
    intros x X. pose proof (sol_neg _ _ _ _ x H L0 ltac:(lra)) as LX. rewrite rhs_bound by lra. cbn [snd].
    pose proof (exp_pos (- 4 * x)). pose proof (e2_lt (l x) ltac:(lra)).
    pose proof (ratio_le_1 (exp (l x) * exp (l x)) ltac:(lra)) as B. 
    unfold Rdiv in *. rewrite Rmult_assoc, (Rmult_comm 1). apply Rmult_le_compat_l; lra.
Qed.
(** The semi-latus rectum does not grow, so an eccentric binary merges at once. *)
Lemma latus l0 s1 l tau s : solution l0 s1 l tau -> l0 < 0 -> 0 <= s <= s1 -> 1 - exp (l s) * exp (l s) <= (1 - exp l0 * exp l0) * exp s.
Proof.
  intros H L0 S0. pose proof (motion _ _ _ _ s H L0 S0) as M. pose proof (sol_neg _ _ _ _ s H L0 S0) as LS.
  pose proof (e2_lt _ L0) as Q0. pose proof (e2_lt (l s) ltac:(lra)) as Q. pose proof (e2_le _ _ LS) as QL.
  rewrite <- (exp_ln (1 - exp (l s) * exp (l s))) by lra. rewrite <- (exp_ln (1 - exp l0 * exp l0)) by lra. rewrite <- (exp_plus _ s).
  unfold lnA in M. assert (LF : ln (1 + 121 / 304 * (exp (l s) * exp (l s))) <= ln (1 + 121 / 304 * (exp l0 * exp l0))) by (apply Rcomplements.ln_le; lra).
  assert (B : ln (1 - exp (l s) * exp (l s)) <= ln (1 - exp l0 * exp l0) + s) by lra.
  destruct B as [B|B]; [left; now apply exp_increasing|right; now f_equal].
Qed.
Lemma tau_eccentric l0 s1 l tau s : solution l0 s1 l tau -> l0 < 0 -> 0 <= s <= s1 -> tau s <= 2 * Rpower (1 - exp l0 * exp l0) (7 / 2).
Proof.
  intros H L0 S0. set (k := Rpower (1 - exp l0 * exp l0) (7 / 2)).
  assert (DH : forall x, is_derive (fun x => 2 * k * (1 - exp (- x / 2))) x (k * exp (- x / 2))).
  { intros x. auto_derive; [exact I|]. unfold Rdiv. field. }
  apply Rle_trans with (2 * k * (1 - exp (- s / 2))).
  - apply (tau_diff l0 s1 l tau (fun x => 2 * k * (1 - exp (- x / 2))) (fun x => k * exp (- x / 2)) s H S0 DH).
    { replace (- 0 / 2) with 0 by field. rewrite exp_0. ring. }
    intros x X. pose proof (sol_neg _ _ _ _ x H L0 ltac:(lra)) as LX. rewrite rhs_bound by lra. cbn [snd].
    pose proof (e2_lt (l x) ltac:(lra)) as Q. pose proof (g_pos (exp (l x) * exp (l x)) ltac:(lra)) as G.
    pose proof (latus _ _ _ _ x H L0 ltac:(lra)) as LA. pose proof (e2_lt _ L0) as Q0.
    assert (P : Rpower (1 - exp (l x) * exp (l x)) (7 / 2) <= k * exp (7 / 2 * x)).
    { apply Rle_trans with (Rpower ((1 - exp l0 * exp l0) * exp x) (7 / 2)); [apply Rpower_le_l; lra|].
      rewrite <- Rpower_mult_distr by (try apply exp_pos; lra). fold k. right. f_equal. unfold Rpower. now rewrite ln_exp. }
    apply Rle_trans with (exp (- 4 * x) * Rpower (1 - exp (l x) * exp (l x)) (7 / 2)).
    + unfold Rdiv. rewrite <- (Rmult_1_r (exp (- 4 * x) * _)) at 2. apply Rmult_le_compat_l.
      * left. apply Rmult_lt_0_compat; [apply exp_pos|apply Rpower_pos].
      * rewrite <- Rinv_1. apply Rinv_le_contravar; lra.
    + apply Rle_trans with (exp (- 4 * x) * (k * exp (7 / 2 * x))); [apply Rmult_le_compat_l; [left; apply exp_pos|exact P]|].
      right. replace (- x / 2) with (- 4 * x + 7 / 2 * x) by field. rewrite exp_plus. ring.
  - pose proof (Rpower_pos (1 - exp l0 * exp l0) (7 / 2)) as K. fold k in K. pose proof (exp_pos (- s / 2)). nra.
Qed.
