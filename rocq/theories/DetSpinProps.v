(** Theorems about the spins at the match to single stars. *)
From Coq Require Import Reals String Bool List Lra.
From Verif Require Import PyBase RealLemmas OrbitModel OrbitProofs InspiralModel DetStepModel.
Import ListNotations.
Open Scope R_scope.

(** ** Helper lemmas *)
Lemma log10_pow10 x : log10 (pow10 x) = x.
Proof. unfold log10, pow10. rewrite ln_Rpower. field. assert (0 < ln 10) by (rewrite <- ln_1; apply ln_increasing; lra). lra. Qed.
Lemma pow10_log10 x : 0 < x -> pow10 (log10 x) = x.
Proof. intro X. unfold log10, pow10, Rpower. replace (ln x / ln 10 * ln 10) with (ln x) by (field; assert (0 < ln 10) by (rewrite <- ln_1; apply ln_increasing; lra); lra). apply exp_ln. exact X. Qed.
Lemma year : 0 < secyer.
Proof. unfold secyer. lra. Qed.

(** ** C102 *)
(** Where the angular momentum and the moment of inertia are known, the star turns as a rigid body with them, in radians per year. *)
Theorem C102_rigid : forall s lj i, lg_J s = Some lj -> moi s = Some i -> 0 < i -> calc_omega s / secyer * i = pow10 lj.
Proof. intros s lj i J I P. unfold calc_omega. rewrite J, I. assert (Y := year). set (y := secyer) in *. clearbody y. field. split; lra. Qed.
(** Otherwise the rate of the surface, then its ratio to the critical one with the star's radius, or with that of the track, and then none. *)
Theorem C102_fallback : forall s, lg_J s = None \/ moi s = None ->
  (forall w, omega_s s = Some w -> calc_omega s = w * secyer) /\
  (forall f lr, omega_s s = None -> omega_crit s = Some f -> rot_log_R s = Some lr -> 0 < rot_mass s ->
     exists wc, 0 < wc /\ calc_omega s / secyer = f * wc /\ wc ^ 2 * (pow10 lr * 6.9598e10) ^ 3 = 6.67428e-8 * (rot_mass s * 1.9892e33)) /\
  (forall f, omega_s s = None -> omega_crit s = Some f -> rot_log_R s = None -> 0 < track_mass s -> 0 < track_R s ->
     exists wc, 0 < wc /\ calc_omega s / secyer = f * wc /\ wc ^ 2 * (track_R s * 6.9598e10) ^ 3 = 6.67428e-8 * (track_mass s * 1.9892e33)) /\
  (omega_s s = None -> omega_crit s = None -> calc_omega s = 0).
Proof.
  intros s D.
  assert (E : calc_omega s = match omega_s s with Some w => w * secyer | None => match omega_crit s with
      | Some f => match rot_log_R s with Some lr => f * critical (rot_mass s) (pow10 lr) | None => f * critical (track_mass s) (track_R s) end | None => 0 end end).
  { unfold calc_omega. destruct (lg_J s), (moi s); destruct D; try discriminate; reflexivity. }
  assert (K : forall m r, 0 < m -> 0 < r -> exists wc, 0 < wc /\ critical m r / secyer = wc /\ wc ^ 2 * (r * 6.9598e10) ^ 3 = 6.67428e-8 * (m * 1.9892e33)).
  { intros m r M R. unfold critical. change 6.9598e10 with Rsun. change 6.67428e-8 with standard_cgrav. change 1.9892e33 with Msun.
    destruct constants_pos as (_ & CG & CM & CR & _). assert (Y := year). set (G := standard_cgrav) in *. set (Ms := Msun) in *. set (Rs := Rsun) in *. set (y := secyer) in *. clearbody G Ms Rs y.
    assert (P3 : 0 < (r * Rs) ^ 3) by (apply pow_lt, Rmult_lt_0_compat; assumption).
    assert (Q : 0 < G * m * Ms / (r * Rs) ^ 3) by (apply Rdiv_lt_0_compat; [repeat apply Rmult_lt_0_compat; assumption|exact P3]).
    exists (sqrt (G * m * Ms / (r * Rs) ^ 3)). split; [apply sqrt_lt_R0; exact Q|]. split; [field; lra|].
    rewrite pow2_sqrt by lra. field. lra. }
  rewrite E. repeat split.
  - intros w ->. reflexivity.
  - intros f lr -> -> -> M. destruct (K (rot_mass s) (pow10 lr) M (Rpower_pos _ _)) as (wc & P & Q & L). exists wc. split; [exact P|]. split; [|exact L]. rewrite <- Q. unfold Rdiv. ring.
  - intros f -> -> -> M R. destruct (K (track_mass s) (track_R s) M R) as (wc & P & Q & L). exists wc. split; [exact P|]. split; [|exact L]. rewrite <- Q. unfold Rdiv. ring.
  - intros -> ->. reflexivity.
Qed.
(** A rotating star keeps its angular momentum in the record of the match, and its critical rate; only the surface rate becomes the rigid one. *)
Theorem C102_kept : forall s lj i w f I', lg_J s = Some lj -> moi s = Some i -> 0 < i -> omega_s s = Some w -> 0 < w -> omega_crit s = Some f -> 0 < f ->
  let s' := star_after_match I' s in
  lg_J s' = Some lj /\ (exists w' f', omega_s s' = Some w' /\ omega_crit s' = Some f' /\ w' * i = pow10 lj /\ 0 < w' /\ w' / f' = w / f) /\ moi s' = Some I'.
Proof.
  intros s lj i w f I' J I P W WP F FP s'. unfold s', star_after_match, rotation_after_match. rewrite I, W, F. assert (Y := year).
  assert (R := C102_rigid s lj i J I P). assert (W' : 0 < calc_omega s / secyer).
  { unfold calc_omega. rewrite J, I. apply Rdiv_lt_0_compat; [apply Rmult_lt_0_compat; [apply Rdiv_lt_0_compat; [apply Rpower_pos|exact P]|exact Y]|exact Y]. }
  set (w' := calc_omega s / secyer) in *. clearbody w'. destruct (Rlt_dec 0 w) as [_|N]; [|lra]. cbn [lg_J moi omega_s omega_crit option_map].
  split; [rewrite R, log10_pow10; reflexivity|]. split; [|reflexivity].
  eexists. eexists. split; [reflexivity|]. split; [reflexivity|]. split; [exact R|]. split; [exact W'|]. field. lra.
Qed.
(** But the integration starts with the rate and the moment of inertia of the track: the angular momentum of the star is multiplied by the ratio of
    the moments of inertia, and the record of the match contradicts itself. *)
Theorem C102_conservation_refuted : forall s lj i w f I', lg_J s = Some lj -> moi s = Some i -> 0 < i -> omega_s s = Some w -> 0 < w -> omega_crit s = Some f -> 0 < f ->
  0 < I' -> I' <> i ->
  let s' := star_after_match I' s in
  (calc_omega s / secyer) * I' = pow10 lj * (I' / i) /\
  forall lj' w', lg_J s' = Some lj' -> omega_s s' = Some w' -> pow10 lj' <> w' * I'.
Proof.
  intros s lj i w f I' J I P W WP F FP PI N s'. assert (R := C102_rigid s lj i J I P). split.
  - rewrite <- R. assert (Y := year). set (y := secyer) in *. clearbody y. field. split; lra.
  - intros lj' w' J' W'. destruct (C102_kept s lj i w f I' J I P W WP F FP) as (A & (v & g & B & _ & C & D & _) & _). fold s' in A, B. assert (lj' = lj) by congruence. assert (w' = v) by congruence. subst.
    rewrite <- C. intro Q. apply N. apply Rmult_eq_reg_l with v; [symmetry; exact Q|lra].
Qed.
(** A star whose surface rate is unknown or zero is recorded with no rotation, and 1 g cm^2/s of angular momentum; it still enters the integration
    with the rate from its angular momentum, if that is known. *)
Theorem C102_unknown : forall s I', (omega_s s = None \/ exists w, omega_s s = Some w /\ w <= 0) ->
  let s' := star_after_match I' s in omega_s s' = Some 0 /\ omega_crit s' = Some 0 /\ exists lj, lg_J s' = Some lj /\ pow10 lj = 1.
Proof.
  intros s I' H s'. unfold s', star_after_match, rotation_after_match.
  assert (Z : pow10 0 = 1) by (unfold pow10; rewrite Rpower_O; [reflexivity|lra]).
  destruct H as [-> |(w & -> & W)]; [|destruct (Rlt_dec 0 w); [lra|]]; cbn; (repeat split; try reflexivity; exists 0; split; [reflexivity|exact Z]).
Qed.
Definition spun : rotation := Rot (Some 51) (Some 1e56) None None (Some 1) 10 8 10.
Theorem C102_unknown_refuted : exists s I', omega_s (star_after_match I' s) = Some 0 /\ 0 < calc_omega s.
Proof.
  exists spun, 1e56. split; [apply C102_unknown; left; reflexivity|]. unfold calc_omega, spun. cbn [lg_J moi].
  apply Rmult_lt_0_compat; [apply Rdiv_lt_0_compat; [apply Rpower_pos|lra]|apply year].
Qed.
Example C102_case : exists s lj i w f, lg_J s = Some lj /\ moi s = Some i /\ 0 < i /\ omega_s s = Some w /\ 0 < w /\ omega_crit s = Some f /\ 0 < f.
Proof. exists (Rot (Some 51) (Some 1e56) (Some 1e-5) (Some 0.1) (Some 1) 10 8 10), 51, 1e56, 1e-5, 0.1. repeat split; lra. Qed.
Print Assumptions C102_rigid.
Print Assumptions C102_fallback.
Print Assumptions C102_kept.
Print Assumptions C102_conservation_refuted.
Print Assumptions C102_unknown.
Print Assumptions C102_unknown_refuted.
