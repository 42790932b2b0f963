(** Power-law mass ratios, periods and separations: the rest of property C39. *)
From Coq Require Import String List Bool Reals Lra.
From Coquelicot Require Import Coquelicot.
From Verif Require Import PyBase OrbitModel RealLemmas IntegralLemmas DistModel ImfProps DistSpec DistProofs DistProps.
Open Scope R_scope.

(** ** Power-law mass ratios *)
Lemma power_quad alpha lo hi : 0 <= lo -> lo < hi -> (alpha <= -1 -> 0 < lo) ->
  0 < quad (fun q => Rpower q alpha) lo hi /\
  is_RInt_gen (fun q => Rpower q alpha) (at_right lo) (at_left hi) (quad (fun q => Rpower q alpha) lo hi).
Proof.
  intros L LH AL. destruct (Req_dec lo 0) as [-> |N].
  - assert (A : -1 < alpha) by (destruct (Rlt_le_dec (-1) alpha) as [H|H]; [easy|specialize (AL H); lra]).
    assert (G : is_RInt_gen (fun q => Rpower q alpha) (at_right 0) (at_left hi) (Rpower hi (alpha + 1) / (alpha + 1) - 0)).
    { apply (gen_antiderivative _ (fun q => Rpower q (alpha + 1) / (alpha + 1))); [easy| | | |].
      - intros x X. apply is_derive_power_up; lra.
      - intros x X. apply continuous_power. lra.
      - replace 0 with (0 * / (alpha + 1)) at 2 by ring.
        apply (filterlim_comp _ _ _ (fun t => Rpower t (alpha + 1)) (fun y => y * / (alpha + 1)) _ (locally 0)).
        + apply power_to_zero. lra.
        + apply (ex_derive_continuous (K := R_AbsRing) (V := R_NormedModule) (fun y => y * / (alpha + 1))). auto_derive. easy.
      - apply (limit_left (fun q => Rpower q (alpha + 1) / (alpha + 1))).
        apply (ex_derive_continuous (K := R_AbsRing) (V := R_NormedModule)). eexists. apply is_derive_power_up; lra. }
    unfold quad. rewrite (gen_unique _ _ _ _ G). split; [|easy].
    rewrite Rminus_0_r. apply Rdiv_lt_0_compat; [apply Rpower_pos|lra].
  - apply (quad_positive _ (fun q => Rpower q alpha)); [easy|easy| |].
    + intros x X. apply continuous_power. lra.
    + intros x X. apply Rpower_pos.
Qed.
Theorem C39_power_law_mass_ratio :
  forall alpha lo hi,
  (0 <= lo /\ lo < hi /\ hi <= 1 /\ (alpha <= -1 -> 0 < lo) -> exists f, PowerLawMassRatio alpha lo hi = Ok f /\
     density f lo hi /\ follows f (fun q => Rpower q alpha) lo hi) /\
  (~ (0 <= lo /\ lo < hi /\ hi <= 1 /\ (alpha <= -1 -> 0 < lo)) -> PowerLawMassRatio alpha lo hi = Raise ValueError).
Proof.
  intros alpha lo hi. split.
  - intros (A & B & C & D). unfold PowerLawMassRatio.
    rewrite (rleb_true 0 lo), (rltb_true lo 1), (rltb_true 0 hi), (rleb_true hi 1), (rleb_false hi lo) by lra. cbn [andb negb].
    assert (E : rleb alpha (-1) && reqb lo 0 = false).
    { destruct (Rle_lt_dec alpha (-1)) as [H|H]; [|now rewrite rleb_false]. specialize (D H).
      rewrite (reqb_false lo 0) by lra. apply andb_false_r. }
    rewrite E. cbv zeta. destruct (power_quad alpha lo hi A B D) as [P G].
    set (I := quad _ lo hi) in *. rewrite (reqb_false I 0) by lra.
    set (f := fun q => if rltb lo q && rleb q hi then Rpower q alpha * (1 / I) else 0). exists f. split; [reflexivity|].
    assert (K : 0 < 1 / I) by (apply Rdiv_lt_0_compat; lra).
    assert (IN : forall x, lo < x < hi -> f x = Rpower x alpha * (1 / I)).
    { intros x X. unfold f. now rewrite rltb_true, rleb_true by lra. }
    split.
    + apply (is_density f (fun q => Rpower q alpha) lo hi (1 / I) I); try easy; try lra.
      * intros x. unfold f. destruct (rltb lo x && rleb x hi); [|lra]. apply Rmult_le_pos; [|lra]. apply Rlt_le, Rpower_pos.
      * intros x [X|X]; unfold f; [now rewrite rltb_false by lra|]. now rewrite (rleb_false x hi), andb_false_r by easy.
    + apply (is_follows f _ lo hi (1 / I)); [easy|]. intros. apply Rpower_pos.
  - intros N. unfold PowerLawMassRatio. bounds_checks lo hi; try reflexivity.
    destruct (Rle_lt_dec alpha (-1)) as [H|H]; [rewrite (rleb_true alpha) by easy|rewrite (rleb_false alpha) by easy].
    + destruct (Req_dec lo 0) as [E|E]; [now rewrite (reqb_true lo 0)|]. exfalso. apply N. lra.
    + exfalso. apply N. repeat split; lra.
Qed.
Print Assumptions C39_power_law_mass_ratio.

(** ** Periods: densities in the decimal logarithm of the period *)
Theorem C39_power_law_period :
  forall slope lo hi,
  (0 < lo /\ lo < hi -> exists f, PowerLawPeriod slope lo hi = Ok f /\ (forall p, p < lo \/ hi < p -> f p = 0) /\
     density (fun x => f (pow10 x)) (log10 lo) (log10 hi) /\
     follows (fun x => f (pow10 x)) (fun x => Rpower 10 (slope * x)) (log10 lo) (log10 hi)) /\
  (~ (0 < lo /\ lo < hi) -> PowerLawPeriod slope lo hi = Raise ValueError).
Proof.
  intros slope lo hi. split.
  - intros [A B]. unfold PowerLawPeriod. rewrite (rleb_false lo 0), (rleb_false hi lo) by lra. cbv zeta.
    pose proof (log10_lt lo hi A B) as L.
    set (g := fun x => Rpower 10 (slope * x)).
    assert (SH : forall x, power_law_period slope lo hi x = if rleb (log10 lo) x && rleb x (log10 hi) then g x else 0).
    { intros x. unfold power_law_period. cbv zeta. rewrite rleb_log_l, rleb_log_r by lra.
      unfold g, pow10. now rewrite Rpower_mult, (Rmult_comm x). }
    destruct (quad_positive (power_law_period slope lo hi) g (log10 lo) (log10 hi) L) as [P G].
    + intros x X. rewrite SH. now rewrite !rleb_true by lra.
    + intros x X. apply (ex_derive_continuous (K := R_AbsRing) (V := R_NormedModule)). unfold g, Rpower. auto_derive. easy.
    + intros x X. apply Rpower_pos.
    + set (I := quad _ _ _) in *. rewrite (reqb_false I 0) by lra.
      set (f := fun p => if rltb 0 p && rleb lo p && rleb p hi then power_law_period slope lo hi (log10 p) * (1 / I) else 0).
      exists f. split; [reflexivity|].
      assert (K : 0 < 1 / I) by (apply Rdiv_lt_0_compat; lra).
      assert (V : forall x, f (pow10 x) = if rleb (log10 lo) x && rleb x (log10 hi) then g x * (1 / I) else 0).
      { intros x. unfold f. rewrite (rltb_true 0 _) by apply pow10_pos. cbn [andb]. rewrite rleb_log_l, rleb_log_r by lra.
        rewrite log10_pow10, SH. destruct (rleb (log10 lo) x && rleb x (log10 hi)); reflexivity. }
      split; [|split].
      * intros p [X|X]; unfold f; [now rewrite (rleb_false lo p), andb_false_r by easy|].
        now rewrite (rleb_false p hi), andb_false_r by easy.
      * apply (is_density _ (power_law_period slope lo hi) _ _ (1 / I) I); try easy; try lra.
        -- intros x X. rewrite V, SH. now rewrite !rleb_true by lra.
        -- intros x. rewrite V. destruct (rleb (log10 lo) x && rleb x (log10 hi)); [|lra].
           apply Rmult_le_pos; [|lra]. apply Rlt_le, Rpower_pos.
        -- intros x [X|X]; rewrite V; [now rewrite rleb_false by easy|]. now rewrite (rleb_false x (log10 hi)), andb_false_r by easy.
      * apply (is_follows _ g _ _ (1 / I)); [|intros; apply Rpower_pos]. intros x X. rewrite V. now rewrite !rleb_true by lra.
  - intros N. unfold PowerLawPeriod. destruct (Rle_lt_dec lo 0) as [H|H]; [now rewrite (rleb_true lo 0)|].
    rewrite (rleb_false lo 0) by easy. destruct (Rle_lt_dec hi lo) as [H'|H']; [now rewrite (rleb_true hi lo)|]. exfalso. apply N. easy.
Qed.
Print Assumptions C39_power_law_period.

(** ** Separations *)
(** The samples of LogUniform follow the log-uniform density. *)
Lemma log_uniform_samples lo hi : 0 < lo -> lo < hi ->
  samples (log_uniform_rvs lo hi) (fun x => 1 / (ln (hi / lo) * x)) lo hi.
Proof.
  intros A B. pose proof ln10_pos as L10.
  assert (LN : 0 < ln (hi / lo)).
  { rewrite <- ln_1. apply ln_increasing; [lra|]. apply (Rmult_lt_reg_r lo); [easy|]. field_simplify; lra. }
  assert (HD : ln (hi / lo) = ln hi - ln lo) by (apply ln_div; lra).
  apply (is_samples (fun x => 0 < x) _ _ (fun x => (ln x - ln lo) / ln (hi / lo))).
  - intros x y X Y XY. apply Rmult_lt_compat_r; [now apply Rinv_0_lt_compat|]. pose proof (ln_increasing x y X XY). lra.
  - easy.
  - lra.
  - intros u U. apply pow10_pos.
  - field. lra.
  - rewrite HD. field. lra.
  - intros u U. unfold log_uniform_rvs, uniform_rvs, pow10, Rpower. rewrite ln_exp, HD. unfold log10. field. lra.
  - intros y Y. apply (integral_from_derivative _ (fun x => 1 / (ln (hi / lo) * x)) (fun x => (ln x - ln lo) / ln (hi / lo))).
    + lra.
    + reflexivity.
    + intros x X. auto_derive; [lra|]. field. lra.
    + intros x X. apply (ex_derive_continuous (K := R_AbsRing) (V := R_NormedModule)). auto_derive. apply Rgt_not_eq, Rmult_lt_0_compat; lra.
    + field. lra.
Qed.
(** LogUniform.pdf is that density times ln 10 = 2.302..: it integrates to ln 10. *)
Theorem C39_log_uniform :
  forall lo hi,
  (0 < lo /\ lo < hi -> exists f, LogUniform lo hi = Ok f /\
     density (fun x => f x / ln 10) lo hi /\ follows f (fun x => 1 / x) lo hi /\
     samples (log_uniform_rvs lo hi) (fun x => f x / ln 10) lo hi) /\
  (~ (0 < lo /\ lo < hi) -> LogUniform lo hi = Raise ValueError).
Proof.
  intros lo hi. split.
  - intros [A B]. pose proof ln10_pos as L10. unfold LogUniform. rewrite (rleb_false lo 0), (rleb_false hi lo) by lra. cbv zeta.
    pose proof (log10_lt lo hi A B) as L.
    assert (LN : 0 < ln (hi / lo)).
    { rewrite <- ln_1. apply ln_increasing; [lra|]. apply (Rmult_lt_reg_r lo); [easy|]. field_simplify; lra. }
    assert (HD : ln (hi / lo) = ln hi - ln lo) by (apply ln_div; lra).
    set (f := fun x => if rltb 0 x && rleb lo x && rleb x hi then 1 / (log10 hi - log10 lo) / x else 0). exists f. split; [reflexivity|].
    assert (IN : forall x, lo <= x <= hi -> f x / ln 10 = 1 / (ln (hi / lo) * x)).
    { intros x X. unfold f. rewrite rltb_true, !rleb_true by lra. cbn [andb]. unfold log10. rewrite HD. field. lra. }
    assert (SAM := log_uniform_samples lo hi A B).
    split; [|split].
    + split; [easy|]. split; [|split].
      * intros x. destruct (Rle_lt_dec lo x) as [X|X]; [destruct (Rle_lt_dec x hi) as [Y|Y]|].
        -- rewrite IN by easy. apply Rlt_le, Rdiv_lt_0_compat; [lra|]. apply Rmult_lt_0_compat; lra.
        -- unfold f. rewrite (rleb_false x hi), andb_false_r by easy. lra.
        -- unfold f. rewrite (rleb_false lo x), andb_false_r by easy. cbn [andb]. lra.
      * intros x [X|X]; unfold f; [rewrite (rleb_false lo x), andb_false_r by easy; cbn [andb]; lra|].
        rewrite (rleb_false x hi), andb_false_r by easy. lra.
      * apply (gen_ext (fun x => 1 / (ln (hi / lo) * x))); [easy| |].
        -- intros x X. symmetry. apply IN. lra.
        -- destruct SAM as (_ & S1 & S2 & _). destruct (S2 1 ltac:(lra)) as [_ S3]. rewrite S1 in S3.
           pose proof (gen_continuous (fun x => 1 / (ln (hi / lo) * x)) _ lo hi B (fun _ _ => eq_refl)) as G.
           rewrite (is_RInt_unique _ _ _ _ S3) in G. apply G. intros x X.
           apply (ex_derive_continuous (K := R_AbsRing) (V := R_NormedModule)). auto_derive. apply Rgt_not_eq, Rmult_lt_0_compat; lra.
    + apply (is_follows f _ lo hi (1 / (log10 hi - log10 lo))).
      * intros x X. unfold f. rewrite rltb_true, !rleb_true by lra. cbn [andb]. field. lra.
      * intros x X. apply Rdiv_lt_0_compat; lra.
    + destruct SAM as (S0 & S1 & S2 & S3). split; [easy|]. split; [easy|]. split; [|easy]. intros u U. destruct (S2 u U) as [S4 S5].
      split; [easy|]. apply (is_RInt_ext (fun x => 1 / (ln (hi / lo) * x))); [|easy].
      intros x. rewrite Rmin_left, Rmax_right by lra. intros X. symmetry. apply IN. lra.
  - intros N. unfold LogUniform. destruct (Rle_lt_dec lo 0) as [H|H]; [now rewrite (rleb_true lo 0)|].
    rewrite (rleb_false lo 0) by easy. destruct (Rle_lt_dec hi lo) as [H'|H']; [now rewrite (rleb_true hi lo)|]. exfalso. apply N. easy.
Qed.
Print Assumptions C39_log_uniform.
Theorem C39_log_uniform_refuted :
  forall lo hi f, LogUniform lo hi = Ok f -> is_RInt_gen f (at_right lo) (at_left hi) (ln 10) /\ ~ density f lo hi.
Proof.
  intros lo hi f E. pose proof ln10_pos as L10.
  destruct (C39_log_uniform lo hi) as [W1 W2].
  assert (AB : 0 < lo /\ lo < hi).
  { destruct (Rlt_le_dec 0 lo) as [H|H]; [destruct (Rlt_le_dec lo hi) as [H'|H']|]; [now split| |]; rewrite W2 in E by lra; discriminate. }
  destruct (W1 AB) as (g & E' & (D1 & D2 & D3 & D4) & _). assert (g = f) by congruence. subst g.
  assert (G : is_RInt_gen f (at_right lo) (at_left hi) (ln 10)).
  { apply (gen_scale _ _ _ _ (ln 10)) in D4. rewrite Rmult_1_l in D4.
    eapply gen_ext; [easy| |exact D4]. intros x X. cbv beta. field. lra. }
  split; [easy|]. intros (_ & _ & _ & D). apply gen_unique in D, G.
  assert (H : ln 10 = 1) by (rewrite <- G; exact D).
  assert (E10 : exp 1 = 10) by (rewrite <- H; apply exp_ln; lra).
  pose proof exp_le_3. lra.
Qed.
Print Assumptions C39_log_uniform_refuted.

Theorem C39_log_normal_separation :
  forall mean sigma lo hi,
  (0 < lo /\ lo < hi /\ 0 < sigma -> exists f, LogNormalSeparation mean sigma lo hi = Ok f /\ density f lo hi /\
     follows f (fun a => exp (- ((log10 a - mean) / sigma) ^ 2 / 2) / a) lo hi) /\
  (~ (0 < lo /\ lo < hi /\ 0 < sigma) -> LogNormalSeparation mean sigma lo hi = Raise ValueError).
Proof.
  intros mean sigma lo hi. split.
  - intros (A & B & S). pose proof ln10_pos as L10. unfold LogNormalSeparation.
    rewrite (rleb_false lo 0), (rleb_false hi lo), (rleb_false sigma 0) by lra. cbv zeta.
    pose proof (log10_lt lo hi A B) as L.
    set (z := fun a => (log10 a - mean) / sigma).
    assert (ZI : forall x y, 0 < x -> x < y -> z x < z y).
    { intros x y X XY. unfold z. apply Rmult_lt_compat_r; [now apply Rinv_0_lt_compat|]. pose proof (log10_lt x y X XY). lra. }
    assert (ZL : forall x y, 0 < x -> x <= y -> z x <= z y).
    { intros x y X [XY| ->]; [left; now apply ZI|right; reflexivity]. }
    set (N := RInt phi (z lo) (z hi)).
    assert (NP : 0 < N).
    { unfold N. apply RInt_gt_0; [now apply ZI| |]. intros; apply phi_pos. intros; apply continuous_phi. }
    set (f := fun a => if rltb 0 a && rleb lo a && rleb a hi
      then truncnorm_pdf (log10 a) (z lo) (z hi) mean sigma / (a * ln 10) else 0). exists f. split; [reflexivity|].
    set (g := fun a => phi (z a) * (1 / (a * ln 10 * sigma))).
    assert (IN : forall a, lo <= a <= hi -> f a = g a * (1 / N)).
    { intros a X. unfold f. rewrite rltb_true, (rleb_true lo a), (rleb_true a hi) by lra. cbn [andb].
      unfold truncnorm_pdf. fold (z a). fold (z lo). fold (z hi). cbv zeta.
      rewrite (rleb_true (z lo)), (rleb_true (z a)) by (apply ZL; lra). cbn [andb]. fold N. unfold g. field. lra. }
    assert (GP : forall a, 0 < a -> 0 < g a).
    { intros a X. unfold g. apply Rmult_lt_0_compat; [apply phi_pos|]. apply Rdiv_lt_0_compat; [lra|].
      repeat apply Rmult_lt_0_compat; lra. }
    assert (DZ : forall a, 0 < a -> is_derive z a (1 / (a * ln 10 * sigma))).
    { intros a X. unfold z, log10. auto_derive; [lra|]. field. lra. }
    assert (CG : forall a, 0 < a -> continuous g a).
    { intros a X. apply (ex_derive_continuous (K := R_AbsRing) (V := R_NormedModule)). unfold g, phi, z, log10. auto_derive.
      repeat split; try lra. apply Rgt_not_eq. repeat apply Rmult_lt_0_compat; lra. }
    assert (DG : forall a, 0 < a -> is_derive (fun a => RInt phi (z lo) (z a)) a (g a)).
    { intros a X. unfold g. rewrite Rmult_comm.
      apply (is_derive_comp (K := R_AbsRing) (V := R_NormedModule) (fun t => RInt phi (z lo) t) z a).
      - apply (is_derive_RInt (V := R_CompleteNormedModule) phi _ (z lo) (z a)); [|apply continuous_phi].
        apply filter_forall. intros y. apply RInt_correct. apply (ex_RInt_continuous (V := R_CompleteNormedModule)).
        intros; apply continuous_phi.
      - now apply DZ. }
    split.
    + apply (is_density f g lo hi (1 / N) N); try easy; try lra.
      * unfold N at 1. replace (RInt phi (z lo) (z hi)) with (RInt phi (z lo) (z hi) - RInt phi (z lo) (z lo)).
        2:{ rewrite RInt_point. exact (Rminus_0_r _). }
        apply (gen_antiderivative g (fun a => RInt phi (z lo) (z a))); [easy| | | |].
        -- intros x X. apply DG. lra.
        -- intros x X. apply CG. lra.
        -- apply (limit_right (fun a => RInt phi (z lo) (z a))). apply (ex_derive_continuous (K := R_AbsRing) (V := R_NormedModule)).
           eexists. apply DG. lra.
        -- apply (limit_left (fun a => RInt phi (z lo) (z a))). apply (ex_derive_continuous (K := R_AbsRing) (V := R_NormedModule)).
           eexists. apply DG. lra.
      * intros x X. apply IN. lra.
      * intros x. destruct (Rle_lt_dec lo x) as [X|X]; [destruct (Rle_lt_dec x hi) as [Y|Y]|].
        -- rewrite IN by easy. apply Rmult_le_pos; [apply Rlt_le, GP; lra|]. apply Rlt_le, Rdiv_lt_0_compat; lra.
        -- unfold f. rewrite (rleb_false x hi), andb_false_r by easy. lra.
        -- unfold f. rewrite (rleb_false lo x), andb_false_r by easy. cbn [andb]. lra.
      * intros x [X|X]; unfold f; [now rewrite (rleb_false lo x), andb_false_r by easy|].
        now rewrite (rleb_false x hi), andb_false_r by easy.
    + apply (is_follows f _ lo hi (1 / (sqrt (2 * PI) * ln 10 * sigma) * (1 / N))).
      * intros x X. rewrite IN by lra. unfold g, phi. fold (z x). set (e := exp _).
        assert (0 < sqrt (2 * PI)) by (apply sqrt_lt_R0; pose proof PI_RGT_0; lra). 
        replace (exp (- z x ^ 2 / 2)) with e by reflexivity. field. repeat split; lra.
      * intros x X. apply Rdiv_lt_0_compat; [apply exp_pos|lra].
  - intros N. unfold LogNormalSeparation. destruct (Rle_lt_dec lo 0) as [H|H]; [now rewrite (rleb_true lo 0)|].
    rewrite (rleb_false lo 0) by easy. destruct (Rle_lt_dec hi lo) as [H'|H']; [now rewrite (rleb_true hi lo)|].
    rewrite (rleb_false hi lo) by easy. destruct (Rle_lt_dec sigma 0) as [H''|H'']; [now rewrite (rleb_true sigma 0)|]. exfalso. apply N. easy.
Qed.
Print Assumptions C39_log_normal_separation.
