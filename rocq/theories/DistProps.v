(** Normalised densities and inverse sampling: property C39. *)
From Coq Require Import String List Bool Reals Lra.
From Coquelicot Require Import Coquelicot.
From Verif Require Import PyBase OrbitModel RealLemmas IntegralLemmas DistModel ImfProps DistSpec DistProofs.
Open Scope R_scope.

(** ** Mass functions *)
Theorem C39_salpeter :
  forall alpha lo hi, 0 < lo ->
  (lo < hi -> exists f, Salpeter alpha lo hi = Ok f /\ Kroupa1993 alpha lo hi = Ok f /\ density f lo hi /\
     follows f (fun m => Rpower m (- alpha)) lo hi /\
     (alpha <> 1 -> exists r, (forall u, 0 <= u <= 1 -> power_imf_rvs alpha lo hi u = Ok (r u)) /\ samples r f lo hi)) /\
  (hi <= lo -> Salpeter alpha lo hi = Raise ValueError /\ Kroupa1993 alpha lo hi = Raise ValueError).
Proof.
  intros alpha lo hi LO.
  destruct (imf_base_works (power_imf alpha) lo hi LO) as [W1 W2].
  { intros m M. split; [apply Rpower_pos|now apply continuous_power]. }
  split; [|intros L; split; now apply W2].
  intros L. destruct (W1 L) as (f & E & DE & FO & VAL). exists f. repeat (split; [easy|]).
  intros NE. set (b := 1 - alpha). assert (B : b <> 0) by (unfold b; lra).
  set (top := Rpower hi b - Rpower lo b).
  (* the antiderivative *)
  set (G := fun m => Rpower m (- alpha + 1) / (- alpha + 1)).
  assert (DG : forall x, 0 < x -> is_derive G x (Rpower x (- alpha))).
  { intros x X. apply is_derive_power_up; [easy|lra]. }
  assert (GI : forall x y, 0 < x -> x < y -> G x < G y).
  { intros x y X XY. apply (increasing_derive G (fun t => Rpower t (- alpha)) x y).
    - easy.
    - intros t T. apply DG. lra.
    - intros t T. apply Rpower_pos. }
  assert (HG : forall m, G m = Rpower m b / b).
  { intros m. unfold G. replace (- alpha + 1) with b by (unfold b; ring). reflexivity. }
  assert (TOP : top <> 0).
  { pose proof (GI lo hi LO L) as H. rewrite !HG in H. intros T. unfold top in T. replace (Rpower hi b) with (Rpower lo b) in H by lra. lra. }
  set (I := quad (power_imf alpha) lo hi) in *.
  assert (HI : I = top / b).
  { unfold I. apply quad_ordinary; [easy|intros x X; apply continuous_power; lra|].
    apply (integral_from_derivative _ (fun x => Rpower x (- alpha)) G).
    - lra.
    - reflexivity.
    - intros x X. apply DG. lra.
    - intros x X. apply continuous_power. lra.
    - rewrite !HG. unfold top. field. easy. }
  assert (IP : 0 < I).
  { rewrite HI. pose proof (GI lo hi LO L) as H. rewrite !HG in H. unfold top. unfold Rdiv in *. lra. }
  set (w := fun u => u * top + Rpower lo b).
  assert (WP : forall u, 0 <= u <= 1 -> 0 < w u).
  { intros u U. unfold w, top. pose proof (Rpower_pos lo b). pose proof (Rpower_pos hi b).
    replace (u * (Rpower hi b - Rpower lo b) + Rpower lo b) with (u * Rpower hi b + (1 - u) * Rpower lo b) by ring.
    destruct (Req_dec u 0) as [-> |NU]; [lra|].
    assert (0 < u * Rpower hi b) by (apply Rmult_lt_0_compat; lra).
    assert (0 <= (1 - u) * Rpower lo b) by (apply Rmult_le_pos; lra). lra. }
  exists (fun u => Rpower (w u) (1 / b)). split.
  - intros u U. unfold power_imf_rvs. fold b. fold top. cbv zeta. rewrite reqb_false by easy. do 2 f_equal. unfold w. field. easy.
  - apply (is_samples (fun x => 0 < x) _ _ (fun m => (Rpower m b - Rpower lo b) / top)).
    + intros x y X Y XY. pose proof (GI x y X XY) as H. rewrite !HG in H.
      replace ((Rpower x b - Rpower lo b) / top) with ((Rpower x b / b - Rpower lo b / b) / I) by (rewrite HI; field; easy).
      replace ((Rpower y b - Rpower lo b) / top) with ((Rpower y b / b - Rpower lo b / b) / I) by (rewrite HI; field; easy).
      apply Rmult_lt_compat_r; [now apply Rinv_0_lt_compat|lra].
    + easy.
    + lra.
    + intros u U. apply Rpower_pos.
    + field. easy.
    + unfold top. field. exact TOP.
    + intros u U. cbv beta. rewrite Rpower_mult. replace (1 / b * b) with 1 by (field; easy). rewrite Rpower_1 by now apply WP.
      unfold w. field. easy.
    + intros y Y. apply (integral_from_derivative _ (fun x => Rpower x (- alpha) * (1 / I)) (fun x => G x * (1 / I))).
      * lra.
      * intros x X. rewrite VAL by lra. unfold power_imf. field. lra.
      * intros x X. apply (is_derive_scal_l (K := R_AbsRing) (V := R_NormedModule)). apply DG. lra.
      * intros x X. apply (continuous_scal_l (K := R_AbsRing) (V := R_NormedModule)). apply continuous_power. lra.
      * rewrite !HG, HI. field. easy.
Qed.
Print Assumptions C39_salpeter.

(** The slope 1 has a density, and asking for samples is a division by zero. *)
Theorem C39_slope_one_refuted :
  forall lo hi, 0 < lo -> lo < hi ->
  is_ok (Salpeter 1 lo hi) = true /\ forall u, power_imf_rvs 1 lo hi u = Raise (OtherError "ZeroDivisionError").
Proof.
  intros lo hi L H. split.
  - destruct (proj1 (C39_salpeter 1 lo hi L) H) as (f & E & _). now rewrite E.
  - intros u. unfold power_imf_rvs. replace (1 - 1) with 0 by ring. rewrite !Rpower_O by lra. cbv zeta.
    now rewrite reqb_true by ring.
Qed.
Print Assumptions C39_slope_one_refuted.

Theorem C39_kroupa2001 :
  forall a1 a2 a3 b1 b2 lo hi, 0 < lo -> 0 < b1 -> b1 <= b2 ->
  (lo < hi -> exists f, Kroupa2001 (Kroupa a1 a2 a3 b1 b2 lo) hi = Ok f /\ density f lo hi /\
     follows f (kroupa_imf (Kroupa a1 a2 a3 b1 b2 lo)) lo hi) /\
  (hi <= lo -> Kroupa2001 (Kroupa a1 a2 a3 b1 b2 lo) hi = Raise ValueError).
Proof.
  intros a1 a2 a3 b1 b2 lo hi LO B1 B2.
  destruct (imf_base_works (kroupa_imf (Kroupa a1 a2 a3 b1 b2 lo)) lo hi LO) as [W1 W2].
  { intros m M. apply (C40_kroupa2001 a1 a2 a3 b1 b2 lo LO B1 B2). easy. }
  split; [|exact W2]. intros L. destruct (W1 L) as (f & E & DE & FO & _). exists f. now repeat split; try apply DE; try apply FO.
Qed.
Print Assumptions C39_kroupa2001.
Theorem C39_chabrier2003 :
  forall mc sigma alpha b lo hi, 0 < lo -> 0 < mc -> 0 < sigma -> 0 < b ->
  (lo < hi -> exists f, Chabrier2003 (Chabrier mc sigma alpha b) lo hi = Ok f /\ density f lo hi /\
     follows f (chabrier_imf (Chabrier mc sigma alpha b)) lo hi) /\
  (hi <= lo -> Chabrier2003 (Chabrier mc sigma alpha b) lo hi = Raise ValueError).
Proof.
  intros mc sigma alpha b lo hi LO MC S B.
  destruct (imf_base_works (chabrier_imf (Chabrier mc sigma alpha b)) lo hi LO) as [W1 W2].
  { intros m M. apply (C40_chabrier2003 mc sigma alpha b MC S B). easy. }
  split; [|exact W2]. intros L. destruct (W1 L) as (f & E & DE & FO & _). exists f. now repeat split; try apply DE; try apply FO.
Qed.
Print Assumptions C39_chabrier2003.

(** ** Mass ratios and eccentricities *)
Lemma uniform_works (f : R -> R) lo hi : lo < hi -> (forall x, lo < x < hi -> f x = 1 / (hi - lo)) -> (forall x, 0 <= f x) ->
  (forall x, x < lo \/ hi < x -> f x = 0) ->
  density f lo hi /\ follows f (fun _ => 1) lo hi /\ samples (uniform_rvs lo hi) f lo hi.
Proof.
  intros L IN POS OUT. split; [|split].
  - apply (is_density f (fun _ => 1) lo hi (1 / (hi - lo)) (hi - lo)); try easy; try lra.
    + replace (hi - lo) with (RInt (fun _ : R => 1) lo hi) at 1 by (rewrite RInt_const; exact (Rmult_1_r _)).
      apply gen_continuous; [easy|easy|]. intros; apply continuous_one.
    + intros x X. rewrite IN by easy. ring.
  - apply (is_follows f (fun _ => 1) lo hi (1 / (hi - lo))); [|intros; lra]. intros x X. rewrite IN by easy. ring.
  - apply (is_samples (fun _ => True) _ _ (fun x => (x - lo) / (hi - lo))); try easy.
    + intros x y _ _ XY. apply Rmult_lt_compat_r; [apply Rinv_0_lt_compat|]; lra.
    + field. lra.
    + field. lra.
    + intros u U. unfold uniform_rvs. field. lra.
    + intros y Y. apply (integral_from_derivative _ (fun _ => 1 / (hi - lo)) (fun x => (x - lo) / (hi - lo))).
      * lra.
      * intros x X. apply IN. lra.
      * intros x X. auto_derive; [easy|]. field. lra.
      * intros x X. apply continuous_const.
      * field. lra.
Qed.

Ltac bounds_checks lo hi :=
  destruct (Rle_lt_dec 0 lo) as [?|?];
    [rewrite ?(rleb_true 0 lo) by easy|rewrite ?(rleb_false 0 lo) by easy; cbn [andb negb]];
  [destruct (Rlt_le_dec lo 1) as [?|?];
    [rewrite ?(rltb_true lo 1) by easy|rewrite ?(rltb_false lo 1) by easy; cbn [andb negb]] | ];
  try (destruct (Rlt_le_dec 0 hi) as [?|?];
    [rewrite ?(rltb_true 0 hi) by easy|rewrite ?(rltb_false 0 hi) by easy; cbn [andb negb]]);
  try (destruct (Rle_lt_dec hi 1) as [?|?];
    [rewrite ?(rleb_true hi 1) by easy|rewrite ?(rleb_false hi 1) by easy; cbn [andb negb]]);
  try (destruct (Rle_lt_dec hi lo) as [?|?];
    [rewrite ?(rleb_true hi lo) by easy|rewrite ?(rleb_false hi lo) by easy; cbn [andb negb]]).

Theorem C39_flat_mass_ratio :
  forall lo hi,
  (0 <= lo /\ lo < hi /\ hi <= 1 -> exists f, FlatMassRatio lo hi = Ok f /\
     density f lo hi /\ follows f (fun _ => 1) lo hi /\ samples (uniform_rvs lo hi) f lo hi) /\
  (~ (0 <= lo /\ lo < hi /\ hi <= 1) -> FlatMassRatio lo hi = Raise ValueError).
Proof.
  intros lo hi. split.
  - intros (A & B & C). unfold FlatMassRatio.
    rewrite (rleb_true 0 lo), (rltb_true lo 1), (rltb_true 0 hi), (rleb_true hi 1), (rleb_false hi lo) by lra. cbn [andb negb]. cbv zeta.
    assert (Q : quad (fun _ => 1) lo hi = hi - lo).
    { apply quad_ordinary; [easy|intros; apply continuous_one|].
      replace (hi - lo) with (scal (hi - lo) 1 : R) by exact (Rmult_1_r _). apply (is_RInt_const (V := R_NormedModule)). }
    rewrite Q, reqb_false by lra.
    set (f := fun q => if rltb lo q && rleb q hi then 1 * (1 / (hi - lo)) else 0). exists f. split; [reflexivity|].
    assert (K : 0 < 1 / (hi - lo)) by (apply Rdiv_lt_0_compat; lra).
    apply uniform_works; [easy| | |].
    + intros x X. unfold f. rewrite rltb_true, rleb_true by lra. cbn [andb]. ring.
    + intros x. unfold f. destruct (rltb lo x && rleb x hi); lra.
    + intros x [X|X]; unfold f; [now rewrite rltb_false by lra|]. now rewrite (rleb_false x hi), andb_false_r by easy.
  - intros N. unfold FlatMassRatio. bounds_checks lo hi; try reflexivity. exfalso. apply N. lra.
Qed.
Print Assumptions C39_flat_mass_ratio.

Theorem C39_uniform_eccentricity :
  forall lo hi,
  (0 <= lo /\ lo < hi /\ hi <= 1 -> exists f, UniformEccentricity lo hi = Ok f /\
     density f lo hi /\ follows f (fun _ => 1) lo hi /\ samples (uniform_rvs lo hi) f lo hi) /\
  (~ (0 <= lo /\ lo < hi /\ hi <= 1) -> UniformEccentricity lo hi = Raise ValueError).
Proof.
  intros lo hi. split.
  - intros (A & B & C). unfold UniformEccentricity.
    rewrite (rleb_true 0 lo), (rltb_true lo 1), (rltb_true 0 hi), (rleb_true hi 1), (rleb_false hi lo) by lra. cbn [andb negb]. cbv zeta.
    set (f := fun e => if rleb lo e && rleb e hi then 1 / (hi - lo) else 0). exists f. split; [reflexivity|].
    assert (K : 0 < 1 / (hi - lo)) by (apply Rdiv_lt_0_compat; lra).
    apply uniform_works; [easy| | |].
    + intros x X. unfold f. now rewrite !rleb_true by lra.
    + intros x. unfold f. destruct (rleb lo x && rleb x hi); lra.
    + intros x [X|X]; unfold f; [now rewrite rleb_false by lra|]. now rewrite (rleb_false x hi), andb_false_r by easy.
  - intros N. unfold UniformEccentricity. bounds_checks lo hi; try reflexivity. exfalso. apply N. lra.
Qed.
Print Assumptions C39_uniform_eccentricity.

Theorem C39_thermal_eccentricity :
  forall lo hi,
  (0 <= lo /\ lo < hi /\ hi <= 1 -> exists f, ThermalEccentricity lo hi = Ok f /\
     density f lo hi /\ follows f (fun e => e) lo hi /\ samples (thermal_rvs lo hi) f lo hi) /\
  (~ (0 <= lo /\ lo < hi /\ hi <= 1) -> ThermalEccentricity lo hi = Raise ValueError).
Proof.
  intros lo hi. split.
  - intros (A & B & C). unfold ThermalEccentricity.
    rewrite (rleb_true 0 lo), (rltb_true lo 1), (rltb_true 0 hi), (rleb_true hi 1), (rleb_false hi lo) by lra. cbn [andb negb]. cbv zeta.
    assert (SQ : 0 < hi ^ 2 - lo ^ 2).
    { replace (hi ^ 2 - lo ^ 2) with ((hi - lo) * (hi + lo)) by ring. apply Rmult_lt_0_compat; lra. }
    rewrite reqb_false by lra.
    set (I := hi ^ 2 - lo ^ 2) in *.
    assert (K : 0 < 1 / I) by (apply Rdiv_lt_0_compat; lra).
    set (f := fun e => if rleb lo e && rleb e hi then 2 * e * (1 / I) else 0). exists f. split; [reflexivity|].
    assert (IN : forall x, lo <= x <= hi -> f x = 2 * x * (1 / I)).
    { intros x X. unfold f. now rewrite !rleb_true by lra. }
    split; [|split].
    + apply (is_density f (fun e => 2 * e) lo hi (1 / I) I); try easy; try lra.
      * replace I with (hi ^ 2 - lo ^ 2) by reflexivity.
        apply (gen_antiderivative _ (fun e => e ^ 2)); [easy| | | |].
        -- intros x X. auto_derive; [easy|]. ring.
        -- intros x X. apply (ex_derive_continuous (K := R_AbsRing) (V := R_NormedModule)). auto_derive. easy.
        -- apply (limit_right (fun e => e ^ 2)).
           apply (ex_derive_continuous (K := R_AbsRing) (V := R_NormedModule) (fun e => e ^ 2)). auto_derive. easy.
        -- apply (limit_left (fun e => e ^ 2)).
           apply (ex_derive_continuous (K := R_AbsRing) (V := R_NormedModule) (fun e => e ^ 2)). auto_derive. easy.
      * intros x X. apply IN. lra.
      * intros x. unfold f. destruct (rleb lo x) eqn:E; cbn [andb]; [|lra]. destruct (rleb x hi); [|lra].
        apply rleb_iff in E. apply Rmult_le_pos; lra.
      * intros x [X|X]; unfold f; [now rewrite rleb_false by lra|]. now rewrite (rleb_false x hi), andb_false_r by easy.
    + split; [intros x X; lra|]. intros x y X Y. rewrite !IN by lra. ring.
    + apply (is_samples (fun x => 0 <= x) _ _ (fun x => (x ^ 2 - lo ^ 2) / I)).
      * intros x y X Y XY. apply Rmult_lt_compat_r; [apply Rinv_0_lt_compat; lra|].
        assert (x ^ 2 < y ^ 2); [|lra]. assert (0 < (y - x) * (y + x)) by (apply Rmult_lt_0_compat; lra).
        replace ((y - x) * (y + x)) with (y ^ 2 - x ^ 2) in H by ring. lra.
      * easy.
      * lra.
      * intros u U. apply sqrt_pos.
      * field. lra.
      * unfold I. field. fold I. lra.
      * intros u U. unfold thermal_rvs. fold I. rewrite pow2_sqrt.
        -- field. lra.
        -- apply Rplus_le_le_0_compat; [apply Rmult_le_pos; lra|]. apply pow2_ge_0.
      * intros y Y. apply (integral_from_derivative _ (fun x => 2 * x * (1 / I)) (fun x => (x ^ 2 - lo ^ 2) / I)).
        -- lra.
        -- intros x X. apply IN. lra.
        -- intros x X. auto_derive; [easy|]. field. lra.
        -- intros x X. apply (ex_derive_continuous (K := R_AbsRing) (V := R_NormedModule)). auto_derive. easy.
        -- field. lra.
  - intros N. unfold ThermalEccentricity. bounds_checks lo hi; try reflexivity. exfalso. apply N. lra.
Qed.
Print Assumptions C39_thermal_eccentricity.

(** Circular orbits: a point mass, so the "density" has no area. *)
Theorem C39_zero_eccentricity :
  (forall u, zero_eccentricity_rvs u = 0) /\ zero_eccentricity_pdf 0 = 1 /\ (forall e, e <> 0 -> zero_eccentricity_pdf e = 0).
Proof.
  repeat split; unfold zero_eccentricity_pdf.
  - now rewrite reqb_true.
  - intros e N. now rewrite reqb_false.
Qed.
Print Assumptions C39_zero_eccentricity.
Theorem C39_zero_eccentricity_refuted : forall lo hi, ~ density zero_eccentricity_pdf lo hi.
Proof.
  intros lo hi (L & _ & _ & INT).
  assert (Z : is_RInt_gen zero_eccentricity_pdf (at_right lo) (at_left hi) 0).
  { destruct (Rle_lt_dec lo 0) as [A|A]; [destruct (Rle_lt_dec hi 0) as [B|B]|].
    - apply (gen_ext (fun _ => 0)); [easy| |].
      + intros x X. unfold zero_eccentricity_pdf. rewrite reqb_false; [easy|lra].
      + replace 0 with (RInt (fun _ : R => 0) lo hi) at 1 by (rewrite RInt_const; exact (Rmult_0_r _)).
        apply gen_continuous; [easy|easy|]. intros; apply continuous_const.
    - (* both sides of 0 *)
      intros P HP. unfold filtermapi. apply (filter_imp (fun ab => lo < fst ab < hi /\ lo < snd ab < hi)); [|now apply near_both].
      intros [a b] [HA HB]. cbn [fst snd] in *. exists 0. split; [|now apply locally_singleton].
      assert (H0 : forall c d, c <= d -> is_RInt zero_eccentricity_pdf c d 0).
      { assert (H1 : forall c d, c <= d -> (0 <= c \/ d <= 0) -> is_RInt zero_eccentricity_pdf c d 0).
        { intros c d CD S. apply (is_RInt_ext (fun _ => 0)).
          - intros x. rewrite Rmin_left, Rmax_right by easy. intros X. unfold zero_eccentricity_pdf. rewrite reqb_false; [easy|]. lra.
          - pose proof (is_RInt_const (V := R_NormedModule) c d 0) as H.
            apply (is_RInt_value _ _ _ _ 0 H). exact (Rmult_0_r _). }
        intros c d CD. destruct (Rle_lt_dec 0 c) as [X|X]; [apply H1; lra|]. destruct (Rle_lt_dec d 0) as [Y|Y]; [apply H1; lra|].
        pose proof (is_RInt_Chasles (V := R_NormedModule) _ c 0 d 0 0 (H1 c 0 ltac:(lra) ltac:(lra)) (H1 0 d ltac:(lra) ltac:(lra))) as H.
        apply (is_RInt_value _ _ _ _ 0 H). exact (Rplus_0_r _). }
      destruct (Rle_lt_dec a b) as [AB|AB]; [now apply H0|].
      pose proof (is_RInt_swap (V := R_NormedModule) _ _ _ _ (H0 b a ltac:(lra))) as H.
      apply (is_RInt_value _ _ _ _ 0 H). exact Ropp_0.
    - apply (gen_ext (fun _ => 0)); [easy| |].
      + intros x X. unfold zero_eccentricity_pdf. rewrite reqb_false; [easy|lra].
      + replace 0 with (RInt (fun _ : R => 0) lo hi) at 1 by (rewrite RInt_const; exact (Rmult_0_r _)).
        apply gen_continuous; [easy|easy|]. intros; apply continuous_const. }
  apply gen_unique in INT, Z. lra.
Qed.
Print Assumptions C39_zero_eccentricity_refuted.
