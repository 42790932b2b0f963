(** Property C38: the weights of the simulated systems for another population (posydon/popsyn/norm_pop.py). *)
From Coq Require Import String List Bool Reals Lra Classical_Prop.
From Coquelicot Require Import Coquelicot.
From Verif Require Import PyBase OrbitModel RealLemmas IntegralLemmas DistModel ImfProps DistSpec DistProofs DistProps SeparationProps SanaProps WeightModel WeightProofs.
Import ListNotations.
Open Scope R_scope.

(** ** The density *)
(** Limits and parameters for which the density is defined: [admissible] of WeightProofs.v says
    0 < primary_mass_min < primary_mass_max, 0 <= binary_fraction_const <= 1, 0 <= secondary_mass_min and shape parameters
    of the mass function as in C40. *)
Definition imf_spec (k : kwargs) (f : R -> R) : Prop :=
  let lo := k_m1_min k in let hi := k_m1_max k in
  match k_imf k with
  | ISalpeter alpha | IKroupa1993 alpha => density f lo hi /\ follows f (fun m => Rpower m (- alpha)) lo hi
  | IKroupa2001 a1 a2 a3 b1 b2 => density f lo hi /\ follows f (kroupa_imf (Kroupa a1 a2 a3 b1 b2 lo)) lo hi
  | IChabrier2003 c => density f lo hi /\ follows f (chabrier_imf c) lo hi
  | IOther => forall m, f m = 1 / (hi - lo)
  end.
Definition ratio_spec (k : kwargs) (m : R) (f : R -> R) : Prop :=
  let const (_ : R) := 1 in
  match k_ratio k, k_q_min k, k_q_max k with
  | RFlat, None, None =>
      let lo := k_m2_min k / m in let hi := Rmin (k_m2_max k / m) 1 in
      (lo < hi -> density f lo hi /\ follows f const lo hi) /\ (hi <= lo -> forall q, f q = 0)
  | RFlat, Some lo, Some hi => 0 <= lo /\ hi <= 1 /\ density f lo hi /\ follows f const lo hi
  | RFlat, _, _ => False
  | RPower slope, lo, hi =>
      let lo := match lo with Some x => x | None => 5 / 100 end in
      let hi := match hi with Some x => x | None => 1 end in
      0 <= lo /\ hi <= 1 /\ density f lo hi /\ follows f (fun q => Rpower q slope) lo hi
  | ROther, _, _ => density f 0 1 /\ follows f const 0 1
  end.
(** Densities in the decimal logarithm of the period; a separation scheme is described by C38_separation_refuted. *)
Definition period_spec (k : kwargs) (m : R) (f : R -> result fl) : Prop :=
  match k_orbit k with
  | OSana lo hi =>
      (m <= 15 -> exists g, (forall x, f (Rpower 10 x) = Ok (Some (g x))) /\
         density g (log10 lo) (log10 hi) /\ follows g (fun _ => 1) (log10 lo) (log10 hi)) /\
      (15 < m -> 1 < hi -> sana_total lo hi <> 0 -> exists g, (forall x, f (Rpower 10 x) = Ok (Some (g x))) /\
         density g (log10 lo) (log10 hi) /\ follows g (fun x => Rpower (Rmax x (15/100)) (- (55/100))) (log10 lo) (log10 hi))
  | OPower slope lo hi =>
      exists g, (forall x, f (Rpower 10 x) = Ok (Some (g x))) /\
        density g (log10 lo) (log10 hi) /\ follows g (fun x => Rpower 10 (slope * x)) (log10 lo) (log10 hi)
  | OLogUniform lo hi => 0 < lo < hi
  | _ => False
  end.
Lemma imf_spec_holds k imf : admissible k -> get_IMF_pdf k = Ok imf -> imf_spec k imf.
Proof.
  intros AD EI. destruct (imf_facts k imf AD EI) as (D & F & _). unfold imf_spec. cbv zeta. unfold imf_shape in F. unfold get_IMF_pdf in EI.
  destruct (k_imf k); try (split; [now apply D|exact F]). intros m.
  match type of EI with Ok ?s = _ => assert (imf = s) by congruence; now subst imf end.
Qed.
Lemma ratio_spec_holds k r m : admissible k -> get_mass_ratio_pdf k = Ok r -> 0 < m -> ratio_spec k m (fun q => r (Some q) m).
Proof.
  intros AD ER M. unfold ratio_spec. cbv zeta. unfold get_mass_ratio_pdf in ER.
  assert (FL : forall lo hi f, FlatMassRatio lo hi = Ok f -> 0 <= lo /\ hi <= 1 /\ density f lo hi /\ follows f (fun _ => 1) lo hi).
  { intros lo hi f F. destruct (flat_value lo hi f F) as (A & B & C & _). destruct (proj1 (C39_flat_mass_ratio lo hi)) as (g & G & D & FO & _); [easy|].
    assert (g = f) by congruence. subst g. easy. }
  destruct (k_ratio k) as [|slope|].
  + destruct (k_q_min k) as [lo|], (k_q_max k) as [hi|]; try discriminate.
    * destruct (FlatMassRatio lo hi) as [f|] eqn:F; [|discriminate]. cbn in ER.
      match type of ER with Ok ?s = _ => assert (r = s) by congruence; subst r end. now apply FL.
    * match type of ER with Ok ?s = _ => assert (r = s) by congruence; subst r end. cbn [on_number].
      destruct AD as (_ & _ & _ & S & _).
      rewrite (Rmax_left (k_m2_min k / m) 0) by (apply Rmult_le_pos; [easy|now apply Rlt_le, Rinv_0_lt_compat]).
      set (lo := k_m2_min k / m). set (hi := Rmin _ 1). split.
      -- intros L. set (f := fun q => _). destruct (uniform_works f lo hi L) as (D & FO & _); [| | |easy].
         ++ intros x X. unfold f. now rewrite rltb_true, rleb_true by lra.
         ++ intros x. unfold f. destruct (_ && _); [|lra]. apply Rlt_le, Rdiv_lt_0_compat; lra.
         ++ intros x [X|X]; unfold f; [now rewrite rltb_false by lra|now rewrite (rleb_false x hi), andb_false_r by lra].
      -- intros L q. destruct (Rle_lt_dec q lo); [now rewrite rltb_false by lra|now rewrite (rleb_false q hi), andb_false_r by lra].
  + replace (5 / 100) with 0.05 by lra. set (lo := match k_q_min k with Some x => x | None => _ end) in *. set (hi := match k_q_max k with Some x => x | None => _ end) in *.
    destruct (PowerLawMassRatio slope lo hi) as [f|] eqn:F; [|discriminate]. cbn in ER.
    match type of ER with Ok ?s = _ => assert (r = s) by congruence; subst r end.
    destruct (power_value slope lo hi f F) as (A & B & C & D & _).
    destruct (proj1 (C39_power_law_mass_ratio slope lo hi)) as (g & G & DE & FO); [easy|].
    assert (g = f) by congruence. subst g. easy.
  + destruct (FlatMassRatio 0 1) as [f|] eqn:F; [|discriminate]. cbn in ER.
    match type of ER with Ok ?s = _ => assert (r = s) by congruence; subst r end. destruct (FL 0 1 f F) as (_ & _ & D). exact D.
Qed.
(** A binary's density is the product of the four; a single star's has neither ratio nor period. *)
Lemma period_ok k per P m q : get_period_pdf k = Ok per -> 0 < m -> exists p, per P m q = Ok p.
Proof.
  unfold get_period_pdf. destruct (k_orbit k) as [lo hi|slope lo hi| |lo hi| |]; try discriminate.
  - unfold Sana12Period. destruct (rleb lo 0); [discriminate|]. destruct (rleb hi lo); [discriminate|]. cbv zeta.
    set (h := lift1 _ _). destruct (_ || _); [discriminate|]. cbn [rbind]. intros H M.
    match type of H with Ok ?s = _ => assert (per = s) by congruence; subst per end. destruct P as [p|]; [|now eexists].
    destruct (rleb lo p && rleb p hi); [|now eexists]. rewrite rleb_false by easy. destruct (rleb m 15); now eexists.
  - destruct (PowerLawPeriod slope lo hi) as [pdf|]; [|discriminate]. cbn [rbind]. intros H _.
    match type of H with Ok ?s = _ => assert (per = s) by congruence; subst per end. now eexists.
  - destruct (LogUniform lo hi) as [pdf|]; [|discriminate]. cbn [rbind]. intros H _.
    match type of H with Ok ?s = _ => assert (per = s) by congruence; subst per end. now eexists.
Qed.
Theorem C38_density :
  forall k pdf, admissible k -> get_pdf k = Ok pdf ->
  exists imf ratio per,
  imf_spec k imf /\ (forall m, 0 < m -> ratio_spec k m (fun q => ratio q m)) /\
  (forall m q, 0 < m -> 0 < q -> period_spec k m (fun P => per P m q)) /\
  (forall m q P, 0 < m -> exists p, per P m q = Ok p /\
     pdf m (Some q) (Some P) true = Ok (match p with Some p => Some (k_fb k * imf m * ratio q m * p) | None => None end)) /\
  (forall m q P, 0 < m -> pdf m q P false = Ok (Some ((1 - k_fb k) * imf m))) /\
  (forall m q P, 0 < m -> q = None -> exists p, pdf m q P true = Ok p /\ (p = None \/ p = Some 0)).
Proof.
  intros k pdf AD E. destruct (pdf_parts k pdf E) as (imf & r & per & EI & ER & EP & H).
  exists imf, (fun q m => r (Some q) m), (fun P m q => per (Some P) m (Some q)).
  split; [|split; [|split; [|split; [|split]]]].
  - now apply imf_spec_holds.
  - intros m M. now apply (ratio_spec_holds k r).
  - intros m q M Q. unfold period_spec. unfold get_period_pdf in EP. destruct (k_orbit k) as [lo hi|slope lo hi| |lo hi| |]; try discriminate.
    + destruct (Sana12Period lo hi) as [f|] eqn:F; [|discriminate]. cbn in EP.
      match type of EP with Ok ?s = _ => assert (per = s) by congruence; subst per end.
      destruct (C39_sana12 lo hi) as [W1 W2].
      destruct (Rle_lt_dec lo 0) as [X|A]; [rewrite W2 in F by lra; discriminate|].
      destruct (Rle_lt_dec hi lo) as [X|B]; [rewrite W2 in F by lra; discriminate|].
      destruct W1 as (g & G & _ & _ & LOW & HIGH & _); [easy|]. assert (g = f) by congruence. subst g. split.
      * intros L. destruct (LOW m) as (h & H1 & H2 & H3 & _); [lra|]. now exists h.
      * intros L H1 NZ. destruct (HIGH m L H1 NZ) as (h & H2 & H3 & H4). now exists h.
    + destruct (PowerLawPeriod slope lo hi) as [f|] eqn:F; [|discriminate]. cbn in EP.
      match type of EP with Ok ?s = _ => assert (per = s) by congruence; subst per end.
      destruct (C39_power_law_period slope lo hi) as [W1 W2].
      destruct (Rle_lt_dec lo 0) as [X|A]; [rewrite W2 in F by lra; discriminate|].
      destruct (Rle_lt_dec hi lo) as [X|B]; [rewrite W2 in F by lra; discriminate|].
      destruct W1 as (g & G & _ & D & FO); [easy|]. assert (g = f) by congruence. subst g. now exists (fun x => f (pow10 x)).
    + destruct (LogUniform lo hi) as [f|] eqn:F; [|discriminate]. destruct (C39_log_uniform lo hi) as [_ W2].
      destruct (Rle_lt_dec lo 0) as [X|A]; [rewrite W2 in F by lra; discriminate|].
      destruct (Rle_lt_dec hi lo) as [X|B]; [rewrite W2 in F by lra; discriminate|]. easy.
  - intros m q P M. destruct (period_ok k per (Some P) m (Some q) EP M) as [p EV]. exists p. split; [easy|]. rewrite H, EV. reflexivity.
  - intros m q P M. destruct (period_ok k per P m q EP M) as [p EV]. rewrite H, EV. reflexivity.
  - intros m q P M ->. destruct (period_ok k per P m None EP M) as [p EV]. rewrite H, EV. cbn [rbind].
    assert (Z : r None m = 0).
    { clear - ER. unfold get_mass_ratio_pdf in ER. destruct (k_ratio k) as [|slope|].
      - destruct (k_q_min k) as [lo|], (k_q_max k) as [hi|]; try discriminate.
        + destruct (FlatMassRatio lo hi); [|discriminate]. cbn in ER. match type of ER with Ok ?s = _ => assert (r = s) by congruence; subst r end. reflexivity.
        + match type of ER with Ok ?s = _ => assert (r = s) by congruence; subst r end. reflexivity.
      - cbv zeta in ER. destruct (PowerLawMassRatio _ _ _); [|discriminate]. cbn in ER. match type of ER with Ok ?s = _ => assert (r = s) by congruence; subst r end. reflexivity.
      - destruct (FlatMassRatio 0 1); [|discriminate]. cbn in ER. match type of ER with Ok ?s = _ => assert (r = s) by congruence; subst r end. reflexivity. }
    eexists. split; [reflexivity|]. destruct p as [p|]; [right|now left]. cbn [lift1]. f_equal. rewrite Z. ring.
Qed.
Print Assumptions C38_density.

(** ** The mean mass of a system *)
(** [lower_ratio] and [upper_ratio]: q_min and q_max if given, otherwise secondary_mass_min / primary_mass_min
    and secondary_mass_max / primary_mass_max between 0 and 1. *)
Theorem C38_mean_mass :
  forall k M, admissible k -> get_mean_mass k = Ok M ->
  let lo := match k_q_min k with Some x => x | None => k_m2_min k / k_m1_min k end in
  let hi := match k_q_max k with Some x => x | None => Rmin (k_m2_max k / k_m1_max k) 1 end in
  lo <= hi /\
  exists imf ratio kappa,
  imf_spec k imf /\ (forall m, 0 < m -> ratio_spec k m (fun q => ratio q m)) /\
  (forall m, k_m1_min k <= m <= k_m1_max k ->
     (lo = hi -> kappa m = 0) /\
     (lo < hi -> is_RInt_gen (fun q => (1 + q) * ratio q m) (at_right lo) (at_left hi) (kappa m))) /\
  is_RInt_gen (fun m => m * imf m * (1 - k_fb k + k_fb k * kappa m)) (at_right (k_m1_min k)) (at_left (k_m1_max k)) M.
Proof.
  intros k M AD E. cbv zeta. destruct (mean_mass_value k M AD E) as (imf & r & kappa & EI & ER & AB & KC & K & G).
  assert (EL : lower_ratio k = match k_q_min k with Some x => x | None => k_m2_min k / k_m1_min k end).
  { unfold lower_ratio. destruct (k_q_min k); [reflexivity|]. destruct AD as (A & B & C & S & _). apply Rmax_left.
    apply Rmult_le_pos; [easy|]. now apply Rlt_le, Rinv_0_lt_compat. }
  assert (EH : upper_ratio k = match k_q_max k with Some x => x | None => Rmin (k_m2_max k / k_m1_max k) 1 end) by reflexivity.
  rewrite <- EL, <- EH. split; [easy|].
  exists imf, (fun q m => r (Some q) m), kappa.
  split; [|split; [|split]].
  - now apply imf_spec_holds.
  - intros m MM. now apply (ratio_spec_holds k r).
  - intros m MM. destruct (K m MM) as (K1 & K2 & K3 & _). split; [exact K2|exact K3].
  - exact G.
Qed.
Print Assumptions C38_mean_mass.
Lemma gen_same (f : R -> R) a b (v w : R) : is_RInt_gen f (at_right a) (at_left b) v -> is_RInt_gen f (at_right a) (at_left b) w -> v = w.
Proof. intros V W. rewrite <- (gen_unique _ _ _ _ V). now apply gen_unique. Qed.
(** With given limits of a flat mass ratio that is the mean mass of a system. *)
Theorem C38_mean_mass_given :
  forall k lo hi M, admissible k -> k_ratio k = RFlat -> k_q_min k = Some lo -> k_q_max k = Some hi -> get_mean_mass k = Ok M ->
  exists imf E, imf_spec k imf /\
  is_RInt_gen (fun m => m * imf m) (at_right (k_m1_min k)) (at_left (k_m1_max k)) E /\
  M = E * (1 + k_fb k * ((lo + hi) / 2)).
Proof.
  intros k lo hi M AD KR QL QH E. destruct (mean_mass_value k M AD E) as (imf & r & kappa & EI & ER & AB & KC & K & G).
  assert (EA : lower_ratio k = lo) by (unfold lower_ratio; now rewrite QL).
  assert (EB : upper_ratio k = hi) by (unfold upper_ratio; now rewrite QH). rewrite EA, EB in *.
  unfold get_mass_ratio_pdf in ER. rewrite KR, QL, QH in ER. destruct (FlatMassRatio lo hi) as [f|] eqn:F; [|discriminate]. cbn in ER.
  match type of ER with Ok ?s = _ => assert (r = s) by congruence; subst r end. cbn [on_number] in *.
  destruct (flat_value lo hi f F) as (A & B & C & V).
  pose proof (imf_spec_holds k imf AD EI) as IS.
  destruct (imf_facts k imf AD EI) as (_ & _ & IP & c & CP & IV). pose proof (shape_good k AD) as SG. destruct AD as (M1 & M2 & FB & _).
  assert (KV : forall m, k_m1_min k <= m <= k_m1_max k -> kappa m = 1 + (lo + hi) / 2).
  { intros m MM. destruct (K m MM) as (_ & _ & K3 & _). 
    replace (1 + (lo + hi) / 2) with ((hi + hi * hi / 2) * (1 / (hi - lo)) - (lo + lo * lo / 2) * (1 / (hi - lo))) by (field; lra).
    apply (gen_same _ _ _ _ _ (K3 B)).
    apply (gen_ext (fun q => (1 + q) * (1 / (hi - lo))) _ _ _ _ B).
    - intros x X. now rewrite V, rltb_true, rleb_true by lra.
    - now apply flat_integral. }
  assert (GE : is_RInt_gen (fun m => m * imf m) (at_right (k_m1_min k)) (at_left (k_m1_max k)) (RInt (fun m => m * (imf_shape k m * c)) (k_m1_min k) (k_m1_max k))).
  { apply gen_continuous; [easy| |].
    - intros m MM. now rewrite IV by lra.
    - intros m MM. apply continuous_mult_R; [apply continuous_id|]. apply continuous_mult_R; [apply SG; lra|apply continuous_const]. }
  exists imf. eexists. split; [exact IS|]. split; [exact GE|].
  rewrite <- (gen_unique _ _ _ _ G). apply gen_unique.
  refine (gen_ext _ _ _ _ _ M2 _ (gen_scale _ _ _ _ (1 + k_fb k * ((lo + hi) / 2)) GE)). intros m MM. cbv beta. rewrite KV by lra. ring.
Qed.
Print Assumptions C38_mean_mass_given.

(** Without them it is not: the limits of the ratio are those of the lightest and the heaviest primary, so for every
    heavier primary the ratios below its own lower limit are left out.  With the default limits the mean mass of
    binaries is too small. *)
Definition default_kwargs : kwargs :=
  Kwargs (ISalpeter 2.35) 7 150 RFlat 0.35 150 None None true 1 (OPower (-0.5) 0.35 6000).
Lemma default_admissible : admissible default_kwargs.
Proof. unfold admissible; cbn; lra. Qed.
Theorem C38_mean_mass_refuted :
  exists k M imf T, admissible k /\ k_fb k = 1 /\ get_mean_mass k = Ok M /\ imf_spec k imf /\
  (forall m, 7 <= m <= 150 -> ratio_spec k m (fun q => if rltb (0.35 / m) q && rleb q 1 then 1 / (1 - 0.35 / m) else 0) /\
     is_RInt_gen (fun q => (1 + q) * (1 / (1 - 0.35 / m))) (at_right (0.35 / m)) (at_left 1) (1 + (0.35 / m + 1) / 2)) /\
  is_RInt_gen (fun m => m * imf m * (1 + (0.35 / m + 1) / 2)) (at_right 7) (at_left 150) T /\ M < T.
Proof.
  pose proof default_admissible as AD.
  assert (EM : exists M, get_mean_mass default_kwargs = Ok M).
  { unfold get_mean_mass, get_mass_pdf.
    assert (EI : exists f, get_IMF_pdf default_kwargs = Ok f).
    { destruct (proj1 (imf_base_works (power_imf 2.35) 7 150 ltac:(lra) ltac:(intros m MM; split; [apply Rpower_pos|now apply continuous_power])))
        as (f & EF & _); [lra|]. exists f. exact EF. }
    destruct EI as [imf EI]. rewrite EI.
    destruct (proj1 (C39_power_law_period (-0.5) 0.35 6000)) as (f & EF & _); [lra|].
    unfold get_mass_ratio_pdf, get_binary_fraction_pdf, get_period_pdf. cbn [default_kwargs k_ratio k_q_min k_q_max k_fb_const k_fb k_orbit k_m1_min k_m1_max k_m2_min k_m2_max].
    rewrite EF. cbn [rbind]. cbv zeta. rewrite rltb_false; [now eexists|].
    rewrite Rmax_left, Rmin_right by lra. lra. }
  destruct EM as [M EM]. destruct (mean_mass_value _ M AD EM) as (imf & r & kappa & EI & ER & AB & KC & K & G).
  destruct (imf_facts _ imf AD EI) as (_ & _ & IP & c & CP & IV). pose proof (shape_good _ AD) as SG.
  assert (EA : lower_ratio default_kwargs = 0.05) by (unfold lower_ratio; cbn; rewrite Rmax_left; lra).
  assert (EB : upper_ratio default_kwargs = 1) by (unfold upper_ratio; cbn; rewrite Rmin_right; lra).
  rewrite EA, EB in *. cbn [default_kwargs k_m1_min k_m1_max k_fb] in G, KC, K, IV.
  assert (U : forall m, 7 <= m <= 150 -> 0 < 0.35 / m <= 0.05 /\ Rmin (150 / m) 1 = 1 /\ Rmax (0.35 / m) 0 = 0.35 / m).
  { intros m MM. assert (0 < 0.35 / m <= 0.05).
    { split; [apply Rdiv_lt_0_compat; lra|]. apply (Rmult_le_reg_r m); [lra|]. replace (0.35 / m * m) with 0.35 by (field; lra). lra. }
    split; [easy|]. split; [|apply Rmax_left; lra]. apply Rmin_right. apply (Rmult_le_reg_r m); [lra|]. replace (150 / m * m) with 150 by (field; lra). lra. }
  assert (KV : forall m, 7 <= m <= 150 -> kappa m = (0.95 + (1 - 0.0025) / 2) / (1 - 0.35 / m)).
  { intros m MM. destruct (U m MM) as (U1 & U2 & U3). destruct (K m MM) as (_ & _ & K3 & _). specialize (K3 ltac:(lra)).
    replace ((0.95 + (1 - 0.0025) / 2) / (1 - 0.35 / m)) with ((1 + 1 * 1 / 2) * (1 / (1 - 0.35 / m)) - (0.05 + 0.05 * 0.05 / 2) * (1 / (1 - 0.35 / m)))
      by (unfold Rdiv; set (z := / (1 - _)); lra).
    apply (gen_same _ _ _ _ _ K3).
    - apply (gen_ext (fun q => (1 + q) * (1 / (1 - 0.35 / m)))); [lra| |apply flat_integral; lra].
      intros q Q. unfold get_mass_ratio_pdf in ER. cbn [default_kwargs k_ratio k_q_min k_q_max k_m2_min k_m2_max] in ER.
      match type of ER with Ok ?s = _ => assert (r = s) by congruence; subst r end. cbv zeta. cbn [on_number]. rewrite U2, U3.
      now rewrite rltb_true, rleb_true by lra. }
  set (t := fun m => m * (imf_shape default_kwargs m * c) * (1 + (0.35 / m + 1) / 2)).
  set (s := fun m => m * (imf_shape default_kwargs m * c) * ((0.95 + (1 - 0.0025) / 2) / (1 - 0.35 / m))).
  assert (CT : forall m, 7 <= m <= 150 -> continuous t m).
  { intros m MM. apply continuous_mult_R; [apply continuous_mult_R; [apply continuous_id|]|].
    - apply continuous_mult_R; [apply SG; lra|apply continuous_const].
    - apply (ex_derive_continuous (K := R_AbsRing) (V := R_NormedModule)). auto_derive. lra. }
  assert (CS : forall m, 7 <= m <= 150 -> continuous s m).
  { intros m MM. destruct (U m MM) as (U1 & _). apply continuous_mult_R; [apply continuous_mult_R; [apply continuous_id|]|].
    - apply continuous_mult_R; [apply SG; lra|apply continuous_const].
    - apply (ex_derive_continuous (K := R_AbsRing) (V := R_NormedModule)). auto_derive. split; [lra|]. split; [|easy].
      change (1 + - (0.35 / m) <> 0). lra. }
  exists default_kwargs, M, imf, (RInt t 7 150). split; [easy|]. split; [reflexivity|]. split; [easy|]. split; [now apply imf_spec_holds|]. split; [|split].
  - intros m MM. destruct (U m MM) as (U1 & U2 & U3). split.
    + pose proof (ratio_spec_holds _ r m AD ER ltac:(lra)) as RS.
      unfold get_mass_ratio_pdf in ER. cbn [default_kwargs k_ratio k_q_min k_q_max k_m2_min k_m2_max] in ER.
      match type of ER with Ok ?s = _ => assert (r = s) by congruence; subst r end. cbv zeta in RS. cbn [on_number] in RS.
      now rewrite U2, U3 in RS.
    + set (u := 0.35 / m) in *.
      replace (1 + (u + 1) / 2) with ((1 + 1 * 1 / 2) * (1 / (1 - u)) - (u + u * u / 2) * (1 / (1 - u))) by (field; lra).
      apply flat_integral. lra.
  - apply gen_continuous; [lra| |exact CT]. intros m MM. unfold t. now rewrite IV by lra.
  - assert (GM : is_RInt_gen (fun m => m * imf m * (1 - 1 + 1 * kappa m)) (at_right 7) (at_left 150) (RInt s 7 150)).
    { apply gen_continuous; [lra| |exact CS]. intros m MM. unfold s. rewrite <- KV, <- IV by lra. ring. }
    rewrite <- (gen_unique _ _ _ _ G), (gen_unique _ _ _ _ GM). apply RInt_lt; [lra| | |].
    + exact CT.
    + exact CS.
    + intros m MM. destruct (U m) as (U1 & _); [lra|]. unfold s, t. apply Rmult_lt_compat_l.
      * apply Rmult_lt_0_compat; [lra|]. apply Rmult_lt_0_compat; [apply SG; lra|easy].
      * assert (L : 0.35 / m < 0.05) by (apply (Rmult_lt_reg_r m); [lra|]; replace (0.35 / m * m) with 0.35 by (field; lra); lra).
        set (u := 0.35 / m) in *. apply (Rmult_lt_reg_r (1 - u)); [lra|].
        replace ((0.95 + (1 - 0.0025) / 2) / (1 - u) * (1 - u)) with (0.95 + (1 - 0.0025) / 2) by (field; lra).
        assert (0 < (0.05 - u) * (2.05 + u)) by (apply Rmult_lt_0_compat; lra).
        replace ((1 + (u + 1) / 2) * (1 - u)) with ((3 - 2 * u - u * u) / 2) by field.
        assert (E0 : (0.05 - u) * (2.05 + u) = 0.1025 - 2 * u - u * u) by lra. lra.
Qed.
Print Assumptions C38_mean_mass_refuted.

(** ** The weights *)
Theorem C38_weights :
  forall data M_sim sim pop ws, admissible sim -> admissible pop ->
  calculate_model_weights data M_sim sim pop = Ok ws ->
  exists pdf_sim pdf_pop mean_sim mean_pop,
  get_pdf sim = Ok pdf_sim /\ get_pdf pop = Ok pdf_pop /\ get_mean_mass sim = Ok mean_sim /\ get_mean_mass pop = Ok mean_pop /\
  0 <= mean_sim /\ 0 < mean_pop /\ M_sim <> 0 /\ length ws = length data /\
  forall i x, nth_error data i = Some x -> exists w s p, nth_error ws i = Some w /\
    let q := match m_s2 x with Some m2 => Some (m2 / m_s1 x) | None => None end in
    pdf_sim (m_s1 x) q (m_period x) (m_binary x) = Ok s /\ pdf_pop (m_s1 x) q (m_period x) (m_binary x) = Ok p /\
    match s, p with
    | Some s, Some p => (s = 0 -> w = 0) /\ (s <> 0 -> w * s * M_sim * mean_pop = p * mean_sim)
    | _, _ => w = 0
    end.
Proof.
  intros data M sim pop ws AS AP E. unfold calculate_model_weights in E.
  destruct (reqb (k_fb sim) 1 && reqb (k_fb pop) 0); [discriminate|]. destruct (reqb (k_fb sim) 0 && reqb (k_fb pop) 1); [discriminate|].
  destruct (get_pdf sim) as [ps|]; [|discriminate]. destruct (get_pdf pop) as [pp|]; [|discriminate].
  destruct (get_mean_mass sim) as [es|] eqn:ES; [|discriminate]. destruct (get_mean_mass pop) as [ep|] eqn:EP; [|discriminate]. cbn [rbind] in E.
  destruct (Req_dec M 0) as [Z|NM]; [rewrite (reqb_true M 0) in E by easy; discriminate|]. rewrite (reqb_false M 0) in E by easy.
  destruct (Req_dec ep 0) as [Z|NE]; [rewrite (reqb_true ep 0) in E by easy; discriminate|]. rewrite (reqb_false ep 0) in E by easy. cbn [orb] in E.
  cbv zeta in E. destruct (all_ok (map (pdf_of pp) data)) as [wp|] eqn:EW; [|discriminate]. destruct (all_ok (map (pdf_of ps) data)) as [wsim|] eqn:EV; [|discriminate].
  cbn [rbind] in E. match type of E with Ok ?s = _ => assert (ws = s) by congruence; subst ws end.
  destruct (all_ok_nth _ _ EW) as [L1 N1]. destruct (all_ok_nth _ _ EV) as [L2 N2]. rewrite map_length in *.
  pose proof (mean_mass_nonneg sim es AS ES). pose proof (mean_mass_nonneg pop ep AP EP).
  exists ps, pp, es, ep. repeat split; try easy; try lra.
  - rewrite combine_length, L1, L2. apply PeanoNat.Nat.min_id.
  - intros i x X.
    destruct (N1 i (pdf_of pp x)) as (p & P1 & P2); [now apply map_nth_error|].
    destruct (N2 i (pdf_of ps x)) as (s & S1 & S2); [now apply map_nth_error|].
    exists (ratio_weight (1 / M * (es / ep)) p s), s, p. split.
    + exact (map_nth_error (fun a => ratio_weight (1 / M * (es / ep)) (fst a) (snd a)) i _ (nth_combine _ _ _ _ _ P2 S2)).
    + cbv zeta. split; [exact S1|]. split; [exact P1|]. unfold ratio_weight. destruct s as [s|], p as [p|]; try reflexivity. split.
      * intros Z. now rewrite reqb_true.
      * intros NZ. rewrite reqb_false by easy. field. repeat split; lra.
Qed.
Print Assumptions C38_weights.
Theorem C38_nonneg :
  forall data M_sim sim pop ws w, admissible sim -> admissible pop -> 0 < M_sim ->
  calculate_model_weights data M_sim sim pop = Ok ws -> In w ws -> 0 <= w.
Proof.
  intros data M sim pop ws w AS AP MP E W.
  destruct (C38_weights _ _ _ _ _ AS AP E) as (ps & pp & es & ep & E1 & E2 & E3 & E4 & NS & NP & NM & L & H).
  apply In_nth_error in W as [i W]. destruct (nth_error data i) as [x|] eqn:X.
  2:{ apply nth_error_None in X. rewrite <- L in X. apply nth_error_None in X. congruence. }
  destruct (H i x X) as (w' & s & p & W' & P1 & P2 & V). assert (w' = w) by congruence. subst w'.
  destruct s as [s|], p as [p|]; try lra. destruct V as [V1 V2].
  pose proof (pdf_nonneg _ _ _ _ _ _ _ AS E1 P1). pose proof (pdf_nonneg _ _ _ _ _ _ _ AP E2 P2).
  destruct (Req_dec s 0) as [Z|NZ]; [rewrite V1 by easy; lra|]. specialize (V2 NZ).
  assert (D : 0 < s * M * ep) by (apply Rmult_lt_0_compat; [apply Rmult_lt_0_compat|]; lra).
  apply (Rmult_le_reg_r (s * M * ep)); [easy|]. rewrite Rmult_0_l. replace (w * (s * M * ep)) with (w * s * M * ep) by ring. rewrite V2.
  apply Rmult_le_pos; lra.
Qed.
Print Assumptions C38_nonneg.
(** A population like the simulation: every system has the weight 1 / M_sim, or 0 if its density is 0 or NaN. *)
Theorem C38_same :
  forall data M_sim k ws, admissible k -> calculate_model_weights data M_sim k k = Ok ws ->
  exists pdf, get_pdf k = Ok pdf /\ length ws = length data /\
  forall i x, nth_error data i = Some x -> exists w s, nth_error ws i = Some w /\
    pdf (m_s1 x) (match m_s2 x with Some m2 => Some (m2 / m_s1 x) | None => None end) (m_period x) (m_binary x) = Ok s /\
    match s with
    | Some d => (d = 0 -> w = 0) /\ (d <> 0 -> w = 1 / M_sim)
    | None => w = 0
    end.
Proof.
  intros data M k ws A E. destruct (C38_weights _ _ _ _ _ A A E) as (ps & pp & es & ep & E1 & E2 & E3 & E4 & NS & NP & NM & L & H).
  exists ps. split; [easy|]. split; [easy|]. intros i x X. destruct (H i x X) as (w & s & p & W & P1 & P2 & V).
  exists w, s. split; [easy|]. split; [easy|]. assert (p = s) by congruence. subst p. assert (es = ep) by congruence. subst es.
  destruct s as [s|]; [|easy]. destruct V as [V1 V2]. split; [easy|]. intros NZ. specialize (V2 NZ).
  apply (Rmult_eq_reg_r (s * M * ep)); [|repeat apply Rmult_integral_contrapositive_currified; lra].
  transitivity (w * s * M * ep); [ring|]. rewrite V2. field. easy.
Qed.
Print Assumptions C38_same.

(** Which parameters are accepted. *)
Definition accepted (k : kwargs) : Prop :=
  k_fb_const k = true /\
  match k_ratio k, k_q_min k, k_q_max k with
  | RFlat, None, None => True
  | RFlat, Some lo, Some hi => 0 <= lo /\ lo < hi /\ hi <= 1
  | RFlat, _, _ => False
  | RPower slope, lo, hi =>
      let lo := match lo with Some x => x | None => 5 / 100 end in
      let hi := match hi with Some x => x | None => 1 end in
      0 <= lo /\ lo < hi /\ hi <= 1 /\ (slope <= -1 -> 0 < lo)
  | ROther, _, _ => True
  end /\
  match k_orbit k with
  | OSana lo hi | OPower _ lo hi | OLogUniform lo hi => 0 < lo /\ lo < hi
  | _ => False
  end.
Definition ratio_range (k : kwargs) : Prop :=
  match k_q_min k with Some x => x | None => k_m2_min k / k_m1_min k end <=
  match k_q_max k with Some x => x | None => Rmin (k_m2_max k / k_m1_max k) 1 end.
Lemma accepted_pdf k : admissible k -> (accepted k -> exists pdf, get_pdf k = Ok pdf) /\ (~ accepted k -> exists e, get_pdf k = Raise e /\ (e = ValueError \/ e = KeyError)).
Proof.
  intros AD. assert (EI : exists imf, get_IMF_pdf k = Ok imf).
  { pose proof (shape_good k AD) as SG. destruct AD as (A & B & _ & _ & D). unfold get_IMF_pdf. unfold imf_shape in SG. destruct (k_imf k); try (now eexists).
    all: match goal with |- exists imf, ?t = Ok imf => idtac end.
    - destruct (proj1 (imf_base_works _ _ (k_m1_max k) A SG) B) as (f & EF & _). exists f. exact EF.
    - destruct (proj1 (imf_base_works _ _ (k_m1_max k) A SG) B) as (f & EF & _). exists f. exact EF.
    - destruct (proj1 (imf_base_works _ _ (k_m1_max k) A SG) B) as (f & EF & _). exists f. exact EF.
    - destruct (proj1 (imf_base_works _ _ (k_m1_max k) A SG) B) as (f & EF & _). exists f. exact EF. }
  destruct EI as [imf EI]. unfold get_pdf. rewrite EI. cbn [rbind].
  assert (ER : (match k_ratio k, k_q_min k, k_q_max k with
  | RFlat, None, None => True
  | RFlat, Some lo, Some hi => 0 <= lo /\ lo < hi /\ hi <= 1
  | RFlat, _, _ => False
  | RPower slope, lo, hi =>
      let lo := match lo with Some x => x | None => 5 / 100 end in
      let hi := match hi with Some x => x | None => 1 end in
      0 <= lo /\ lo < hi /\ hi <= 1 /\ (slope <= -1 -> 0 < lo)
  | ROther, _, _ => True
  end /\ exists r, get_mass_ratio_pdf k = Ok r) \/ (~ match k_ratio k, k_q_min k, k_q_max k with
  | RFlat, None, None => True
  | RFlat, Some lo, Some hi => 0 <= lo /\ lo < hi /\ hi <= 1
  | RFlat, _, _ => False
  | RPower slope, lo, hi =>
      let lo := match lo with Some x => x | None => 5 / 100 end in
      let hi := match hi with Some x => x | None => 1 end in
      0 <= lo /\ lo < hi /\ hi <= 1 /\ (slope <= -1 -> 0 < lo)
  | ROther, _, _ => True
  end /\ exists e, get_mass_ratio_pdf k = Raise e /\ (e = ValueError \/ e = KeyError))).
  { unfold get_mass_ratio_pdf. destruct (k_ratio k) as [|slope|].
    - destruct (k_q_min k) as [lo|], (k_q_max k) as [hi|]; [|right; split; [easy|now exists KeyError; split; [|right]]|right; split; [easy|now exists KeyError; split; [|right]]|left; split; [easy|now eexists]].
      destruct (C39_flat_mass_ratio lo hi) as [W1 W2].
      destruct (Rle_lt_dec 0 lo); [destruct (Rlt_le_dec lo hi); [destruct (Rle_lt_dec hi 1)|]|];
        try (right; split; [lra|]; rewrite W2 by lra; now exists ValueError; split; [|left]).
      left. split; [easy|]. destruct W1 as (f & EF & _); [easy|]. rewrite EF. now eexists.
    - cbv zeta. replace (5 / 100) with 0.05 by lra. set (lo := match k_q_min k with Some x => x | None => _ end) in *. set (hi := match k_q_max k with Some x => x | None => _ end) in *.
      destruct (C39_power_law_mass_ratio slope lo hi) as [W1 W2].
      assert (DEC : (0 <= lo /\ lo < hi /\ hi <= 1 /\ (slope <= -1 -> 0 < lo)) \/ ~ (0 <= lo /\ lo < hi /\ hi <= 1 /\ (slope <= -1 -> 0 < lo))).
      { destruct (Rle_lt_dec 0 lo); [destruct (Rlt_le_dec lo hi); [destruct (Rle_lt_dec hi 1)|]|]; try (right; lra).
        destruct (Rle_lt_dec slope (-1)) as [S|S]; [destruct (Rlt_le_dec 0 lo) as [B|B]|]; [left; easy| |left; repeat split; lra].
        right. intros (_ & _ & _ & N). specialize (N S). lra. }
      destruct DEC as [D|D]; [left|right]; (split; [exact D|]).
      + destruct (W1 D) as (f & EF & _). rewrite EF. now eexists.
      + rewrite (W2 D). now exists ValueError; split; [|left].
    - left. split; [easy|]. destruct (proj1 (C39_flat_mass_ratio 0 1)) as (f & EF & _); [lra|]. rewrite EF. now eexists. }
  unfold accepted. set (RA := match k_ratio k with RFlat => _ | RPower _ => _ | ROther => _ end) in *.
  destruct ER as [(R1 & r & ER)|(R1 & e & ER & EC)]; rewrite ER; cbn [rbind].
  2:{ split; [tauto|]. intros _. now exists e. }
  unfold get_binary_fraction_pdf. destruct (k_fb_const k); cbn [rbind].
  2:{ split; [intros (X & _); discriminate|]. intros _. now exists ValueError; split; [|left]. }
  unfold get_period_pdf. destruct (k_orbit k) as [lo hi|slope lo hi| |lo hi| |]; cbn [rbind];
    try (split; [tauto|]; intros _; now exists ValueError; split; [|left]).
  - destruct (C39_sana12 lo hi) as [W1 W2]. split; [intros (_ & _ & X)|intros X].
    + destruct (W1 X) as (f & EF & _). rewrite EF. now eexists.
    + rewrite W2 by tauto. now exists ValueError; split; [|left].
  - destruct (C39_power_law_period slope lo hi) as [W1 W2]. split; [intros (_ & _ & X)|intros X].
    + destruct (W1 X) as (f & EF & _). rewrite EF. now eexists.
    + rewrite W2 by tauto. now exists ValueError; split; [|left].
  - destruct (C39_log_uniform lo hi) as [W1 W2]. split; [intros (_ & _ & X)|intros X].
    + destruct (W1 X) as (f & EF & _). rewrite EF. now eexists.
    + rewrite W2 by tauto. now exists ValueError; split; [|left].
Qed.
Lemma mean_mass_ok k : admissible k -> accepted k ->
  (ratio_range k -> exists M, get_mean_mass k = Ok M) /\ (~ ratio_range k -> get_mean_mass k = Raise ValueError).
Proof.
  intros AD AC. destruct (proj1 (accepted_pdf k AD) AC) as [pdf EP]. destruct (pdf_parts k pdf EP) as (imf & r & per & EI & ER & EPE & _).
  unfold get_mean_mass, get_mass_pdf, get_binary_fraction_pdf. rewrite EI, ER, EPE. rewrite (proj1 AC). cbn [rbind]. cbv zeta.
  fold (lower_ratio k) (upper_ratio k).
  assert (EL : lower_ratio k = match k_q_min k with Some x => x | None => k_m2_min k / k_m1_min k end).
  { unfold lower_ratio. destruct (k_q_min k); [reflexivity|]. destruct AD as (A & B & C & S & _). apply Rmax_left.
    apply Rmult_le_pos; [easy|]. now apply Rlt_le, Rinv_0_lt_compat. }
  unfold ratio_range. rewrite <- EL. fold (upper_ratio k).
  split; intros H; [rewrite rltb_false by lra; now eexists|now rewrite rltb_true by lra].
Qed.
Lemma all_ok_total {A} (l : list (result A)) : (forall r, In r l -> exists x, r = Ok x) -> exists xs, all_ok l = Ok xs.
Proof.
  induction l as [|r l IH]; intros H; [now eexists|]. cbn. destruct (H r) as [x ->]; [now left|]. destruct IH as [xs EX]; [intros; apply H; now right|].
  rewrite EX. now eexists.
Qed.
(** Weights are computed exactly when both dictionaries are accepted, neither kind of star is missing, and neither the
    simulated mass nor the mean mass of the population is zero. *)
Theorem C38_succeeds :
  forall data M_sim sim pop, admissible sim -> admissible pop -> (forall x, In x data -> 0 < m_s1 x) ->
  accepted sim -> accepted pop -> ratio_range sim -> ratio_range pop ->
  ~ (k_fb sim = 1 /\ k_fb pop = 0) -> ~ (k_fb sim = 0 /\ k_fb pop = 1) -> M_sim <> 0 ->
  (k_fb pop < 1 \/ (k_ratio pop = RFlat /\ lower_ratio pop < upper_ratio pop)) ->
  exists ws, calculate_model_weights data M_sim sim pop = Ok ws.
Proof.
  intros data M sim pop AS AP POS CS CP RS RP N1 N2 NM MEAN. unfold calculate_model_weights.
  assert (B1 : reqb (k_fb sim) 1 && reqb (k_fb pop) 0 = false).
  { destruct (Req_dec (k_fb sim) 1); [|now rewrite reqb_false]. destruct (Req_dec (k_fb pop) 0); [tauto|]. rewrite (reqb_false (k_fb pop)) by easy. apply andb_false_r. }
  assert (B2 : reqb (k_fb sim) 0 && reqb (k_fb pop) 1 = false).
  { destruct (Req_dec (k_fb sim) 0); [|now rewrite reqb_false]. destruct (Req_dec (k_fb pop) 1); [tauto|]. rewrite (reqb_false (k_fb pop)) by easy. apply andb_false_r. }
  rewrite B1, B2.
  destruct (proj1 (accepted_pdf sim AS) CS) as [ps E1]. destruct (proj1 (accepted_pdf pop AP) CP) as [pp E2].
  destruct (proj1 (mean_mass_ok sim AS CS) RS) as [es E3]. destruct (proj1 (mean_mass_ok pop AP CP) RP) as [ep E4].
  pose proof (mean_mass_pos pop ep AP E4 MEAN) as PP.
  rewrite E1, E2, E3, E4. cbn [rbind]. rewrite (reqb_false M 0), (reqb_false ep 0) by lra. cbn [orb]. cbv zeta.
  assert (T : forall k pdf, get_pdf k = Ok pdf -> exists xs, all_ok (map (pdf_of pdf) data) = Ok xs).
  { intros k pdf EK. apply all_ok_total. intros r R. apply in_map_iff in R as (x & <- & X).
    destruct (pdf_parts k pdf EK) as (imf & rr & per & _ & _ & EPE & H). unfold pdf_of. rewrite H.
    destruct (period_ok k per (m_period x) (m_s1 x) (lift1 (fun s => s / m_s1 x) (m_s2 x)) EPE (POS x X)) as [p ->]. now eexists. }
  destruct (T pop pp E2) as [wp ->]. destruct (T sim ps E1) as [wsim ->]. cbn [rbind]. now eexists.
Qed.
Print Assumptions C38_succeeds.
Theorem C38_errors :
  forall data M_sim sim pop, admissible sim -> admissible pop ->
  (k_fb sim = 1 /\ k_fb pop = 0 \/ k_fb sim = 0 /\ k_fb pop = 1 -> calculate_model_weights data M_sim sim pop = Raise ValueError) /\
  (~ accepted sim \/ ~ accepted pop -> exists e, calculate_model_weights data M_sim sim pop = Raise e /\ (e = ValueError \/ e = KeyError)) /\
  (accepted sim -> accepted pop -> ~ ratio_range sim \/ ~ ratio_range pop -> calculate_model_weights data M_sim sim pop = Raise ValueError).
Proof.
  intros data M sim pop AS AP. unfold calculate_model_weights.
  assert (DEC : k_fb sim = 1 /\ k_fb pop = 0 \/ k_fb sim = 0 /\ k_fb pop = 1 \/
    reqb (k_fb sim) 1 && reqb (k_fb pop) 0 = false /\ reqb (k_fb sim) 0 && reqb (k_fb pop) 1 = false /\ ~ (k_fb sim = 1 /\ k_fb pop = 0) /\ ~ (k_fb sim = 0 /\ k_fb pop = 1)).
  { destruct (Req_dec (k_fb sim) 1) as [F1|F1].
    - destruct (Req_dec (k_fb pop) 0) as [F2|F2]; [tauto|]. right; right. rewrite (reqb_true (k_fb sim) 1), (reqb_false (k_fb pop) 0), (reqb_false (k_fb sim) 0) by lra. cbn. repeat split; lra.
    - destruct (Req_dec (k_fb sim) 0) as [F3|F3].
      + destruct (Req_dec (k_fb pop) 1) as [F2|F2]; [tauto|]. right; right. rewrite (reqb_true (k_fb sim) 0), (reqb_false (k_fb sim) 1), (reqb_false (k_fb pop) 1) by lra. cbn. repeat split; lra.
      + right; right. rewrite !(reqb_false (k_fb sim)) by lra. cbn. repeat split; lra. }
  destruct DEC as [[F1 F2]|[[F1 F2]|(B1 & B2 & N1 & N2)]].
  - rewrite (reqb_true (k_fb sim) 1), (reqb_true (k_fb pop) 0) by easy. cbn [andb]. split; [easy|]. split; [|easy]. intros _. now exists ValueError; split; [|left].
  - rewrite (reqb_false (k_fb sim) 1), (reqb_true (k_fb sim) 0), (reqb_true (k_fb pop) 1) by lra. cbn [andb]. split; [easy|]. split; [|easy]. intros _. now exists ValueError; split; [|left].
  - rewrite B1, B2. split; [tauto|].
    assert (EV : forall k : kwargs, admissible k -> accepted k \/ ~ accepted k).
    { intros k AD. apply Classical_Prop.classic. }
    split.
    + intros [H|H].
      * destruct (proj2 (accepted_pdf sim AS) H) as (e & -> & C). now exists e.
      * destruct (EV sim AS) as [A|A]; [|destruct (proj2 (accepted_pdf sim AS) A) as (e & -> & C); now exists e].
        destruct (proj1 (accepted_pdf sim AS) A) as [ps ->]. cbn [rbind].
        destruct (proj2 (accepted_pdf pop AP) H) as (e & -> & C). now exists e.
    + intros A1 A2 H. destruct (proj1 (accepted_pdf sim AS) A1) as [ps ->]. destruct (proj1 (accepted_pdf pop AP) A2) as [pp ->]. cbn [rbind].
      destruct (Rle_lt_dec (match k_q_min sim with Some x => x | None => k_m2_min sim / k_m1_min sim end)
        (match k_q_max sim with Some x => x | None => Rmin (k_m2_max sim / k_m1_max sim) 1 end)) as [L|L].
      * destruct H as [H|H]; [exfalso; now apply H|].
        destruct (proj1 (mean_mass_ok sim AS A1) L) as [es ->]. now rewrite (proj2 (mean_mass_ok pop AP A2) H).
      * rewrite (proj2 (mean_mass_ok sim AS A1)); [reflexivity|]. unfold ratio_range. lra.
Qed.
Print Assumptions C38_errors.

(** ** Separations *)
(** A uniform logarithm of the separation makes the logarithm of the period uniform (C17: log a = 2/3 log P + constant), so
    the density in the decimal logarithm of the period is 2/3 over the width of the range of log a.  The code divides it
    by the separation: LogUniform.pdf is not the density in the logarithm. *)
Theorem C38_separation_refuted :
  forall k lo hi per, k_orbit k = OLogUniform lo hi -> 0 < lo -> lo < hi -> get_period_pdf k = Ok per ->
  forall m q P, 0 < m -> 0 < q -> 0 < P -> let a := orbital_separation_from_period P m (q * m) in lo <= a <= hi ->
  per (Some P) m (Some q) = Ok (Some (2 / 3 / (log10 hi - log10 lo) / a)).
Proof.
  intros k lo hi per K L LH E m q P M Q PP a A. unfold get_period_pdf in E. rewrite K in E. unfold LogUniform in E.
  rewrite (rleb_false lo 0), (rleb_false hi lo) in E by lra. cbn [rbind] in E.
  match type of E with Ok ?s = _ => assert (per = s) by congruence; subst per end. cbn [lift2]. cbv zeta. fold a. cbn [on_number].
  rewrite rltb_true, !rleb_true by lra. cbn [andb]. do 2 f_equal. pose proof (log10_lt lo hi L LH). field. split; lra.
Qed.
Print Assumptions C38_separation_refuted.

(** ** Examples *)
Example C38_runs :
  exists ws, calculate_model_weights
    [Model 20 (Some 10) (Some 30) true; Model 20 (Some 0.2) (Some 30) true; Model 20 None None false] 1000
    (Kwargs (ISalpeter 2.35) 7 150 RFlat 0.35 150 None None true 0.5 (OPower (-0.5) 0.35 6000)) default_kwargs = Ok ws.
Proof.
  apply C38_succeeds; try (unfold accepted; cbn; now repeat split; lra); try (unfold admissible, accepted, ratio_range; cbn; try (rewrite Rmin_right by lra); lra).
  - intros x [<-|[<-|[<-|[]]]]; cbn; lra.
  - right. split; [reflexivity|]. unfold lower_ratio, upper_ratio. cbn. rewrite Rmin_right, Rmax_left by lra. lra.
Qed.
(** A system of the simulation's own population *)
Example C38_in_support :
  exists ws, calculate_model_weights [Model 20 (Some 10) (Some 30) true] 1000 default_kwargs default_kwargs = Ok ws /\ ws = [1 / 1000].
Proof.
  pose proof default_admissible as AD.
  assert (AC : accepted default_kwargs) by (unfold accepted; cbn; repeat split; lra).
  assert (RR : ratio_range default_kwargs) by (unfold ratio_range; cbn; rewrite Rmin_right; lra).
  destruct (C38_succeeds [Model 20 (Some 10) (Some 30) true] 1000 default_kwargs default_kwargs) as [ws E]; try easy; try (cbn; lra).
  - intros x [<-|[]]; cbn; lra.
  - right. split; [reflexivity|]. unfold lower_ratio, upper_ratio. cbn. rewrite Rmin_right, Rmax_left by lra. lra.
  - exists ws. split; [exact E|].
    destruct (C38_same _ _ _ _ AD E) as (pdf & EP & L & H). destruct (H 0%nat _ eq_refl) as (w & s & W & V & C). cbn in V.
    destruct ws as [|w' [|]]; try discriminate. cbn in W. assert (w' = w) by congruence. subst w'. f_equal.
    destruct (pdf_parts _ _ EP) as (imf & r & per & EI & ER & EPE & HP). rewrite HP in V.
    pose proof (imf_facts _ _ AD EI) as (_ & _ & _ & c & CP & IV).
    assert (I : 0 < imf 20). { rewrite IV by (cbn; lra). apply Rmult_lt_0_compat; [apply shape_good; [easy|lra]|easy]. }
    unfold get_mass_ratio_pdf in ER. cbn [default_kwargs k_ratio k_q_min k_q_max k_m2_min k_m2_max] in ER.
    match type of ER with Ok ?s = _ => assert (r = s) by congruence; subst r end.
    unfold get_period_pdf in EPE. cbn [default_kwargs k_orbit] in EPE.
    destruct (proj1 (C39_power_law_period (-0.5) 0.35 6000)) as (f & EF & Z & (LT & D1 & D2 & D3) & (F1 & F2)); [lra|]. rewrite EF in EPE. cbn [rbind] in EPE.
    match type of EPE with Ok ?s = _ => assert (per = s) by congruence; subst per end.
    cbn [rbind lift1 on_number] in V. cbv zeta in V. rewrite (Rmin_right (150 / 20) 1), (Rmax_left (0.35 / 20) 0), rltb_true, rleb_true in V by lra. cbn [andb] in V.
    assert (FP : f 30 <> 0).
    { intros Z30.
      assert (L30 : log10 0.35 < log10 30 < log10 6000) by (split; apply log10_lt; lra).
      assert (ALL : forall x, log10 0.35 < x < log10 6000 -> f (pow10 x) = 0).
      { intros x X. pose proof (F2 x (log10 30) X L30) as EQ. cbv beta in EQ. rewrite (pow10_log10 30), Z30 in EQ by lra. specialize (F1 _ L30).
        rewrite Rmult_0_l in EQ. apply Rmult_integral in EQ as [EQ|EQ]; [easy|]. lra. }
      assert (G0 : is_RInt_gen (fun x => f (pow10 x)) (at_right (log10 0.35)) (at_left (log10 6000)) 0).
      { apply (gen_ext (fun _ => 0) _ _ _ _ LT); [intros x X; symmetry; now apply ALL|].
        pose proof (gen_primitive (fun _ => 0) (fun _ => 0) _ _ LT) as GP. cbv beta in GP. rewrite Rminus_0_r in GP. apply GP.
        - intros x y. apply (is_RInt_value _ _ _ _ _ (is_RInt_const (V := R_NormedModule) x y 0)). cbn. unfold scal. cbn. unfold mult. cbn. ring.
        - intros x. apply continuous_const. }
      pose proof (gen_unique _ _ _ _ G0) as U0. rewrite (gen_unique _ _ _ _ D3) in U0. lra. }
    match type of V with Ok ?t = _ => assert (s = t) by congruence; subst s end.
    apply C. repeat apply Rmult_integral_contrapositive_currified; cbn; lra.
Qed.
