(** Lemmas for C38. *)
From Coq Require Import String List Bool Reals Lra.
From Coquelicot Require Import Coquelicot.
From Verif Require Import PyBase OrbitModel RealLemmas IntegralLemmas DistModel ImfProps DistSpec DistProofs DistProps SeparationProps SanaProps WeightModel.
Import ListNotations.
Open Scope R_scope.

(** ** Integrals of functions with jumps *)
Lemma gen_primitive (f F : R -> R) lo hi : lo < hi -> (forall x y, is_RInt f x y (F y - F x)) -> (forall x, continuous F x) ->
  is_RInt_gen f (at_right lo) (at_left hi) (F hi - F lo).
Proof.
  intros L I C P HP.
  assert (LIM : filterlim (fun ab => F (snd ab) - F (fst ab)) (filter_prod (at_right lo) (at_left hi)) (locally (F hi - F lo))).
  { apply (filterlim_comp_2 (G := locally (F hi)) (H := locally (F lo)) (fun ab => F (snd ab)) (fun ab => F (fst ab)) Rminus).
    - apply (filterlim_comp _ _ _ snd F _ (at_left hi)); [apply filterlim_snd|now apply limit_left].
    - apply (filterlim_comp _ _ _ fst F _ (at_right lo)); [apply filterlim_fst|now apply limit_right].
    - apply (filterlim_comp_2 (G := locally (F hi)) (H := locally (- F lo)) fst (fun x => - snd x) Rplus).
      + apply filterlim_fst.
      + apply (filterlim_comp _ _ _ snd Ropp _ (locally (F lo))); [apply filterlim_snd|].
        exact (filterlim_opp (K := R_AbsRing) (V := R_NormedModule) (F lo)).
      + exact (filterlim_plus (K := R_AbsRing) (V := R_NormedModule) (F hi) (- F lo)). }
  specialize (LIM P HP). unfold filtermapi.
  change (filter_prod (at_right lo) (at_left hi) (fun ab => P (F (snd ab) - F (fst ab)))) in LIM.
  revert LIM. apply filter_imp. intros [a b] Q. cbn in *. exists (F b - F a). now split.
Qed.
Lemma gen_ordinary (f : R -> R) a b : a < b -> (forall x y, ex_RInt f x y) -> is_RInt_gen f (at_right a) (at_left b) (RInt f a b).
Proof.
  intros L E. pose proof (gen_primitive f (fun y => RInt f a y) a b L) as G.
  replace (RInt f a b) with (RInt f a b - RInt f a a).
  2:{ rewrite RInt_point. exact (Rminus_0_r _). }
  apply G.
  - intros x y. assert (IS : is_RInt f x y (RInt f x y)) by (apply (RInt_correct (V := R_CompleteNormedModule)), E).
    apply (is_RInt_value _ _ _ _ _ IS).
    pose proof (RInt_Chasles (V := R_CompleteNormedModule) f a x y (E a x) (E x y)) as CH.
    change (RInt f a x + RInt f x y = RInt f a y) in CH. lra.
  - intros x. apply (continuous_RInt_1 (V := R_NormedModule) f a x). apply filter_forall. intros z. apply (RInt_correct (V := R_CompleteNormedModule)), E.
Qed.
Lemma cut_integrable (f g : R -> R) lo hi : lo <= hi -> (forall x, lo <= x <= hi -> continuous g x) ->
  (forall x, lo < x < hi -> f x = g x) -> (forall x, x < lo \/ hi < x -> f x = 0) -> forall x y, ex_RInt f x y.
Proof.
  intros LH C IN OUT.
  assert (LE : forall x y, x <= y -> ex_RInt f x y).
  { intros x y XY. set (u := Rmin (Rmax x lo) y). set (v := Rmax u (Rmin hi y)).
    assert (U : x <= u <= y /\ (u <= lo \/ u = x \/ y <= lo) /\ (u = y \/ lo <= u)).
    { unfold u, Rmin, Rmax. repeat destruct Rle_dec; lra. }
    assert (V : u <= v <= y /\ (v <= hi \/ v = u) /\ (v = y \/ hi <= v)).
    { unfold v, Rmin, Rmax. repeat destruct Rle_dec; lra. }
    assert (Z : forall s t, s <= t -> (forall w, s < w < t -> f w = 0) -> ex_RInt f s t).
    { intros s t ST H. apply (ex_RInt_ext (fun _ => 0)); [|apply (ex_RInt_const (V := R_NormedModule))].
      intros w. rewrite Rmin_left, Rmax_right by easy. intros W. symmetry. now apply H. }
    apply (ex_RInt_Chasles (V := R_NormedModule) f x u y); [|apply (ex_RInt_Chasles (V := R_NormedModule) f u v y)].
    - apply Z; [lra|]. intros w W. apply OUT. lra.
    - destruct (Req_dec u v) as [<- |N]; [apply (ex_RInt_point (V := R_NormedModule))|].
      apply (ex_RInt_ext g).
      + intros w. rewrite Rmin_left, Rmax_right by lra. intros W. symmetry. apply IN. lra.
      + apply (ex_RInt_continuous (V := R_CompleteNormedModule)). intros w. rewrite Rmin_left, Rmax_right by lra. intros W. apply C. lra.
    - apply Z; [lra|]. intros w W. apply OUT. lra. }
  intros x y. destruct (Rle_lt_dec x y) as [L|L]; [now apply LE|]. apply (ex_RInt_swap (V := R_NormedModule)), LE. lra.
Qed.
Lemma continuous_Rmin (f g : R -> R) x : continuous f x -> continuous g x -> continuous (fun t => Rmin (f t) (g t)) x.
Proof.
  intros F G. apply (continuous_ext (fun t => (f t + g t - Rabs (f t - g t)) * (1 / 2))).
  - intros t. unfold Rmin, Rabs. destruct (Rle_dec (f t) (g t)), (Rcase_abs (f t - g t)); lra.
  - apply (continuous_scal_l (K := R_AbsRing) (V := R_NormedModule)).
    apply (continuous_minus (V := R_NormedModule)); [now apply (continuous_plus (V := R_NormedModule))|].
    apply continuous_Rabs_comp. now apply (continuous_minus (V := R_NormedModule)).
Qed.

(** ** Mass functions *)
(** Limits and parameters for which the classes are defined; nothing in the code checks the shape parameters. *)
Definition admissible (k : kwargs) : Prop :=
  0 < k_m1_min k /\ k_m1_min k < k_m1_max k /\ 0 <= k_fb k <= 1 /\ 0 <= k_m2_min k /\
  match k_imf k with
  | IKroupa2001 _ _ _ b1 b2 => 0 < b1 /\ b1 <= b2
  | IChabrier2003 c => 0 < c_mc c /\ 0 < c_sigma c /\ 0 < c_break c
  | _ => True
  end.
Definition imf_shape (k : kwargs) : R -> R :=
  match k_imf k with
  | ISalpeter alpha | IKroupa1993 alpha => fun m => Rpower m (- alpha)
  | IKroupa2001 a1 a2 a3 b1 b2 => kroupa_imf (Kroupa a1 a2 a3 b1 b2 (k_m1_min k))
  | IChabrier2003 c => chabrier_imf c
  | IOther => fun _ => 1
  end.
Lemma imf_base_facts imf lo hi f : 0 < lo -> lo < hi -> (forall m, 0 < m -> 0 < imf m /\ continuous imf m) -> imf_base imf lo hi = Ok f ->
  density f lo hi /\ follows f imf lo hi /\ 0 < quad imf lo hi /\ forall m, lo <= m <= hi -> f m = imf m * (1 / quad imf lo hi).
Proof.
  intros LO L P E. destruct (imf_base_works imf lo hi LO P) as [W _]. destruct (W L) as (g & E' & D & F & V).
  assert (g = f) by congruence. subst g. repeat split; try apply D; try apply F.
  - apply (quad_positive imf imf lo hi L); [easy|intros x X; apply P; lra|intros x X; apply P; lra].
  - intros m M. rewrite V by easy. unfold Rdiv. ring.
Qed.
Lemma shape_good k : admissible k -> forall m, 0 < m -> 0 < imf_shape k m /\ continuous (imf_shape k) m.
Proof.
  intros (A & B & C & S & D) m M. unfold imf_shape. destruct (k_imf k) as [alpha|alpha|a1 a2 a3 b1 b2|[mc s al b]|].
  - split; [apply Rpower_pos|now apply continuous_power].
  - split; [apply Rpower_pos|now apply continuous_power].
  - apply (C40_kroupa2001 a1 a2 a3 b1 b2 (k_m1_min k)); tauto.
  - apply (C40_chabrier2003 mc s al b); cbn in D; tauto.
  - split; [lra|apply continuous_const].
Qed.
Lemma imf_facts k imf : admissible k -> get_IMF_pdf k = Ok imf ->
  (k_imf k <> IOther -> density imf (k_m1_min k) (k_m1_max k)) /\ follows imf (imf_shape k) (k_m1_min k) (k_m1_max k) /\
  (forall m, 0 <= imf m) /\
  exists c, 0 < c /\ forall m, k_m1_min k <= m <= k_m1_max k -> imf m = imf_shape k m * c.
Proof.
  intros AD E. pose proof (shape_good k AD) as G. destruct AD as (A & B & C & S & D).
  destruct (k_imf k) as [alpha|alpha|a1 a2 a3 b1 b2|c|] eqn:K; unfold get_IMF_pdf in E; rewrite K in E.
  5:{ assert (imf = fun _ => 1 / (k_m1_max k - k_m1_min k)) by congruence. subst imf.
      assert (0 < 1 / (k_m1_max k - k_m1_min k)) by (apply Rdiv_lt_0_compat; lra).
      unfold imf_shape. rewrite K. split; [easy|]. split; [|split].
      - apply (is_follows _ _ _ _ (1 / (k_m1_max k - k_m1_min k))); intros; lra.
      - intros m. lra.
      - exists (1 / (k_m1_max k - k_m1_min k)). split; [easy|]. intros. ring. }
  1: assert (E' : imf_base (imf_shape k) (k_m1_min k) (k_m1_max k) = Ok imf) by (unfold imf_shape; rewrite K; exact E).
  2: assert (E' : imf_base (imf_shape k) (k_m1_min k) (k_m1_max k) = Ok imf) by (unfold imf_shape; rewrite K; exact E).
  3: assert (E' : imf_base (imf_shape k) (k_m1_min k) (k_m1_max k) = Ok imf) by (unfold imf_shape; rewrite K; exact E).
  4: assert (E' : imf_base (imf_shape k) (k_m1_min k) (k_m1_max k) = Ok imf) by (unfold imf_shape; rewrite K; exact E).
  all: destruct (imf_base_facts _ _ _ _ A B G E') as (DE & FO & Q & V); split; [easy|]; split; [easy|]; split; [apply DE|];
    exists (1 / quad (imf_shape k) (k_m1_min k) (k_m1_max k)); split; [apply Rdiv_lt_0_compat; lra|exact V].
Qed.

(** ** Mass ratios *)
Lemma ratio_nonneg k r : get_mass_ratio_pdf k = Ok r -> forall q m, 0 <= r q m.
Proof.
  intros E q m. unfold get_mass_ratio_pdf in E.
  assert (FL : forall lo hi f, FlatMassRatio lo hi = Ok f -> forall x, 0 <= f x).
  { intros lo hi f H. destruct (C39_flat_mass_ratio lo hi) as [W1 W2].
    destruct (Rle_lt_dec 0 lo); [destruct (Rlt_le_dec lo hi); [destruct (Rle_lt_dec hi 1)|]|]; try (rewrite W2 in H by lra; discriminate).
    destruct W1 as (g & Eg & D & _); [now repeat split|]. assert (g = f) by congruence. subst g. apply D. }
  assert (PL : forall a lo hi f, PowerLawMassRatio a lo hi = Ok f -> forall x, 0 <= f x).
  { intros a lo hi f H. destruct (C39_power_law_mass_ratio a lo hi) as [W1 W2].
    destruct (Rle_lt_dec 0 lo); [destruct (Rlt_le_dec lo hi); [destruct (Rle_lt_dec hi 1)|]|]; try (rewrite W2 in H by lra; discriminate).
    destruct (Rle_lt_dec a (-1)) as [A|A]; [destruct (Rlt_le_dec 0 lo) as [B|B]|].
    - destruct W1 as (g & Eg & D & _); [now repeat split|]. assert (g = f) by congruence. subst g. apply D.
    - rewrite W2 in H; [discriminate|]. intros (_ & _ & _ & N). specialize (N A). lra.
    - destruct W1 as (g & Eg & D & _); [repeat split; lra|]. assert (g = f) by congruence. subst g. apply D. }
  destruct (k_ratio k) as [|slope|].
  - destruct (k_q_min k) as [lo|], (k_q_max k) as [hi|]; try discriminate.
    + destruct (FlatMassRatio lo hi) as [f|] eqn:F; [|discriminate]. cbn in E.
      assert (r = fun q _ => on_number f q) by congruence. subst r. destruct q; cbn; [now apply (FL lo hi)|lra].
    + set (s := fun (q : fl) (m1 : R) => _) in E. assert (r = s) by congruence. subst r. unfold s. cbv zeta. destruct q as [q|]; cbn [on_number]; [|lra].
      set (lo := Rmax _ 0). set (hi := Rmin _ 1). destruct (rltb lo q) eqn:A; [|cbn; lra]. destruct (rleb q hi) eqn:B; cbn [andb]; [|lra].
      unfold rltb in A. destruct (Rlt_dec lo q); [|discriminate]. apply rleb_iff in B. apply Rlt_le, Rdiv_lt_0_compat; lra.
  - cbv zeta in E. destruct (PowerLawMassRatio slope _ _) as [f|] eqn:F; [|discriminate]. cbn in E.
    assert (r = fun q _ => on_number f q) by congruence. subst r. destruct q; cbn; [now apply (PL _ _ _ _ F)|lra].
  - destruct (FlatMassRatio 0 1) as [f|] eqn:F; [|discriminate]. cbn in E.
    assert (r = fun q _ => on_number f q) by congruence. subst r. destruct q; cbn; [now apply (FL 0 1)|lra].
Qed.
Lemma flat_value lo hi f : FlatMassRatio lo hi = Ok f ->
  0 <= lo /\ lo < hi /\ hi <= 1 /\ forall q, f q = if rltb lo q && rleb q hi then 1 / (hi - lo) else 0.
Proof.
  intros H. destruct (C39_flat_mass_ratio lo hi) as [_ W2].
  assert (B : 0 <= lo /\ lo < hi /\ hi <= 1).
  { destruct (Rle_lt_dec 0 lo); [destruct (Rlt_le_dec lo hi); [destruct (Rle_lt_dec hi 1)|]|]; try (rewrite W2 in H by lra; discriminate). easy. }
  repeat split; try apply B. destruct B as (A & B & C). revert H. unfold FlatMassRatio.
  rewrite (rleb_true 0 lo), (rltb_true lo 1), (rltb_true 0 hi), (rleb_true hi 1), (rleb_false hi lo) by lra. cbn [andb negb]. cbv zeta.
  assert (Q : quad (fun _ => 1) lo hi = hi - lo).
  { apply quad_ordinary; [easy|intros; apply continuous_one|].
    apply (is_RInt_value _ _ _ _ (hi - lo) (is_RInt_const (V := R_NormedModule) lo hi 1)). exact (Rmult_1_r _). }
  rewrite Q, reqb_false by lra. set (g := fun q => _). intros H. assert (g = f) by congruence. subst f. intros q. unfold g.
  destruct (rltb lo q && rleb q hi); [ring|easy].
Qed.
Lemma power_value al lo hi f : PowerLawMassRatio al lo hi = Ok f ->
  0 <= lo /\ lo < hi /\ hi <= 1 /\ (al <= -1 -> 0 < lo) /\
  exists K, 0 < K /\ forall q, f q = if rltb lo q && rleb q hi then Rpower q al * K else 0.
Proof.
  intros H. destruct (C39_power_law_mass_ratio al lo hi) as [_ W2].
  assert (B : 0 <= lo /\ lo < hi /\ hi <= 1 /\ (al <= -1 -> 0 < lo)).
  { destruct (Rle_lt_dec 0 lo); [destruct (Rlt_le_dec lo hi); [destruct (Rle_lt_dec hi 1)|]|]; try (rewrite W2 in H by lra; discriminate).
    destruct (Rle_lt_dec al (-1)) as [A|A]; [destruct (Rlt_le_dec 0 lo) as [B|B]|]; [easy| |repeat split; lra].
    rewrite W2 in H; [discriminate|]. intros (_ & _ & _ & N). specialize (N A). lra. }
  repeat split; try apply B. destruct B as (A & B & C & D). revert H. unfold PowerLawMassRatio.
  rewrite (rleb_true 0 lo), (rltb_true lo 1), (rltb_true 0 hi), (rleb_true hi 1), (rleb_false hi lo) by lra. cbn [andb negb].
  assert (E : rleb al (-1) && reqb lo 0 = false).
  { destruct (Rle_lt_dec al (-1)) as [H|H]; [|now rewrite rleb_false]. specialize (D H).
    rewrite (reqb_false lo 0) by lra. apply andb_false_r. }
  rewrite E. cbv zeta. destruct (power_quad al lo hi A B D) as [P G].
  set (I := quad _ lo hi) in *. rewrite (reqb_false I 0) by lra. set (g := fun q => _). intros H. assert (g = f) by congruence. subst f.
  exists (1 / I). split; [apply Rdiv_lt_0_compat; lra|reflexivity].
Qed.

(** ** The inner integral of the mean mass *)
Definition lower_ratio (k : kwargs) : R := match k_q_min k with Some x => x | None => Rmax (k_m2_min k / k_m1_min k) 0 end.
Definition upper_ratio (k : kwargs) : R := match k_q_max k with Some x => x | None => Rmin (k_m2_max k / k_m1_max k) 1 end.
Lemma gen_nonneg (f : R -> R) a b (v : R) : a < b -> (forall x, a < x < b -> 0 <= f x) -> is_RInt_gen f (at_right a) (at_left b) v -> 0 <= v.
Proof.
  intros L P G. destruct (Rle_lt_dec 0 v) as [H|H]; [easy|]. exfalso.
  assert (LOC : locally v (fun y => y < 0)) by (exact (open_lt 0 v H)).
  specialize (G _ LOC). unfold filtermapi in G.
  pose proof (filter_and _ _ G (near_both a b L)) as [A B HA HB HAB].
  assert (SA := filter_and _ _ HA (near_right a b L)). assert (SB := filter_and _ _ HB (near_left a b L)).
  set (c := (a + b) / 2).
  assert (SA' : at_right a (fun x => x < c)) by (pose proof (near_right a c ltac:(unfold c; lra)) as N; revert N; apply filter_imp; easy).
  assert (SB' : at_left b (fun x => c < x)) by (pose proof (near_left c b ltac:(unfold c; lra)) as N; revert N; apply filter_imp; easy).
  destruct (filter_ex _ (filter_and _ _ SA SA')) as (x & (X1 & X2) & X3).
  destruct (filter_ex _ (filter_and _ _ SB SB')) as (y & (Y1 & Y2) & Y3).
  destruct (HAB x y X1 Y1) as [(w & W1 & W2) _]. cbn in W1.
  assert (0 <= w); [|lra].
  rewrite <- (is_RInt_unique _ _ _ _ W1). apply RInt_ge_0; [lra|now exists w|]. intros z Z. apply P. lra.
Qed.
Lemma gen_exists_nonneg (f : R -> R) a b (v : R) : a < b -> (forall x, a < x < b -> 0 <= f x) -> is_RInt_gen f (at_right a) (at_left b) v ->
  exists w : R, 0 <= w /\ is_RInt_gen f (at_right a) (at_left b) w.
Proof. intros L P G. exists v. split; [now apply (gen_nonneg f a b)|easy]. Qed.
Lemma cut_gen (f g : R -> R) lo hi a b : a < b -> lo <= hi -> (forall x, lo <= x <= hi -> continuous g x) ->
  (forall x, lo < x < hi -> f x = g x) -> (forall x, x < lo \/ hi < x -> f x = 0) ->
  is_RInt_gen f (at_right a) (at_left b) (RInt f a b).
Proof. intros L LH C IN OUT. apply gen_ordinary; [easy|]. now apply (cut_integrable f g lo hi). Qed.
Lemma continuous_one_plus_power al x : 0 < x -> continuous (fun q => (1 + q) * Rpower q al) x.
Proof.
  intros X. apply (ex_derive_continuous (K := R_AbsRing) (V := R_NormedModule)). unfold Rpower. auto_derive. easy.
Qed.
Lemma gen_plus (f g : R -> R) a b (v w : R) : is_RInt_gen f (at_right a) (at_left b) v -> is_RInt_gen g (at_right a) (at_left b) w ->
  is_RInt_gen (fun x => f x + g x) (at_right a) (at_left b) (v + w).
Proof. intros F G. exact (is_RInt_gen_plus (V := R_NormedModule) f g v w F G). Qed.
Lemma flat_integral a b K : a < b ->
  is_RInt_gen (fun q => (1 + q) * K) (at_right a) (at_left b) ((b + b * b / 2) * K - (a + a * a / 2) * K).
Proof.
  intros AB. apply (gen_primitive (fun q => (1 + q) * K) (fun q => (q + q * q / 2) * K)); [easy| |].
  - intros x y. apply (is_RInt_derive (V := R_CompleteNormedModule) (fun q => (q + q * q / 2) * K)).
    + intros z _. auto_derive; [easy|]. field.
    + intros z _. apply (ex_derive_continuous (K := R_AbsRing) (V := R_NormedModule)). auto_derive. easy.
  - intros x. apply (ex_derive_continuous (K := R_AbsRing) (V := R_NormedModule)). auto_derive. easy.
Qed.
Lemma inner_integral k r : admissible k -> get_mass_ratio_pdf k = Ok r -> lower_ratio k < upper_ratio k ->
  exists kappa : R -> R,
  (forall m, k_m1_min k <= m <= k_m1_max k -> continuous kappa m) /\
  (forall m, k_m1_min k <= m <= k_m1_max k -> 0 <= kappa m /\
     is_RInt_gen (fun q => (1 + q) * r (Some q) m) (at_right (lower_ratio k)) (at_left (upper_ratio k)) (kappa m)) /\
  (k_ratio k = RFlat -> forall m, k_m1_min k <= m <= k_m1_max k -> 0 < kappa m).
Proof.
  intros (M1 & M2 & FB & S & _) E AB. pose proof (ratio_nonneg k r E) as NN.
  unfold get_mass_ratio_pdf in E.
  assert (FIX : forall f : R -> R, (r = fun q _ => on_number f q) -> (forall q, f q <> 0 -> 0 <= q) ->
    (exists w : R, is_RInt_gen (fun q => (1 + q) * f q) (at_right (lower_ratio k)) (at_left (upper_ratio k)) w) ->
    exists kappa : R -> R,
      (forall m, k_m1_min k <= m <= k_m1_max k -> continuous kappa m) /\
      (forall m, k_m1_min k <= m <= k_m1_max k -> 0 <= kappa m /\
         is_RInt_gen (fun q => (1 + q) * r (Some q) m) (at_right (lower_ratio k)) (at_left (upper_ratio k)) (kappa m)) /\
      (forall m w : R, is_RInt_gen (fun q => (1 + q) * f q) (at_right (lower_ratio k)) (at_left (upper_ratio k)) w -> kappa m = w)).
  { intros f -> Q (w & W). exists (fun _ => w). split; [intros; apply continuous_const|]. split.
    2:{ intros m v V. rewrite <- (gen_unique _ _ _ _ W). now apply gen_unique. }
    intros m _. cbn [on_number]. split; [|easy].
    apply (gen_nonneg (fun q => (1 + q) * f q) _ _ _ AB); [|exact W]. intros x X.
    pose proof (NN (Some x) 0) as N. cbn in N.
    destruct (Req_dec (f x) 0) as [Z|Z]; [rewrite Z; lra|]. apply Rmult_le_pos; [|easy]. specialize (Q x Z). lra. }
  assert (FLAT : forall lo hi f, FlatMassRatio lo hi = Ok f -> (forall q, f q <> 0 -> 0 <= q) /\
    (exists w : R, is_RInt_gen (fun q => (1 + q) * f q) (at_right (lower_ratio k)) (at_left (upper_ratio k)) w)).
  { intros lo hi f F. destruct (flat_value lo hi f F) as (A & B & C & V). split.
    - intros q Q. rewrite V in Q. destruct (Rle_lt_dec 0 q) as [G|G]; [easy|]. rewrite rltb_false in Q by lra. now destruct Q.
    - eexists. apply (cut_gen _ (fun q => (1 + q) * (1 / (hi - lo))) lo hi); [easy|lra| | |].
      + intros x X. apply (ex_derive_continuous (K := R_AbsRing) (V := R_NormedModule)). auto_derive. easy.
      + intros x X. rewrite V, rltb_true, rleb_true by lra. easy.
      + intros x [X|X]; rewrite V; [rewrite rltb_false by lra|rewrite (rleb_false x hi), andb_false_r by lra]; apply Rmult_0_r. }
  destruct (k_ratio k) as [|slope|] eqn:KR.
  - destruct (k_q_min k) as [lo|] eqn:QL, (k_q_max k) as [hi|] eqn:QH; try discriminate.
    + destruct (FlatMassRatio lo hi) as [f|] eqn:F; [|discriminate]. cbn in E. destruct (FLAT lo hi f F).
      destruct (FIX f) as (kappa & K1 & K2 & K3); [congruence|easy|easy|]. exists kappa. split; [easy|]. split; [easy|]. intros _ m MM.
      destruct (flat_value lo hi f F) as (A & B & C & V).
      assert (EA : lower_ratio k = lo) by (unfold lower_ratio; now rewrite QL).
      assert (EB : upper_ratio k = hi) by (unfold upper_ratio; now rewrite QH). rewrite EA, EB in *.
      rewrite (K3 m ((hi + hi * hi / 2) * (1 / (hi - lo)) - (lo + lo * lo / 2) * (1 / (hi - lo)))).
      * replace (_ - _) with (1 + (hi + lo) / 2) by (field; lra). lra.
      * apply (gen_ext (fun q => (1 + q) * (1 / (hi - lo))) _ _ _ _ AB).
        -- intros x X. now rewrite V, rltb_true, rleb_true by lra.
        -- now apply flat_integral.
    + set (d := fun m => Rmin (k_m2_max k / m) 1 - k_m2_min k / m).
      set (a := lower_ratio k) in *. set (b := upper_ratio k) in *.
      assert (EA : a = k_m2_min k / k_m1_min k).
      { unfold a, lower_ratio. rewrite QL. apply Rmax_left. apply Rmult_le_pos; [easy|]. now apply Rlt_le, Rinv_0_lt_compat. }
      assert (EB : b = Rmin (k_m2_max k / k_m1_max k) 1) by (unfold b, upper_ratio; now rewrite QH).
      assert (A0 : 0 <= a) by (rewrite EA; apply Rmult_le_pos; [easy|]; now apply Rlt_le, Rinv_0_lt_compat).
      assert (SP : 0 < k_m2_max k).
      { assert (0 < k_m2_max k / k_m1_max k). { pose proof (Rmin_l (k_m2_max k / k_m1_max k) 1). lra. }
        apply (Rmult_lt_reg_r (/ k_m1_max k)); [apply Rinv_0_lt_compat; lra|]. now rewrite Rmult_0_l. }
      assert (IN : forall m, k_m1_min k <= m <= k_m1_max k -> Rmax (k_m2_min k / m) 0 = k_m2_min k / m /\ k_m2_min k / m <= a /\ b <= Rmin (k_m2_max k / m) 1).
      { intros m M. assert (0 < / m) by (apply Rinv_0_lt_compat; lra). split; [|split].
        - apply Rmax_left. apply Rmult_le_pos; lra.
        - rewrite EA. apply Rmult_le_compat_l; [easy|]. apply Rinv_le_contravar; lra.
        - rewrite EB. apply Rmin_glb; [|apply Rmin_r]. apply Rle_trans with (1 := Rmin_l _ _). apply Rmult_le_compat_l; [lra|]. apply Rinv_le_contravar; lra. }
      assert (DP : forall m, k_m1_min k <= m <= k_m1_max k -> 0 < d m) by (intros m M; destruct (IN m M) as (_ & H1 & H2); unfold d; lra).
      exists (fun m => (b - a + (b * b - a * a) / 2) / d m). split; [|split].
      * intros m M. unfold Rdiv. apply (continuous_scal_r (K := R_AbsRing) (V := R_NormedModule) (b - a + (b * b - a * a) * / 2) (fun m => / d m)).
        apply (continuous_comp d Rinv).
        -- unfold d. apply (continuous_minus (V := R_NormedModule)).
           ++ apply continuous_Rmin; [|apply continuous_const]. apply (ex_derive_continuous (K := R_AbsRing) (V := R_NormedModule)). auto_derive. lra.
           ++ apply (ex_derive_continuous (K := R_AbsRing) (V := R_NormedModule)). auto_derive. lra.
        -- specialize (DP m M). apply (ex_derive_continuous (K := R_AbsRing) (V := R_NormedModule) Rinv). auto_derive. lra.
      * intros m M. specialize (DP m M). destruct (IN m M) as (H0 & H1 & H2). split.
        -- apply Rmult_le_pos; [|now apply Rlt_le, Rinv_0_lt_compat]. replace (b * b - a * a) with ((b - a) * (b + a)) by ring.
           assert (0 <= (b - a) * (b + a)) by (apply Rmult_le_pos; lra). lra.
        -- apply (gen_ext (fun q => (1 + q) * (1 / d m)) _ _ _ _ AB).
           ++ intros q Q. match type of E with Ok ?s = _ => assert (r = s) by congruence; subst r end. cbv zeta. cbn [on_number]. rewrite H0.
              fold (d m). rewrite rltb_true, rleb_true by lra. reflexivity.
           ++ replace ((b - a + (b * b - a * a) / 2) / d m) with ((b + b * b / 2) * (1 / d m) - (a + a * a / 2) * (1 / d m)) by (field; lra).
              now apply flat_integral.
      * intros _ m M. specialize (DP m M). apply Rdiv_lt_0_compat; [|easy]. replace (b * b - a * a) with ((b - a) * (b + a)) by ring.
        assert (0 <= (b - a) * (b + a)) by (apply Rmult_le_pos; lra). lra.
  - cbv zeta in E. set (lo := match k_q_min k with Some x => x | None => 0.05 end) in E. set (hi := match k_q_max k with Some x => x | None => 1 end) in E.
    destruct (PowerLawMassRatio slope lo hi) as [f|] eqn:F; [|discriminate]. cbn in E.
    destruct (power_value slope lo hi f F) as (A & B & C & D & K & KP & V).
    assert (W : exists kappa : R -> R,
      (forall m, k_m1_min k <= m <= k_m1_max k -> continuous kappa m) /\
      (forall m, k_m1_min k <= m <= k_m1_max k -> 0 <= kappa m /\
         is_RInt_gen (fun q => (1 + q) * r (Some q) m) (at_right (lower_ratio k)) (at_left (upper_ratio k)) (kappa m)) /\
      (forall m w : R, is_RInt_gen (fun q => (1 + q) * f q) (at_right (lower_ratio k)) (at_left (upper_ratio k)) w -> kappa m = w)).
    2:{ destruct W as (kappa & K1 & K2 & _). exists kappa. split; [easy|]. split; [easy|]. discriminate. }
    apply (FIX f); [congruence| |].
    + intros q Q. rewrite V in Q. destruct (Rle_lt_dec 0 q) as [G|G]; [easy|]. rewrite rltb_false in Q by lra. now destruct Q.
    + destruct (Req_dec lo 0) as [Z|NZ].
      * assert (AL : -1 < slope) by (destruct (Rlt_le_dec (-1) slope) as [H|H]; [easy|specialize (D H); lra]).
        assert (EA : lower_ratio k = 0) by (unfold lower_ratio; unfold lo in Z; destruct (k_q_min k); lra).
        assert (EB : upper_ratio k <= hi) by (unfold upper_ratio, hi; destruct (k_q_max k); [lra|apply Rmin_r]).
        rewrite EA in *.
        destruct (power_quad slope 0 (upper_ratio k)) as [_ G1]; [lra|easy|lra|].
        destruct (power_quad (slope + 1) 0 (upper_ratio k)) as [_ G2]; [lra|easy|lra|].
        pose proof (gen_scale _ _ _ _ K (gen_plus _ _ _ _ _ _ G1 G2)) as G. eexists.
        refine (gen_ext _ _ _ _ _ AB _ G). intros q Q. cbv beta. rewrite V, rltb_true, rleb_true by lra. cbn [andb].
        rewrite Rpower_plus, Rpower_1 by lra. ring.
      * eexists. apply (cut_gen _ (fun q => (1 + q) * Rpower q slope * K) lo hi); [easy|lra| | |].
        -- intros x X. apply (continuous_scal_l (K := R_AbsRing) (V := R_NormedModule) (fun q => (1 + q) * Rpower q slope) K).
           apply continuous_one_plus_power. lra.
        -- intros x X. rewrite V, rltb_true, rleb_true by lra. cbn [andb]. ring.
        -- intros x [X|X]; rewrite V; [rewrite rltb_false by lra|rewrite (rleb_false x hi), andb_false_r by lra]; apply Rmult_0_r.
  - destruct (FlatMassRatio 0 1) as [f|] eqn:F; [|discriminate]. cbn in E. destruct (FLAT 0 1 f F).
    destruct (FIX f) as (kappa & K1 & K2 & _); [congruence|easy|easy|]. exists kappa. split; [easy|]. split; [easy|]. discriminate.
Qed.

(** ** The mean mass *)
Lemma continuous_mult_R (f g : R -> R) x : continuous f x -> continuous g x -> continuous (fun y => f y * g y) x.
Proof. intros F G. exact (continuous_mult (K := R_AbsRing) f g x F G). Qed.
Lemma mean_mass_value k M : admissible k -> get_mean_mass k = Ok M ->
  exists imf r kappa, get_IMF_pdf k = Ok imf /\ get_mass_ratio_pdf k = Ok r /\ lower_ratio k <= upper_ratio k /\
  (forall m, k_m1_min k <= m <= k_m1_max k -> continuous kappa m) /\
  (forall m, k_m1_min k <= m <= k_m1_max k -> 0 <= kappa m /\
     (lower_ratio k = upper_ratio k -> kappa m = 0) /\
     (lower_ratio k < upper_ratio k ->
        is_RInt_gen (fun q => (1 + q) * r (Some q) m) (at_right (lower_ratio k)) (at_left (upper_ratio k)) (kappa m)) /\
     (k_ratio k = RFlat -> lower_ratio k < upper_ratio k -> 0 < kappa m)) /\
  is_RInt_gen (fun m => m * imf m * (1 - k_fb k + k_fb k * kappa m)) (at_right (k_m1_min k)) (at_left (k_m1_max k)) M.
Proof.
  intros AD E. unfold get_mean_mass, get_mass_pdf in E.
  destruct (get_IMF_pdf k) as [imf|] eqn:EI; [|discriminate]. destruct (get_mass_ratio_pdf k) as [r|] eqn:ER; [|discriminate].
  unfold get_binary_fraction_pdf in E. destruct (k_fb_const k); [|discriminate]. destruct (get_period_pdf k) as [per|]; [|discriminate].
  cbn [rbind] in E. fold (lower_ratio k) (upper_ratio k) in E. cbv zeta in E.
  destruct (Rlt_le_dec (upper_ratio k) (lower_ratio k)) as [X|LE]; [rewrite rltb_true in E by easy; discriminate|].
  rewrite rltb_false in E by easy.
  destruct (imf_facts k imf AD EI) as (_ & _ & IP & c & CP & IV).
  pose proof (shape_good k AD) as SG.
  assert (KAP : exists kappa : R -> R, (forall m, k_m1_min k <= m <= k_m1_max k -> continuous kappa m) /\
     (forall m, k_m1_min k <= m <= k_m1_max k -> 0 <= kappa m /\
     (lower_ratio k = upper_ratio k -> kappa m = 0) /\
     (lower_ratio k < upper_ratio k ->
        is_RInt_gen (fun q => (1 + q) * r (Some q) m) (at_right (lower_ratio k)) (at_left (upper_ratio k)) (kappa m)) /\
     (k_ratio k = RFlat -> lower_ratio k < upper_ratio k -> 0 < kappa m))).
  { destruct LE as [L|L].
    - destruct (inner_integral k r AD ER L) as (kappa & C & H & PO). exists kappa. split; [easy|]. intros m MM. destruct (H m MM).
      split; [easy|]. split; [intros; lra|]. split; [easy|]. intros. now apply PO.
    - exists (fun _ => 0). split; [intros; apply continuous_const|]. intros. split; [lra|]. split; [easy|]. split; lra. }
  destruct KAP as (kappa & KC & KV). destruct AD as (M1 & M2 & AD).
  exists imf, r, kappa. split; [reflexivity|]. split; [reflexivity|]. split; [easy|]. split; [easy|]. split; [easy|].
  set (a := lower_ratio k) in *. set (b := upper_ratio k) in *. set (l := k_m1_min k) in *. set (h := k_m1_max k) in *. set (fb := k_fb k) in *.
  unfold quad_from at 1 3 in E. rewrite !(reqb_false l h) in E by lra.
  assert (CS : forall m, l <= m <= h -> continuous (imf_shape k) m) by (intros m MM; apply SG; lra).
  assert (GB : is_RInt_gen (fun m => quad_from (fun q => (m + m * q) * (fb * imf m * r (Some q) m)) a b) (at_right l) (at_left h)
             (RInt (fun m => m * (imf_shape k m * c) * (fb * kappa m)) l h)).
  { apply gen_continuous; [easy| |].
    - intros m MM. destruct (KV m) as (K1 & K2 & K3 & _); [lra|]. rewrite <- IV by lra. unfold quad_from.
      destruct (Req_dec a b) as [AB|AB]; [rewrite reqb_true by easy; rewrite K2 by easy; ring|].
      rewrite reqb_false by easy. unfold quad. apply gen_unique.
      assert (AB' : a < b) by lra.
      replace (m * imf m * (fb * kappa m)) with (kappa m * (m * imf m * fb)) by ring.
      refine (gen_ext _ _ _ _ _ AB' _ (gen_scale _ _ _ _ (m * imf m * fb) (K3 AB'))). intros q Q. cbv beta. ring.
    - intros m MM. apply continuous_mult_R; [apply continuous_mult_R; [apply continuous_id|]|].
      + apply continuous_mult_R; [now apply CS|apply continuous_const].
      + apply continuous_mult_R; [apply continuous_const|now apply KC]. }
  assert (GS : is_RInt_gen (fun m => m * ((1 - fb) * imf m)) (at_right l) (at_left h)
             (RInt (fun m => m * ((1 - fb) * (imf_shape k m * c))) l h)).
  { apply gen_continuous; [easy| |].
    - intros m MM. now rewrite <- IV by lra.
    - intros m MM. apply continuous_mult_R; [apply continuous_id|].
      apply continuous_mult_R; [apply continuous_const|]. apply continuous_mult_R; [now apply CS|apply continuous_const]. }
  unfold quad in E at 1 2. rewrite (gen_unique _ _ _ _ GB), (gen_unique _ _ _ _ GS) in E.
  match type of E with Ok ?s = _ => assert (M = s) as -> by congruence end.
  refine (gen_ext _ _ _ _ _ M2 _ (gen_plus _ _ _ _ _ _ GB GS)).
  intros m MM. cbv beta. destruct (KV m) as (K1 & K2 & K3 & _); [lra|]. unfold quad_from.
  destruct (Req_dec a b) as [AB|AB]; [rewrite reqb_true by easy; rewrite K2 by easy; ring|].
  rewrite reqb_false by easy. assert (AB' : a < b) by lra.
  unfold quad. rewrite (gen_unique _ _ _ (kappa m * (m * imf m * fb))); [ring|].
  refine (gen_ext _ _ _ _ _ AB' _ (gen_scale _ _ _ _ (m * imf m * fb) (K3 AB'))). intros q Q. cbv beta. ring.
Qed.
Lemma mean_mass_nonneg k M : admissible k -> get_mean_mass k = Ok M -> 0 <= M.
Proof.
  intros AD E. destruct (mean_mass_value k M AD E) as (imf & r & kappa & EI & ER & AB & _ & K & G).
  destruct (imf_facts k imf AD EI) as (_ & _ & IP & _). destruct AD as (M1 & M2 & FB & _).
  apply (gen_nonneg _ _ _ _ M2) with (2 := G). intros m MM. destruct (K m) as (K1 & _); [lra|].
  apply Rmult_le_pos; [apply Rmult_le_pos; [lra|apply IP]|].
  assert (0 <= k_fb k * kappa m) by (apply Rmult_le_pos; lra). lra.
Qed.

Lemma mean_mass_pos k M : admissible k -> get_mean_mass k = Ok M ->
  k_fb k < 1 \/ (k_ratio k = RFlat /\ lower_ratio k < upper_ratio k) -> 0 < M.
Proof.
  intros AD E H. destruct (mean_mass_value k M AD E) as (imf & r & kappa & EI & ER & AB & KC & K & G).
  destruct (imf_facts k imf AD EI) as (_ & _ & IP & c & CP & IV). pose proof (shape_good k AD) as SG. destruct AD as (M1 & M2 & FB & _).
  destruct (quad_positive (fun m => m * imf m * (1 - k_fb k + k_fb k * kappa m))
              (fun m => m * (imf_shape k m * c) * (1 - k_fb k + k_fb k * kappa m)) (k_m1_min k) (k_m1_max k) M2) as [P G'].
  - intros m MM. now rewrite IV by lra.
  - intros m MM. apply continuous_mult_R; [apply continuous_mult_R; [apply continuous_id|]|].
    + apply continuous_mult_R; [apply SG; lra|apply continuous_const].
    + apply (continuous_plus (V := R_NormedModule)); [apply continuous_const|]. apply continuous_mult_R; [apply continuous_const|now apply KC].
  - intros m MM. destruct (K m) as (K1 & K2 & K3 & K4); [lra|].
    apply Rmult_lt_0_compat; [apply Rmult_lt_0_compat; [lra|apply Rmult_lt_0_compat; [apply SG; lra|easy]]|].
    destruct H as [H|[H1 H2]].
    + assert (0 <= k_fb k * kappa m) by (apply Rmult_le_pos; lra). lra.
    + specialize (K4 H1 H2). destruct (Req_dec (k_fb k) 1) as [F|F]; [rewrite F; lra|].
      assert (0 <= k_fb k * kappa m) by (apply Rmult_le_pos; lra). lra.
  - rewrite <- (gen_unique _ _ _ _ G). exact P.
Qed.

(** ** Periods *)
Lemma sana_nonneg lo hi pdf p m v : Sana12Period lo hi = Ok pdf -> pdf p m = Ok (Some v) -> 0 <= v.
Proof.
  intros E V.
  destruct (Rle_lt_dec lo 0) as [X|A]; [rewrite (proj2 (C39_sana12 lo hi)) in E by lra; discriminate|].
  destruct (Rle_lt_dec hi lo) as [X|B]; [rewrite (proj2 (C39_sana12 lo hi)) in E by lra; discriminate|].
  revert E. unfold Sana12Period. rewrite (rleb_false lo 0), (rleb_false hi lo) by lra. cbv zeta.
  pose proof (log10_lt lo hi A B) as L. set (a := log10 lo) in *. set (b := log10 hi) in *.
  assert (Q : quad (fun _ => 1) a b = b - a).
  { apply quad_ordinary; [easy|intros; apply continuous_one|].
    apply (is_RInt_value _ _ _ _ (b - a) (is_RInt_const (V := R_NormedModule) a b 1)). exact (Rmult_1_r _). }
  rewrite Q. rewrite (reqb_false (b - a) 0) by lra. cbn [orb].
  set (h := fun x => Rpower (Rmax x (15/100)) (- (55/100))).
  destruct (quad_positive h h a b L) as [HP HG]; [easy|intros; apply continuous_sana|intros; apply Rpower_pos|].
  set (J := quad h a b) in *.
  assert (QC : forall C, quad (sana_high C lo hi) a b = J * C).
  { intros C. unfold quad. apply gen_unique.
    eapply gen_ext; [easy| |apply (gen_scale _ _ _ _ C HG)]. intros x X. cbv beta. rewrite sana_high_value by (unfold a, b in X; lra).
    unfold h. ring. }
  destruct (sana_C lo hi) as [C|]; cbn [lift1].
  2:{ set (g := fun p m => _). intros E. assert (pdf = g) by congruence. subst pdf. unfold g in V. cbn [lift2] in V.
      destruct (rleb lo p && rleb p hi); [|assert (v = 0) by congruence; lra]. destruct (rleb m 0); [discriminate|].
      destruct (rleb m 15); [|discriminate]. assert (v = 1 * (1 / (b - a))) as -> by congruence.
      rewrite Rmult_1_l. apply Rlt_le, Rdiv_lt_0_compat; lra. }
  rewrite QC. destruct (Req_dec (J * C) 0) as [Z|NZ]; [rewrite reqb_true by easy; discriminate|]. rewrite reqb_false by easy.
  set (g := fun p m => _). intros E. assert (pdf = g) by congruence. subst pdf. unfold g in V. cbn [lift2] in V.
  destruct (rleb lo p && rleb p hi) eqn:IN; [|assert (v = 0) by congruence; lra]. destruct (rleb m 0); [discriminate|].
  apply andb_prop in IN. rewrite !rleb_iff in IN.
  destruct (rleb m 15).
  - assert (v = 1 * (1 / (b - a))) as -> by congruence. rewrite Rmult_1_l. apply Rlt_le, Rdiv_lt_0_compat; lra.
  - assert (v = sana_high C lo hi (log10 p) * (1 / (J * C))) as -> by congruence.
    rewrite sana_high_value.
    2:{ split; apply log10_le; lra. }
    fold (h (log10 p)). assert (0 < h (log10 p)) by apply Rpower_pos.
    assert (C <> 0) by (intros ->; apply NZ; ring). replace (C * h (log10 p) * (1 / (J * C))) with (h (log10 p) / J) by (field; split; lra).
    apply Rlt_le, Rdiv_lt_0_compat; lra.
Qed.
Lemma period_nonneg k per P m q v : get_period_pdf k = Ok per -> per P m q = Ok (Some v) -> 0 <= v.
Proof.
  unfold get_period_pdf. destruct (k_orbit k) as [lo hi|slope lo hi| |lo hi| |]; try discriminate.
  - destruct (Sana12Period lo hi) as [pdf|] eqn:E; [|discriminate]. cbn [rbind]. intros H V.
    match type of H with Ok ?s = _ => assert (per = s) by congruence; subst per end. cbn in V.
    destruct P as [p|]; [now apply (sana_nonneg lo hi pdf p m)|]. assert (v = 0) by congruence. lra.
  - destruct (PowerLawPeriod slope lo hi) as [pdf|] eqn:E; [|discriminate]. cbn [rbind]. intros H V.
    match type of H with Ok ?s = _ => assert (per = s) by congruence; subst per end. cbn in V.
    assert (v = on_number pdf P) as -> by congruence. destruct P as [p|]; cbn [on_number]; [|lra].
    destruct (C39_power_law_period slope lo hi) as [W1 W2].
    destruct (Rle_lt_dec lo 0) as [X|A]; [rewrite W2 in E by lra; discriminate|].
    destruct (Rle_lt_dec hi lo) as [X|B]; [rewrite W2 in E by lra; discriminate|].
    destruct W1 as (f & EF & Z & (_ & D & _) & _); [easy|]. assert (f = pdf) by congruence. subst f.
    destruct (Rlt_le_dec p lo) as [Y|Y]; [rewrite Z by lra; lra|]. rewrite <- (pow10_log10 p) by lra. apply D.
  - destruct (LogUniform lo hi) as [pdf|] eqn:E; [|discriminate]. cbn [rbind]. intros H V.
    match type of H with Ok ?s = _ => assert (per = s) by congruence; subst per end. cbv zeta in V.
    set (a := lift2 _ P q) in V. assert (v = on_number pdf a * (2 / 3)) as -> by congruence. destruct a as [x|]; cbn [on_number]; [|lra].
    destruct (C39_log_uniform lo hi) as [W1 W2].
    destruct (Rle_lt_dec lo 0) as [X|A]; [rewrite W2 in E by lra; discriminate|].
    destruct (Rle_lt_dec hi lo) as [X|B]; [rewrite W2 in E by lra; discriminate|].
    destruct W1 as (f & EF & (_ & D & _) & _); [easy|]. assert (f = pdf) by congruence. subst f.
    specialize (D x). pose proof ln10_pos. apply Rmult_le_pos; [|lra].
    apply (Rmult_le_reg_r (/ ln 10)); [now apply Rinv_0_lt_compat|]. rewrite Rmult_0_l. exact D.
Qed.

(** ** The full density and the weights *)
Lemma pdf_parts k pdf : get_pdf k = Ok pdf ->
  exists imf r per, get_IMF_pdf k = Ok imf /\ get_mass_ratio_pdf k = Ok r /\ get_period_pdf k = Ok per /\
  forall m q P b, pdf m q P b = rbind (per P m q) (fun p =>
    Ok (if b then lift1 (fun p => k_fb k * imf m * r q m * p) p else Some ((1 - k_fb k) * imf m))).
Proof.
  unfold get_pdf, get_binary_fraction_pdf. destruct (get_IMF_pdf k) as [imf|]; [|discriminate].
  destruct (get_mass_ratio_pdf k) as [r|]; [|discriminate]. destruct (k_fb_const k); [|discriminate].
  destruct (get_period_pdf k) as [per|]; [|discriminate]. cbn [rbind]. intros H.
  match type of H with Ok ?s = _ => assert (pdf = s) by congruence; subst pdf end.
  exists imf, r, per. repeat split. intros m q P [|]; reflexivity.
Qed.
Lemma pdf_nonneg k pdf m q P b v : admissible k -> get_pdf k = Ok pdf -> pdf m q P b = Ok (Some v) -> 0 <= v.
Proof.
  intros AD E V. destruct (pdf_parts k pdf E) as (imf & r & per & EI & ER & EP & H). rewrite H in V.
  destruct (per P m q) as [p|] eqn:EV; [|discriminate]. cbn [rbind] in V.
  destruct (imf_facts k imf AD EI) as (_ & _ & IP & _). specialize (IP m). pose proof (ratio_nonneg k r ER q m) as RP.
  destruct AD as (_ & _ & FB & _). destruct b.
  - destruct p as [p|]; [|discriminate]. pose proof (period_nonneg k per P m q p EP EV) as PP. cbn [lift1] in V.
    assert (v = k_fb k * imf m * r q m * p) as -> by congruence. repeat apply Rmult_le_pos; lra.
  - assert (v = (1 - k_fb k) * imf m) as -> by congruence. apply Rmult_le_pos; lra.
Qed.
Lemma all_ok_nth {A} (l : list (result A)) xs : all_ok l = Ok xs -> length xs = length l /\ forall i r, nth_error l i = Some r -> exists x, r = Ok x /\ nth_error xs i = Some x.
Proof.
  revert xs. induction l as [|r l IH]; cbn; intros xs E.
  - assert (xs = []) by congruence. subst. split; [easy|]. intros [|i]; discriminate.
  - destruct r as [x|]; [|discriminate]. cbn in E. destruct (all_ok l) as [ys|]; [|discriminate]. cbn in E. assert (xs = x :: ys) by congruence. subst.
    destruct (IH ys eq_refl) as [L N]. split; [cbn; now f_equal|]. intros [|i] r; cbn; [|apply N]. intros H. exists x. split; congruence.
Qed.
Lemma nth_combine {A B} (xs : list A) (ys : list B) i x y : nth_error xs i = Some x -> nth_error ys i = Some y -> nth_error (combine xs ys) i = Some (x, y).
Proof. revert ys i. induction xs as [|a xs IH]; intros [|b ys] [|i]; cbn; try discriminate; [congruence|apply IH]. Qed.
