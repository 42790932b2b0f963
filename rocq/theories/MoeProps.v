(** Sampling after Moe & Di Stefano (C145 to C147) *)
From Coq Require Import String List Bool Reals Arith Lra Lia.
From Verif Require Import PyBase MoeModel MoeProofs.
Import ListNotations.
Open Scope string_scope.
Open Scope R_scope.
Open Scope list_scope.

(** ** C145: the fitted functions have no jumps *)
Lemma ln10_pos : 0 < ln 10.
Proof. rewrite <- ln_1. apply ln_increasing; lra. Qed.
Lemma lg_lt a b : 0 < a -> a < b -> lg a < lg b.
Proof. intros A B. unfold lg, Rdiv. apply Rmult_lt_compat_r; [apply Rinv_0_lt_compat; apply ln10_pos|]. apply ln_increasing; assumption. Qed.
Lemma lg_le a b : 0 < a -> a <= b -> lg a <= lg b.
Proof. intros A [B|B]; [left; apply lg_lt; assumption|subst; lra]. Qed.
Lemma lg_le_iff a b : 0 < a -> 0 < b -> (lg a <= lg b <-> a <= b).
Proof. intros A B. split; [|apply lg_le; exact A]. intro L. apply Rnot_lt_le. intro C. pose proof (lg_lt b a B C). lra. Qed.
Lemma lg_pow10 x : lg (pow10 x) = x.
Proof. unfold lg, pow10, Rpower. rewrite ln_exp. field. pose proof ln10_pos. lra. Qed.
Lemma pow10_lg x : 0 < x -> pow10 (lg x) = x.
Proof. intro P. unfold lg, pow10, Rpower. replace (ln x / ln 10 * ln 10) with (ln x) by (field; pose proof ln10_pos; lra). apply exp_ln. exact P. Qed.
Lemma pow10_pos x : 0 < pow10 x.
Proof. apply exp_pos. Qed.
Lemma lg_power x n : 0 < x -> lg (x ^ n) = INR n * lg x.
Proof. intro P. unfold lg. rewrite ln_pow by exact P. unfold Rdiv. ring. Qed.
(** The masses of the supporting points *)
Lemma lg_range M : 0.8 <= M <= 40 -> - (1 / 3) <= lg M <= 2.
Proof.
  intros [A B]. assert (T : lg 10 = 1) by (unfold lg; field; pose proof ln10_pos; lra). split.
  - assert (X : -1 <= 3 * lg M). { replace (3 * lg M) with (lg (M ^ 3)) by (rewrite lg_power by lra; cbn; lra). replace (-1) with (lg (/ 10)) by (unfold lg; rewrite ln_Rinv by lra; field; pose proof ln10_pos; lra). apply lg_le; [lra|]. apply Rle_trans with (0.8 ^ 3); [lra|]. apply pow_incr. lra. } lra.
  - apply Rle_trans with (lg (10 ^ 2)); [apply lg_le; lra|]. rewrite lg_power by lra. rewrite T. cbn. lra.
Qed.
Definition lipschitz (D : R -> Prop) (K : R) (f : R -> R) : Prop := forall x y, D x -> D y -> Rabs (f x - f y) <= K * Rabs (x - y).
Lemma glue (D : R -> Prop) K c f g : D c -> f c = g c -> lipschitz (fun x => D x /\ x <= c) K f -> lipschitz (fun x => D x /\ c <= x) K g -> lipschitz D K (fun x => if Rle_dec x c then f x else g x).
Proof.
  intros DC E F G x y DX DY. destruct (Rle_dec x c) as [X|X]; destruct (Rle_dec y c) as [Y|Y].
  - apply F; auto.
  - assert (Y' : c <= y) by lra. pose proof (F x c (conj DX X) (conj DC (Rle_refl c))) as A. pose proof (G c y (conj DC (Rle_refl c)) (conj DY Y')) as B. replace (f x - g y) with ((f x - f c) + (g c - g y)) by lra. eapply Rle_trans; [apply Rabs_triang|]. rewrite (Rabs_left1 (x - c)) in A by lra. rewrite (Rabs_left1 (c - y)) in B by lra. rewrite (Rabs_left1 (x - y)) by lra. lra.
  - assert (X' : c <= x) by lra. pose proof (F c y (conj DC (Rle_refl c)) (conj DY Y)) as A. pose proof (G x c (conj DX X') (conj DC (Rle_refl c))) as B. replace (g x - f y) with ((g x - g c) + (f c - f y)) by lra. eapply Rle_trans; [apply Rabs_triang|]. rewrite (Rabs_right (c - y)) in A by lra. rewrite (Rabs_right (x - c)) in B by lra. rewrite (Rabs_right (x - y)) by lra. lra.
  - apply G; split; auto; lra.
Qed.
Lemma affine (D : R -> Prop) K a b e : Rabs b <= K -> lipschitz D K (fun x => a + b * (x - e)).
Proof. intros B x y _ _. replace (a + b * (x - e) - (a + b * (y - e))) with (b * (x - y)) by ring. rewrite Rabs_mult. apply Rmult_le_compat_r; [apply Rabs_pos|exact B]. Qed.
Lemma lip_ext (D : R -> Prop) K f g : (forall x, D x -> f x = g x) -> lipschitz D K f -> lipschitz D K g.
Proof. intros E F x y DX DY. rewrite <- !E by assumption. apply F; assumption. Qed.
Lemma weaken (D : R -> Prop) K K' f : K <= K' -> lipschitz D K f -> lipschitz D K' f.
Proof. intros L F x y DX DY. eapply Rle_trans; [apply F; assumption|]. apply Rmult_le_compat_r; [apply Rabs_pos|exact L]. Qed.
Ltac pieces := intros x y _ _; unfold Rabs; repeat match goal with |- context [Rle_dec ?a ?b] => destruct (Rle_dec a b) | |- context [Rlt_dec ?a ?b] => destruct (Rlt_dec a b) | |- context [Rcase_abs ?a] => destruct (Rcase_abs a) end; lra.
Lemma gl_1p2_lip D : lipschitz D 0.3 gl_1p2. Proof. unfold gl_1p2. pieces. Qed.
Lemma gl_3p5_lip D : lipschitz D 0.4 gl_3p5. Proof. unfold gl_3p5. pieces. Qed.
Lemma gl_6_lip D : lipschitz D 0.9 gl_6. Proof. unfold gl_6. pieces. Qed.
Lemma gs_3p5_lip D : lipschitz D 0.3 gs_3p5. Proof. unfold gs_3p5. pieces. Qed.
Lemma gs_6_lip D : lipschitz D 0.5 gs_6. Proof. unfold gs_6. pieces. Qed.
Lemma eta_lip a b D : 0 <= b <= 0.7 -> lipschitz D 17.5 (fun P => if Rle_dec 0.7 P then a - b / (P - 0.5) else a - b / 0.2).
Proof.
  intro B. assert (G : forall u v, 0.7 <= u -> u <= v -> 0 <= (a - b / (v - 0.5)) - (a - b / (u - 0.5)) <= 17.5 * (v - u)).
  { intros u v U V. replace (a - b / (v - 0.5) - (a - b / (u - 0.5))) with (b * (v - u) / ((u - 0.5) * (v - 0.5))) by (field; lra). assert (D1 : 0.04 <= (u - 0.5) * (v - 0.5)) by nra. assert (I1 : 0 < / ((u - 0.5) * (v - 0.5))) by (apply Rinv_0_lt_compat; lra). assert (I2 : / ((u - 0.5) * (v - 0.5)) <= 25). { replace 25 with (/ 0.04) by lra. apply Rinv_le_contravar; lra. } unfold Rdiv. split; [apply Rmult_le_pos; [nra|lra]|]. apply Rle_trans with (0.7 * (v - u) * 25); [|lra]. apply Rmult_le_compat; nra. }
  intros x y _ _. assert (J : forall v, 0.7 <= v -> 0 <= (a - b / (v - 0.5)) - (a - b / 0.2) <= 17.5 * (v - 0.7)). { intros v V. pose proof (G 0.7 v ltac:(lra) V) as H. replace (0.7 - 0.5) with 0.2 in H by lra. exact H. }
  destruct (Rle_dec 0.7 x) as [X|X]; destruct (Rle_dec 0.7 y) as [Y|Y].
  - destruct (Rle_dec x y) as [L|L]; [pose proof (G x y X L); rewrite !Rabs_left1 by lra; lra|pose proof (G y x Y ltac:(lra)); rewrite !Rabs_right by lra; lra].
  - pose proof (J x X). rewrite !Rabs_right by lra. lra.
  - pose proof (J y Y). rewrite !Rabs_left1 by lra. lra.
  - replace (a - b / 0.2 - (a - b / 0.2)) with 0 by lra. rewrite Rabs_R0. pose proof (Rabs_pos (x - y)). lra.
Qed.
Lemma eta_3_lip D : lipschitz D 17.5 eta_3.
Proof. apply lip_ext with (2 := eta_lip 0.6 0.7 D ltac:(lra)). intros x _. unfold eta_3. destruct (Rle_dec 0.7 x); lra. Qed.
Lemma eta_7_lip D : lipschitz D 17.5 eta_7.
Proof. apply lip_ext with (2 := eta_lip 0.9 0.2 D ltac:(lra)). intros x _. unfold eta_7. destruct (Rle_dec 0.7 x); lra. Qed.
(** Interpolation between two masses: a mean whose weights do not depend on the values *)
Lemma interp2 x a b f g : a < b -> a <= x <= b -> interp x [(a, f); (b, g)] = f + (x - a) / (b - a) * (g - f).
Proof. intros AB X. rewrite interp_cons. destruct (Rlt_dec x b) as [Y|Y]; [destruct (Rlt_dec x a); [lra|field; lra]|]. assert (x = b) by lra. subst x. cbn. field. lra. Qed.
Lemma mean_bound t f g f' g' d : 0 <= t <= 1 -> Rabs (f - f') <= d -> Rabs (g - g') <= d -> Rabs ((f + t * (g - f)) - (f' + t * (g' - f'))) <= d.
Proof.
  intros T A B. replace (f + t * (g - f) - (f' + t * (g' - f'))) with ((1 - t) * (f - f') + t * (g - g')) by ring. eapply Rle_trans; [apply Rabs_triang|]. rewrite !Rabs_mult, (Rabs_right (1 - t)), (Rabs_right t) by lra. nra.
Qed.
Lemma weight a b x : a < b -> a <= x <= b -> 0 <= (x - a) / (b - a) <= 1.
Proof. intros AB X. split; [apply Rmult_le_pos; [lra|left; apply Rinv_0_lt_compat; lra]|]. apply (Rmult_le_reg_r (b - a)); [lra|]. unfold Rdiv. rewrite Rmult_assoc, Rinv_l by lra. lra. Qed.
Lemma interp2_bound x a b f g f' g' d : a < b -> a <= x <= b -> Rabs (f - f') <= d -> Rabs (g - g') <= d -> Rabs (interp x [(a, f); (b, g)] - interp x [(a, f'); (b, g')]) <= d.
Proof. intros AB X A B. rewrite !interp2 by assumption. apply mean_bound; [apply weight; assumption|exact A|exact B]. Qed.
Lemma by_mass_bound m1 m2 m3 f1 f2 f3 f1' f2' f3' d M : 0 < m1 < m2 -> m2 < m3 -> Rabs (f1 - f1') <= d -> Rabs (f2 - f2') <= d -> Rabs (f3 - f3') <= d -> Rabs (by_mass m1 m2 m3 f1 f2 f3 M - by_mass m1 m2 m3 f1' f2' f3' M) <= d.
Proof.
  intros A B D1 D2 D3. unfold by_mass. destruct (Rle_dec M m1); [exact D1|]. destruct (Rle_dec M m2); [apply interp2_bound; try assumption; [apply lg_lt; lra|split; apply lg_le; lra]|]. destruct (Rle_dec M m3); [apply interp2_bound; try assumption; [apply lg_lt; lra|split; apply lg_le; lra]|exact D3].
Qed.
Lemma exp_lip a b : 0 <= a <= b -> 0 <= exp (- a) - exp (- b) <= b - a.
Proof.
  intro H. assert (E : exp (- b) = exp (- a) * exp (- (b - a))) by (rewrite <- exp_plus; f_equal; lra). assert (A0 : 0 < exp (- a)) by apply exp_pos. assert (A1 : exp (- a) <= 1). { rewrite <- exp_0. destruct (Req_dec a 0) as [->|N]; [replace (- 0) with 0 by lra; lra|left; apply exp_increasing; lra]. } assert (L : 1 - (b - a) <= exp (- (b - a))). { destruct (Req_dec (b - a) 0) as [->|N]; [replace (- 0) with 0 by lra; rewrite exp_0; lra|]. pose proof (exp_ineq1 (- (b - a)) ltac:(lra)). lra. } assert (U : exp (- (b - a)) <= 1). { rewrite <- exp_0. destruct (Req_dec (b - a) 0) as [->|N]; [replace (- 0) with 0 by lra; lra|left; apply exp_increasing; lra]. } rewrite E. split; nra.
Qed.
Definition allM (M : R) : Prop := 0.8 <= M <= 40.
Theorem C145_period : forall M P P', allM M ->
  Rabs (gamma_large M P - gamma_large M P') <= 0.9 * Rabs (P - P') /\ Rabs (gamma_small M P - gamma_small M P') <= 0.5 * Rabs (P - P') /\ Rabs (eta M P - eta M P') <= 17.5 * Rabs (P - P') /\
  Rabs (ftwin M P - ftwin M P') <= 0.9 * Rabs (P - P') /\ Rabs (flogP M P - flogP M P') <= 0.3 * Rabs (P - P').
Proof.
  intros M P P' AM. pose proof (lg_range M AM) as L. pose proof (Rabs_pos (P - P')) as RP. split; [|split; [|split; [|split]]].
  - unfold gamma_large. apply by_mass_bound; try lra; [pose proof (gl_1p2_lip (fun _ => True) P P' I I)|pose proof (gl_3p5_lip (fun _ => True) P P' I I)|pose proof (gl_6_lip (fun _ => True) P P' I I)]; lra.
  - unfold gamma_small. apply by_mass_bound; try lra; [replace (0.3 - 0.3) with 0 by lra; rewrite Rabs_R0; lra|pose proof (gs_3p5_lip (fun _ => True) P P' I I)|pose proof (gs_6_lip (fun _ => True) P P' I I)]; lra.
  - unfold eta. pose proof (eta_3_lip (fun _ => True) P P' I I). pose proof (eta_7_lip (fun _ => True) P P' I I). destruct (Rle_dec M 3); [assumption|]. destruct (Rle_dec M 7); [|assumption]. apply interp2_bound; try assumption; [apply lg_lt; lra|split; apply lg_le; lra].
  - unfold ftwin, ftwin_short. set (F := 0.3 - 0.15 * lg M). assert (F1 : 0 <= F <= 0.35) by (unfold F; lra). set (w := logPtwin M - 1). assert (W : 0.5 <= w) by (unfold w, logPtwin; destruct (Rle_dec 6.5 M); lra). replace (logPtwin M) with (1 + w) by (unfold w; lra). clearbody w F. set (t := F / w). assert (TW : F = t * w) by (unfold t; field; lra). assert (T : 0 <= t <= 0.7). { unfold t. split; [apply Rmult_le_pos; [lra|left; apply Rinv_0_lt_compat; lra]|]. apply (Rmult_le_reg_r w); [lra|]. unfold Rdiv. rewrite Rmult_assoc, Rinv_l by lra. nra. }
    assert (V : forall x, F * (1 - (x - 1) / w) = t * (w - (x - 1))) by (intro x; unfold t; field; lra). rewrite !V. rewrite TW. clear V TW F1. clearbody t.
    assert (Z : lipschitz (fun _ => True) 0.9 (fun x => if Rle_dec x 1 then t * w else if Rle_dec x (1 + w) then t * w + - t * (x - 1) else 0)).
    { apply glue; [exact I|destruct (Rle_dec 1 (1 + w)); lra| |].
      - apply lip_ext with (f := fun x => t * w + 0 * (x - 0)); [intros; ring|]. apply affine. rewrite Rabs_R0. lra.
      - apply glue; [split; [exact I|lra]|ring| |].
        + apply affine. rewrite Rabs_Ropp, Rabs_right by lra. lra.
        + apply lip_ext with (f := fun x => 0 + 0 * (x - 0)); [intros; ring|]. apply affine. rewrite Rabs_R0. lra. }
    specialize (Z P P' I I). cbv beta in Z. revert Z. destruct (Rle_dec P 1), (Rle_dec P' 1), (Rle_dec P (1 + w)), (Rle_dec P' (1 + w)), (Rle_dec (1 + w) P), (Rle_dec (1 + w) P'); intro Z; try (exfalso; lra); try (match goal with |- Rabs ?a <= _ => match type of Z with Rabs ?b <= _ => replace a with b by nra end end; exact Z).
  - assert (Z : lipschitz (fun _ => True) 0.3 (flogP M)); [|exact (Z P P' I I)]. unfold flogP. assert (B1 : Rabs (f_2p7 M - f_short M - 0.018 * 0.7) <= 0.3) by (unfold f_2p7, f_short; apply Rabs_le; nra). assert (B2 : Rabs ((f_5p5 M - f_2p7 M - 0.018 * 0.7) / 2.1) <= 0.3) by (unfold f_2p7, f_5p5; apply Rabs_le; nra). assert (B3 : 0 <= f_5p5 M <= 1) by (unfold f_5p5; nra).
    apply glue; [exact I|destruct (Rle_dec 1 2); lra| |].
    + apply lip_ext with (f := fun x => f_short M + 0 * (x - 0)); [intros; ring|]. apply affine. rewrite Rabs_R0. lra.
    + apply glue; [split; [exact I|lra]|destruct (Rle_dec 2 3.4); lra| |].
      * apply lip_ext with (f := fun x => f_short M + (f_2p7 M - f_short M - 0.018 * 0.7) * (x - 1)); [intros; lra|]. apply affine. exact B1.
      * apply glue; [split; [split; [exact I|lra]|lra]|destruct (Rle_dec 3.4 5.5); lra| |].
        -- apply affine. rewrite Rabs_right; lra.
        -- apply glue; [repeat split; lra|replace (- 0.3 * (5.5 - 5.5)) with 0 by lra; rewrite exp_0; lra| |].
           ++ apply lip_ext with (f := fun x => (f_2p7 M + 0.018 * 0.7) + ((f_5p5 M - f_2p7 M - 0.018 * 0.7) / 2.1) * (x - 3.4)); [intros; lra|]. apply affine. exact B2.
           ++ assert (E : forall x y, 5.5 <= x -> x <= y -> 0 <= f_5p5 M * exp (- 0.3 * (x - 5.5)) - f_5p5 M * exp (- 0.3 * (y - 5.5)) <= 0.3 * (y - x)). { intros x y X Y. pose proof (exp_lip (0.3 * (x - 5.5)) (0.3 * (y - 5.5)) ltac:(lra)) as H. replace (- (0.3 * (x - 5.5))) with (- 0.3 * (x - 5.5)) in H by lra. replace (- (0.3 * (y - 5.5))) with (- 0.3 * (y - 5.5)) in H by lra. split; nra. }
              intros x y [_ X] [_ Y]. destruct (Rle_dec x y) as [Q|Q]; [pose proof (E x y X Q); rewrite (Rabs_right (_ - _)), (Rabs_left1 (x - y)) by lra; lra|pose proof (E y x Y ltac:(lra)); rewrite (Rabs_left1 (_ - _)), (Rabs_right (x - y)) by lra; lra].
Qed.
Print Assumptions C145_period.
(** Over the mass of the primary *)
Lemma two_masses_lip m1 m2 f1 f2 : 0 < m1 < m2 -> exists K, 0 <= K /\ lipschitz (fun _ => True) K (fun L => if Rle_dec L (lg m1) then f1 else if Rle_dec L (lg m2) then f1 + (f2 - f1) / (lg m2 - lg m1) * (L - lg m1) else f2).
Proof.
  intros A. pose proof (lg_lt m1 m2 ltac:(lra) ltac:(lra)) as L. exists (Rabs ((f2 - f1) / (lg m2 - lg m1))). split; [apply Rabs_pos|]. apply glue; [exact I|destruct (Rle_dec (lg m1) (lg m2)); [ring|lra]| |].
  - apply lip_ext with (f := fun x => f1 + 0 * (x - 0)); [intros; ring|]. apply affine. rewrite Rabs_R0. apply Rabs_pos.
  - apply glue; [split; [exact I|lra]|field; lra| |].
    + apply affine. apply Rle_refl.
    + apply lip_ext with (f := fun x => f2 + 0 * (x - 0)); [intros; ring|]. apply affine. rewrite Rabs_R0. apply Rabs_pos.
Qed.
Lemma three_masses_lip m1 m2 m3 f1 f2 f3 : 0 < m1 < m2 -> m2 < m3 -> exists K, forall M M', 0 < M -> 0 < M' -> Rabs (by_mass m1 m2 m3 f1 f2 f3 M - by_mass m1 m2 m3 f1 f2 f3 M') <= K * Rabs (lg M - lg M').
Proof.
  intros A B. destruct (two_masses_lip m1 m2 f1 f2 A) as (K1 & P1 & L1). destruct (two_masses_lip m2 m3 f2 f3 ltac:(lra)) as (K2 & P2 & L2). exists (K1 + K2). intros M M' HM HM'.
  assert (E : forall M, 0 < M -> by_mass m1 m2 m3 f1 f2 f3 M = (fun L => if Rle_dec L (lg m1) then f1 else if Rle_dec L (lg m2) then f1 + (f2 - f1) / (lg m2 - lg m1) * (L - lg m1) else f2) (lg M) + ((fun L => if Rle_dec L (lg m2) then f2 else if Rle_dec L (lg m3) then f2 + (f3 - f2) / (lg m3 - lg m2) * (L - lg m2) else f3) (lg M) - f2)).
  { clear M M' HM HM'. intros M HM. cbv beta. unfold by_mass. pose proof (lg_lt m1 m2 ltac:(lra) ltac:(lra)). pose proof (lg_lt m2 m3 ltac:(lra) ltac:(lra)). pose proof (lg_le_iff M m1 HM ltac:(lra)) as I1. pose proof (lg_le_iff M m2 HM ltac:(lra)) as I2. pose proof (lg_le_iff M m3 HM ltac:(lra)) as I3.
    destruct (Rle_dec M m1) as [C1|C1]; [apply I1 in C1; destruct (Rle_dec (lg M) (lg m1)); [|contradiction]; destruct (Rle_dec (lg M) (lg m2)); lra|]. destruct (Rle_dec (lg M) (lg m1)) as [D1|D1]; [apply I1 in D1; contradiction|]. destruct (Rle_dec M m2) as [C2|C2]; [apply I2 in C2; destruct (Rle_dec (lg M) (lg m2)); [|contradiction]; rewrite interp2 by lra; field; lra|]. destruct (Rle_dec (lg M) (lg m2)) as [D2|D2]; [apply I2 in D2; contradiction|]. destruct (Rle_dec M m3) as [C3|C3]; [apply I3 in C3; destruct (Rle_dec (lg M) (lg m3)); [|contradiction]; rewrite interp2 by lra; field; lra|]. destruct (Rle_dec (lg M) (lg m3)) as [D3|D3]; [apply I3 in D3; contradiction|lra]. }
  rewrite (E M HM), (E M' HM'). cbv beta. specialize (L1 (lg M) (lg M') I I). specialize (L2 (lg M) (lg M') I I). cbv beta in L1, L2. match goal with |- Rabs (?a + (?b - f2) - (?c + (?d - f2))) <= _ => replace (a + (b - f2) - (c + (d - f2))) with ((a - c) + (b - d)) by ring end. eapply Rle_trans; [apply Rabs_triang|]. lra.
Qed.
Theorem C145_mass : forall P, exists K, forall M M', 0 < M -> 0 < M' ->
  Rabs (gamma_large M P - gamma_large M' P) <= K * Rabs (lg M - lg M') /\ Rabs (gamma_small M P - gamma_small M' P) <= K * Rabs (lg M - lg M') /\ Rabs (eta M P - eta M' P) <= K * Rabs (lg M - lg M') /\ Rabs (logPtwin M - logPtwin M') <= Rabs (M - M').
Proof.
  intro P. destruct (three_masses_lip 1.2 3.5 6 (gl_1p2 P) (gl_3p5 P) (gl_6 P) ltac:(lra) ltac:(lra)) as (K1 & L1). destruct (three_masses_lip 1.2 3.5 6 0.3 (gs_3p5 P) (gs_6 P) ltac:(lra) ltac:(lra)) as (K2 & L2). destruct (two_masses_lip 3 7 (eta_3 P) (eta_7 P) ltac:(lra)) as (K3 & P3 & L3). exists (Rabs K1 + Rabs K2 + K3). intros M M' HM HM'. pose proof (Rabs_pos (lg M - lg M')) as RP. pose proof (Rle_abs K1). pose proof (Rle_abs K2). pose proof (Rabs_pos K1). pose proof (Rabs_pos K2).
  split; [|split; [|split]].
  - eapply Rle_trans; [apply L1; assumption|]. apply Rmult_le_compat_r; lra.
  - eapply Rle_trans; [apply L2; assumption|]. apply Rmult_le_compat_r; lra.
  - eapply Rle_trans with (K3 * Rabs (lg M - lg M')); [|apply Rmult_le_compat_r; lra].
    assert (E : forall M, 0 < M -> eta M P = (fun L => if Rle_dec L (lg 3) then eta_3 P else if Rle_dec L (lg 7) then eta_3 P + (eta_7 P - eta_3 P) / (lg 7 - lg 3) * (L - lg 3) else eta_7 P) (lg M)).
    { clear M M' HM HM' RP. intros M HM. cbv beta. unfold eta. pose proof (lg_lt 3 7 ltac:(lra) ltac:(lra)). pose proof (lg_le_iff M 3 HM ltac:(lra)) as I1. pose proof (lg_le_iff M 7 HM ltac:(lra)) as I2. destruct (Rle_dec M 3) as [C1|C1]; [apply I1 in C1; destruct (Rle_dec (lg M) (lg 3)); [reflexivity|contradiction]|]. destruct (Rle_dec (lg M) (lg 3)) as [D1|D1]; [apply I1 in D1; contradiction|]. destruct (Rle_dec M 7) as [C2|C2]; [apply I2 in C2; destruct (Rle_dec (lg M) (lg 7)); [|contradiction]; rewrite interp2 by lra; field; lra|]. destruct (Rle_dec (lg M) (lg 7)) as [D2|D2]; [apply I2 in D2; contradiction|reflexivity]. }
    rewrite (E M HM), (E M' HM'). apply (L3 (lg M) (lg M') I I).
  - unfold logPtwin. destruct (Rle_dec 6.5 M), (Rle_dec 6.5 M'); unfold Rabs; repeat match goal with |- context [Rcase_abs ?a] => destruct (Rcase_abs a) end; lra.
Qed.
Print Assumptions C145_mass.
Lemma flogP_pos M P : allM M -> 0 < flogP M P.
Proof.
  intro AM. pose proof (lg_range M AM) as L. unfold flogP. assert (S : 0 < f_short M) by (unfold f_short; nra). assert (F : 0.0126 < f_2p7 M) by (unfold f_2p7; nra). assert (G : 0 < f_5p5 M) by (unfold f_5p5; nra).
  destruct (Rle_dec P 1); [exact S|]. destruct (Rle_dec P 2); [replace ((f_2p7 M - f_short M - 0.018 * 0.7) * (P - 1) / (1.7 - 0.7)) with ((f_2p7 M - f_short M - 0.0126) * (P - 1)) by lra; nra|]. destruct (Rle_dec P 3.4); [lra|]. destruct (Rle_dec P 5.5); [|apply Rmult_lt_0_compat; [exact G|apply exp_pos]].
  replace ((f_5p5 M - f_2p7 M - 0.018 * 0.7) * (P - 2.7 - 0.7) / (2.8 - 0.7)) with ((f_5p5 M - f_2p7 M - 0.0126) * ((P - 3.4) / 2.1)) by lra. assert (T : 0 <= (P - 3.4) / 2.1 <= 1) by lra. nra.
Qed.
Lemma ftwin_range M P : allM M -> 0 <= ftwin M P < 1.
Proof.
  intro AM. pose proof (lg_range M AM) as L. unfold ftwin, ftwin_short. assert (F : 0 <= 0.3 - 0.15 * lg M <= 0.35) by lra. set (f := 0.3 - 0.15 * lg M) in *. clearbody f. destruct (Rle_dec (logPtwin M) P) as [A|A]; [lra|]. destruct (Rle_dec P 1) as [B|B]; [lra|]. assert (W : 0 <= (P - 1) / (logPtwin M - 1) <= 1) by (apply weight; lra). nra.
Qed.
Lemma probbin_range M P : 0 <= probbin M P <= 1.
Proof.
  unfold probbin. destruct (Rle_dec P 1.5) as [A|A]; [destruct (Rle_dec 1 0); lra|]. assert (X : 0 < Rpower (P - 1.5) 1.43) by apply exp_pos. assert (Y : 0 < Rpower (M / 10) 0.56) by apply exp_pos. destruct (Rle_dec _ 0) as [B|B]; [lra|]. pose proof (Rmult_lt_0_compat _ _ X Y). nra.
Qed.
Theorem C145_range : forall M P, allM M -> 0 < flogP M P /\ 0 <= ftwin M P < 1 /\ 0 <= probbin M P <= 1 /\ (P <= 1.5 -> probbin M P = 1).
Proof. intros M P AM. split; [apply flogP_pos; exact AM|]. split; [apply ftwin_range; exact AM|]. split; [apply probbin_range|]. intro L. unfold probbin. destruct (Rle_dec P 1.5); [|contradiction]. destruct (Rle_dec 1 0); lra. Qed.
Print Assumptions C145_range.
Example C145_case : gamma_large 7 2 = -1.4 /\ gamma_large 1 6 = -0.8 /\ flogP 1 3.4 = 0.0516.
Proof.
  assert (L1 : lg 1 = 0) by (unfold lg; rewrite ln_1; lra). unfold gamma_large, by_mass, gl_1p2, gl_3p5, gl_6, flogP, f_2p7. rewrite L1. repeat match goal with |- context [Rle_dec ?a ?b] => destruct (Rle_dec a b); try (exfalso; lra) | |- context [Rlt_dec ?a ?b] => destruct (Rlt_dec a b); try (exfalso; lra) end. repeat split; lra.
Qed.

(** ** C146: the tables *)
(** The quadrature is exact for linear functions, and positive for positive ones. *)
Theorem C146_quadrature : forall a b dx n k, idl_tabulate dx (map (fun i => a + b * INR i) (seq k (S n))) = dx * (a * INR n + b * ((INR (k + n)) ^ 2 - INR k ^ 2) / 2).
Proof.
  intros a b dx n. induction n as [n IH] using lt_wf_ind. intro k. destruct n as [|[|[|[|n]]]].
  - cbn [seq map idl_tabulate]. rewrite Nat.add_0_r. cbn [INR]. lra.
  - cbn [seq map idl_tabulate]. rewrite plus_INR, !S_INR. cbn [INR]. lra.
  - cbn [seq map idl_tabulate]. rewrite plus_INR, !S_INR. cbn [INR]. lra.
  - cbn [seq map idl_tabulate]. rewrite plus_INR, !S_INR. cbn [INR]. lra.
  - specialize (IH n ltac:(lia) (S (S (S (S k))))). rewrite !plus_INR, !S_INR in *. cbn [seq map] in *. change (idl_tabulate dx ((a + b * INR k) :: (a + b * INR (S k)) :: (a + b * INR (S (S k))) :: (a + b * INR (S (S (S k)))) :: (a + b * INR (S (S (S (S k))))) :: map (fun i => a + b * INR i) (seq (S (S (S (S (S k))))) n))) with (dx * (2 / 45 * (7 * (a + b * INR k) + 32 * (a + b * INR (S k)) + 12 * (a + b * INR (S (S k))) + 32 * (a + b * INR (S (S (S k)))) + 7 * (a + b * INR (S (S (S (S k))))))) + idl_tabulate dx ((a + b * INR (S (S (S (S k))))) :: map (fun i => a + b * INR i) (seq (S (S (S (S (S k))))) n))). rewrite IH. rewrite !S_INR. lra.
Qed.
Print Assumptions C146_quadrature.
Lemma idl_nonneg dx f : 0 <= dx -> (forall x, In x f -> 0 <= x) -> 0 <= idl_tabulate dx f.
Proof.
  intro D. induction f as [f IH] using (well_founded_induction (Wf_nat.well_founded_ltof _ (@length R))). intro H. destruct f as [|a [|b [|c [|d [|e f]]]]]; try (cbn; lra); pose proof (H a ltac:(cbn; auto)); pose proof (H b ltac:(cbn; auto)).
  - cbn. nra.
  - pose proof (H c ltac:(cbn; auto)). cbn. nra.
  - pose proof (H c ltac:(cbn; auto)). pose proof (H d ltac:(cbn; auto)). cbn. nra.
  - pose proof (H c ltac:(cbn; auto)). pose proof (H d ltac:(cbn; auto)). pose proof (H e ltac:(cbn; auto 6)). change (0 <= dx * (2 / 45 * (7 * a + 32 * b + 12 * c + 32 * d + 7 * e)) + idl_tabulate dx (e :: f)). assert (0 <= idl_tabulate dx (e :: f)) by (apply IH; [unfold Wf_nat.ltof; cbn; lia|intros x I; apply H; cbn in I |- *; tauto]). nra.
Qed.
Lemma idl_pos dx f : 0 < dx -> (2 <= length f)%nat -> (forall x, In x f -> 0 <= x) -> (exists x, In x f /\ 0 < x) -> 0 < idl_tabulate dx f.
Proof.
  intro D. induction f as [f IH] using (well_founded_induction (Wf_nat.well_founded_ltof _ (@length R))). intros L H [y [I P]]. destruct f as [|a [|b [|c [|d [|e f]]]]]; try (cbn in L; lia); pose proof (H a ltac:(cbn; auto)); pose proof (H b ltac:(cbn; auto)).
  - cbn in I |- *. assert (0 < a + b) by (destruct I as [->|[->|[]]]; lra). nra.
  - pose proof (H c ltac:(cbn; auto)). cbn in I |- *. assert (0 < a + 4 * b + c) by (destruct I as [->|[->|[->|[]]]]; lra). nra.
  - pose proof (H c ltac:(cbn; auto)). pose proof (H d ltac:(cbn; auto)). cbn in I |- *. assert (0 < a + 3 * b + 3 * c + d) by (destruct I as [->|[->|[->|[->|[]]]]]; lra). nra.
  - pose proof (H c ltac:(cbn; auto)). pose proof (H d ltac:(cbn; auto)). pose proof (H e ltac:(cbn; auto 6)). change (0 < dx * (2 / 45 * (7 * a + 32 * b + 12 * c + 32 * d + 7 * e)) + idl_tabulate dx (e :: f)). assert (H' : forall x, In x (e :: f) -> 0 <= x) by (intros x J; apply H; cbn in J |- *; tauto). pose proof (idl_nonneg dx (e :: f) ltac:(lra) H') as NN.
    assert (C : 0 < 7 * a + 32 * b + 12 * c + 32 * d + 7 * e \/ (exists x, In x f /\ 0 < x)). { cbn in I. destruct I as [->|[->|[->|[->|[->|I]]]]]; [left; lra|left; lra|left; lra|left; lra|left; lra|right; exists y; auto]. } destruct C as [C|(x & J & PX)]; [nra|]. assert (0 < idl_tabulate dx (e :: f)). { apply IH; [unfold Wf_nat.ltof; cbn; lia|destruct f; [contradiction|cbn; lia]|exact H'|exists x; split; [right; exact J|exact PX]]. } nra.
Qed.

(** What is asked of the supporting points *)
Definition good_q (qs : list R) : Prop := strict qs /\ Forall (fun q => 0 < q) qs /\ 0 < step_of qs /\ (2 <= length (filter (fun q => if Rle_dec 0.3 q then true else false) qs))%nat /\ exists q, In q qs /\ 0.95 <= q.
Lemma large_in qs q : In q (large_q qs) <-> In q qs /\ 0.3 <= q.
Proof. unfold large_q. rewrite filter_In. destruct (Rle_dec 0.3 q); split; intros [A B]; split; try assumption; try congruence; contradiction. Qed.
Lemma length_filter_le {A} (f : A -> bool) l : (length (filter f l) <= length l)%nat.
Proof. induction l as [|a l IH]; [reflexivity|]. cbn. destruct (f a); cbn; lia. Qed.
Lemma heaviside_nonneg q : 0 <= heaviside q.
Proof. unfold heaviside. destruct (Rle_dec 0.95 q); lra. Qed.
Lemma fq_pos qs M P q : good_q qs -> allM M -> 0 < fq qs M P q.
Proof.
  intros (ST & PO & SP & LA & (q1 & I1 & T1)) AM. pose proof (ftwin_range M P AM) as F. fold (large_q qs) in LA.
  assert (N1 : 0 < idl_tabulate (step_of qs) (map (fun q => Rpower q (gamma_large M P)) (large_q qs))). { apply idl_pos; [exact SP|rewrite map_length; exact LA|intros x I; apply in_map_iff in I as (z & <- & _); left; apply exp_pos|]. destruct (large_q qs) as [|z l]; [cbn in LA; lia|]. exists (Rpower z (gamma_large M P)). split; [left; reflexivity|apply exp_pos]. }
  assert (N2 : 0 < idl_tabulate (step_of qs) (map heaviside qs)). { apply idl_pos; [exact SP|rewrite map_length; pose proof (length_filter_le (fun q => if Rle_dec 0.3 q then true else false) qs); unfold large_q in LA; lia|intros x I; apply in_map_iff in I as (z & <- & _); apply heaviside_nonneg|]. exists (heaviside q1). split; [apply in_map; exact I1|]. unfold heaviside. destruct (Rle_dec 0.95 q1); [lra|contradiction]. }
  assert (L : forall q, 0 < fq_large qs M P q). { intro x. unfold fq_large. pose proof (Rinv_0_lt_compat _ N1). pose proof (Rinv_0_lt_compat _ N2). pose proof (heaviside_nonneg x). assert (0 < Rpower x (gamma_large M P)) by apply exp_pos. apply Rplus_lt_le_0_compat; [apply Rmult_lt_0_compat; [apply Rmult_lt_0_compat; assumption|lra]|apply Rmult_le_pos; [apply Rmult_le_pos; lra|lra]]. }
  unfold fq. destruct (Rlt_dec q 0.3); [apply Rmult_lt_0_compat; [apply L|apply exp_pos]|apply L].
Qed.
Lemma good_q_two qs : good_q qs -> (2 <= length qs)%nat.
Proof. intros (_ & _ & _ & LA & _). pose proof (length_filter_le (fun q => if Rle_dec 0.3 q then true else false) qs). lia. Qed.
(** Mass ratios: strictly increasing from 0 to 1 *)
Theorem C146_q : forall pts M P, good_q (qv pts) -> allM M -> table 1 (cumq pts M P) /\ strict (cumq pts M P) /\ length (cumq pts M P) = length (qv pts).
Proof.
  intros pts M P G AM. unfold cumq. set (f := map (fq (qv pts) M P) (qv pts)). assert (H : forall x, In x (tl f) -> 0 < x). { intros x I. assert (J : In x f) by (destruct f; [contradiction|right; exact I]). apply in_map_iff in J as (q & <- & _). apply fq_pos; assumption. }
  assert (E : exists x, In x (tl f) /\ 0 < x). { pose proof (good_q_two _ G) as L2. assert (LF : length f = length (qv pts)) by apply map_length. destruct f as [|a [|b f]]; try (cbn in LF; lia). exists b. split; [left; reflexivity|apply H; left; reflexivity]. }
  destruct (normalised_table 1 f ltac:(lra) (fun x I => Rlt_le _ _ (H x I)) E) as (T & L & S). split; [exact T|]. split; [apply S; [lra|exact H]|]. rewrite L. apply map_length.
Qed.
Print Assumptions C146_q.
Lemma q_factor_pos pts M P : good_q (qv pts) -> allM M -> 0 < q_factor pts M P.
Proof.
  intros G AM. unfold q_factor. apply idl_pos; [apply G|rewrite map_length; apply good_q_two; exact G|intros x I; apply in_map_iff in I as (q & <- & _); left; apply fq_pos; assumption|]. pose proof (good_q_two _ G). destruct (qv pts) as [|q l] eqn:E; [cbn in H; lia|]. exists (fq (q :: l) M P q). split; [left; reflexivity|]. apply fq_pos; assumption.
Qed.
(** Periods: from 0 to the fraction of binaries *)
Definition good_P (Ps : list R) (M : R) : Prop := strict Ps /\ 0 < step_of Ps /\ (2 <= length Ps)%nat /\ exists P, In P (tl Ps) /\ 0 < probbin M P.
Lemma fP_nonneg pts M P : good_q (qv pts) -> allM M -> 0 <= fP pts M P.
Proof. intros G AM. unfold fP. pose proof (flogP_pos M P AM). pose proof (q_factor_pos pts M P G AM). pose proof (probbin_range M P). apply Rmult_le_pos; [apply Rmult_le_pos; lra|lra]. Qed.
Theorem C146_P : forall pts M, good_q (qv pts) -> good_P (logPv pts) M -> allM M -> exists total, 0 < total /\ table total (cumP pts M) /\ length (cumP pts M) = length (logPv pts) /\ total = idl_tabulate (step_of (logPv pts)) (map (fP pts M) (logPv pts)).
Proof.
  intros pts M G (ST & SP & L2 & (P & IP & PP)) AM. unfold cumP. set (f := map (fP pts M) (logPv pts)). assert (H : forall x, In x f -> 0 <= x) by (intros x I; apply in_map_iff in I as (p & <- & _); apply fP_nonneg; assumption).
  assert (TF : tl f = map (fP pts M) (tl (logPv pts))) by (unfold f; destruct (logPv pts); reflexivity). assert (FP : 0 < fP pts M P) by (unfold fP; pose proof (flogP_pos M P AM); pose proof (q_factor_pos pts M P G AM); apply Rmult_lt_0_compat; [apply Rmult_lt_0_compat; assumption|exact PP]).
  assert (E : exists x, In x (tl f) /\ 0 < x) by (exists (fP pts M P); split; [rewrite TF; apply in_map; exact IP|exact FP]). assert (H' : forall x, In x (tl f) -> 0 <= x) by (intros x I; apply H; destruct f; [contradiction|right; exact I]).
  assert (T : 0 < idl_tabulate (step_of (logPv pts)) f). { apply idl_pos; [exact SP|unfold f; rewrite map_length; exact L2|exact H|]. destruct E as (x & I & X). exists x. split; [destruct f; [contradiction|right; exact I]|exact X]. }
  destruct (normalised_table _ f (Rlt_le _ _ T) H' E) as (TB & L & _). exists (idl_tabulate (step_of (logPv pts)) f). split; [exact T|]. split; [exact TB|]. split; [rewrite L; apply map_length|reflexivity].
Qed.
Print Assumptions C146_P.
(** Eccentricities: from 0 to 1 when a supporting point lies where the turnover is; no sampler at all when none does *)
Definition circular (P : R) : Prop := pow10 P <= 2.
Definition good_e (es : list R) : Prop := strict es /\ Forall (fun e => 0 < e < 1) es /\ (2 <= length es)%nat.
Definition covers (es : list R) (P : R) : Prop := hd 0 es < 0.8 * e_max P /\ exists e, In e (tl es) /\ 0.8 * e_max P <= e < e_max P.
Lemma e_max_range P : ~ circular P -> 0 < e_max P < 1.
Proof.
  unfold circular, e_max. intro H. assert (A : 1 < pow10 P / 2) by lra. set (x := pow10 P / 2) in *. assert (B : Rpower x (- (2) / 3) < 1). { rewrite <- (Rpower_O x) by lra. apply Rpower_lt; lra. } assert (0 < Rpower x (- (2) / 3)) by apply exp_pos. lra.
Qed.
Lemma turnover_spec P e : turnover P e = true <-> 0.8 * e_max P <= e <= e_max P.
Proof. unfold turnover. destruct (Rle_dec (0.8 * e_max P) e), (Rle_dec e (e_max P)); split; intro H; try discriminate; try reflexivity; try lra; split; assumption. Qed.
Lemma first_index_none f l : forall i, first_index f i l = None <-> forall x, In x l -> f x = false.
Proof.
  induction l as [|a l IH]; intro i; cbn; [split; [intros _ x []|reflexivity]|]. destruct (f a) eqn:E; [split; [discriminate|intro H; specialize (H a (or_introl eq_refl)); congruence]|]. rewrite IH. split; [intros H x [->|I]; [exact E|exact (H x I)]|intros H x I; apply H; right; exact I].
Qed.
Lemma first_index_some f l : forall i k, first_index f i l = Some k -> (i <= k)%nat /\ (forall j, (j < k - i)%nat -> f (nth j l 0) = false) /\ (k - i < length l)%nat /\ f (nth (k - i) l 0) = true.
Proof.
  induction l as [|a l IH]; intros i k H; [discriminate|]. cbn in H. destruct (f a) eqn:E; [assert (i = k) by congruence; subst; rewrite Nat.sub_diag; cbn; repeat split; try lia; exact E|]. destruct (IH _ _ H) as (A & B & C & D). split; [lia|]. destruct (k - i)%nat as [|n] eqn:K; [lia|]. replace (k - S i)%nat with n in * by lia. split; [|split; [cbn; lia|exact D]]. intros [|j] J; [exact E|]. cbn. apply B. lia.
Qed.
Theorem C146_refused : forall pts M P, cume pts M P = Raise ValueError <-> ~ circular P /\ forall e, In e (ev pts) -> ~ (0.8 * e_max P <= e <= e_max P).
Proof.
  intros pts M P. unfold cume, fe_list, circular. destruct (Rle_dec (pow10 P) 2) as [C|C]; cbn [rbind]; [split; [discriminate|tauto]|]. destruct (first_index (turnover P) 0 (ev pts)) as [k|] eqn:E; cbn [rbind].
  - split; [discriminate|]. intros [_ H]. destruct (first_index_some _ _ _ _ E) as (_ & _ & L & T). rewrite Nat.sub_0_r in L, T. apply turnover_spec in T. exfalso. exact (H _ (nth_In _ _ L) T).
  - split; [|reflexivity]. intros _. split; [exact C|]. intros e I T. apply turnover_spec in T. rewrite (proj1 (first_index_none _ _ _) E e I) in T. discriminate.
Qed.
Print Assumptions C146_refused.
Lemma strict_split (l : list R) b : strict l -> exists l1 l2, l = (l1 ++ l2)%list /\ (forall x, In x l1 -> x < b) /\ (forall x, In x l2 -> b <= x).
Proof.
  induction l as [|a l IH]; intro H; [exists [], []; repeat split; intros x []|]. destruct (Rlt_dec a b) as [A|A].
  - destruct (IH (strict_tl _ _ H)) as (l1 & l2 & E & H1 & H2). exists (a :: l1), l2. split; [cbn; congruence|]. split; [intros x [->|I]; [exact A|exact (H1 x I)]|exact H2].
  - exists [], (a :: l). split; [reflexivity|]. split; [intros x []|]. intros x [->|I]; [lra|]. pose proof (strict_hd _ _ H x I). lra.
Qed.
(** The density of eccentricities *)
Lemma fe_facts es M P f : good_e es -> circular P \/ covers es P -> fe_list es M P = Ok f -> exists g, f = map g es /\ (forall e, In e es -> 0 <= g e) /\ (exists e, In e (tl es) /\ 0 < g e) /\ (~ circular P -> forall e, e_max P <= e -> g e = 0).
Proof.
  intros (ST & PO & L2) CV. unfold fe_list. destruct (Rle_dec (pow10 P) 2) as [C|C].
  - intro H. assert (E : f = map (fun e => Rpower e (-3.2)) es) by congruence. exists (fun e => Rpower e (-3.2)). split; [exact E|]. split; [intros; left; apply exp_pos|]. split; [|intro N; exfalso; exact (N C)]. destruct es as [|a [|b es]]; try (cbn in L2; lia). exists b. split; [left; reflexivity|apply exp_pos].
  - pose proof (e_max_range P C) as EM. destruct CV as [CV|CV]; [contradiction|]. destruct CV as (HD & e0 & I0 & T0). destruct (first_index (turnover P) 0 es) as [k|] eqn:K; [|discriminate]. intro H. destruct (first_index_some _ _ _ _ K) as (_ & B & LK & T). rewrite Nat.sub_0_r in *. destruct k as [|k]; [exfalso; apply turnover_spec in T; destruct es; cbn in HD, T; lra|].
    set (cont := nth k es 0) in *. assert (CT : cont < 0.8 * e_max P).
    { assert (N : turnover P cont = false) by (apply B; lia). apply turnover_spec in T. assert (O : forall l, strict l -> forall k, (S k < length l)%nat -> nth k l 0 < nth (S k) l 0). { clear. induction l as [|a [|b l] IH]; intros H k L; [cbn in L; lia|cbn in L; lia|]. destruct H as [H1 H2]. destruct k as [|k]; [exact H1|]. apply (IH H2 k). cbn in L |- *. lia. } specialize (O es ST k LK). fold cont in O. destruct (Rlt_dec cont (0.8 * e_max P)); [assumption|]. assert (turnover P cont = true) by (apply turnover_spec; lra). congruence. }
    assert (FC : 0 < fe_cut M P cont) by (unfold fe_cut; destruct (Rle_dec (e_max P) cont); [lra|apply exp_pos]). set (g := fun e => if turnover P e then interp e [(0.8 * e_max P, fe_cut M P cont); (e_max P, 0)] else fe_cut M P e).
    assert (TV : forall e, 0.8 * e_max P <= e < e_max P -> 0 < g e). { intros e Te. unfold g. rewrite (proj2 (turnover_spec P e)) by lra. cbn [interp]. destruct (Rlt_dec e (e_max P)) as [X|X]; [|lra]. destruct (Rlt_dec e (0.8 * e_max P)) as [Y|Y]; [lra|]. replace ((0 - fe_cut M P cont) / (e_max P - 0.8 * e_max P) * (e - 0.8 * e_max P) + fe_cut M P cont) with (fe_cut M P cont * ((e_max P - e) / (e_max P - 0.8 * e_max P))) by (field; lra). apply Rmult_lt_0_compat; [exact FC|]. apply Rmult_lt_0_compat; [lra|apply Rinv_0_lt_compat; lra]. }
    assert (ZE : forall e, e_max P <= e -> g e = 0). { intros e Te. unfold g. destruct (turnover P e) eqn:TE; [apply turnover_spec in TE; cbn [interp]; destruct (Rlt_dec e (e_max P)); [lra|reflexivity]|]. unfold fe_cut. destruct (Rle_dec (e_max P) e); [reflexivity|contradiction]. }
    exists g. split; [fold g in H; symmetry; apply (f_equal (fun r => match r with Ok x => x | Raise _ => [] end)) in H; exact H|]. split; [|split; [exists e0; split; [exact I0|apply TV; exact T0]|intros _; exact ZE]]. intros e I. destruct (Rle_dec (e_max P) e) as [X|X]; [rewrite ZE by exact X; lra|]. destruct (Rle_dec (0.8 * e_max P) e) as [Y|Y]; [left; apply TV; lra|]. unfold g. destruct (turnover P e) eqn:TE; [apply turnover_spec in TE; lra|]. unfold fe_cut. destruct (Rle_dec (e_max P) e); [contradiction|left; apply exp_pos].
Qed.
Lemma covers_ok es M P : circular P \/ covers es P -> exists f, fe_list es M P = Ok f.
Proof.
  intro C. unfold fe_list. destruct (Rle_dec (pow10 P) 2) as [H|H]; [eexists; reflexivity|]. destruct C as [C|C]; [contradiction|]. destruct C as (_ & e & I & T). destruct (first_index (turnover P) 0 es) as [k|] eqn:K; [eexists; reflexivity|]. exfalso. pose proof (proj1 (first_index_none _ _ _) K e) as N. assert (J : In e es) by (destruct es; [contradiction|right; exact I]). specialize (N J). assert (turnover P e = true) by (apply turnover_spec; lra). congruence.
Qed.
Theorem C146_e : forall pts M P, good_e (ev pts) -> circular P \/ covers (ev pts) P -> exists c, cume pts M P = Ok c /\ table 1 c /\ length c = length (ev pts).
Proof.
  intros pts M P G CV. destruct (covers_ok _ M P CV) as (f & F). destruct (fe_facts _ _ _ _ G CV F) as (g & -> & NN & (e & I & PE) & _). unfold cume. rewrite F. cbn [rbind]. eexists. split; [reflexivity|]. assert (TF : tl (map g (ev pts)) = map g (tl (ev pts))) by (destruct (ev pts); reflexivity).
  destruct (normalised_table 1 (map g (ev pts)) ltac:(lra)) as (T & L & _); [|exists (g e); split; [rewrite TF; apply in_map; exact I|exact PE]|split; [exact T|rewrite L; apply map_length]]. intros x J. rewrite TF in J. apply in_map_iff in J as (z & <- & J). apply NN. destruct (ev pts); [contradiction|right; exact J].
Qed.
Print Assumptions C146_e.
(** The sampled eccentricity stays below the maximum of the period. *)
Lemma cumsum_flat (g : R -> R) l2 : (forall x, In x l2 -> g x = 0) -> forall acc, Forall (fun c => c = acc) (cumsum_from acc (map g l2)).
Proof. induction l2 as [|x l IH]; intros H acc; cbn; [constructor|]. rewrite (H x (or_introl eq_refl)), Rplus_0_r. constructor; [reflexivity|]. apply IH. intros y J. apply H. right. exact J. Qed.
Lemma last_const (l : list R) a : Forall (fun c => c = a) l -> last (a :: l) 0 = a.
Proof. induction l as [|x l IH]; intro H; [reflexivity|]. change (last (a :: x :: l) 0) with (last (x :: l) 0). pose proof (Forall_inv H) as E. cbv beta in E. rewrite E. apply IH. exact (Forall_inv_tail H). Qed.
Lemma cumsum_reach (g : R -> R) l1 l2 : (forall x, In x l2 -> g x = 0) -> forall a e acc, In (last (acc :: cumsum_from acc (map g (l1 ++ l2))) 0, last (e :: l1) a) (combine (acc :: cumsum_from acc (map g (l1 ++ l2))) (e :: l1 ++ l2)).
Proof.
  intro H. induction l1 as [|x l1 IH]; intros a e acc.
  - left. cbn [app]. rewrite last_const by (apply cumsum_flat; exact H). reflexivity.
  - right. cbn [app map cumsum_from]. change (last (e :: x :: l1) a) with (last (x :: l1) a). change (last (acc :: (acc + g x) :: cumsum_from (acc + g x) (map g (l1 ++ l2))) 0) with (last ((acc + g x) :: cumsum_from (acc + g x) (map g (l1 ++ l2))) 0). apply IH.
Qed.
Lemma combine_map_l {A B C} (f : A -> C) (l : list A) (l' : list B) a b : In (a, b) (combine l l') -> In (f a, b) (combine (map f l) l').
Proof. revert l'. induction l as [|x l IH]; intros [|y l'] H; try contradiction. destruct H as [H|H]; [left; congruence|right; apply IH; exact H]. Qed.
Theorem C146_cut : forall pts M P c u, good_e (ev pts) -> ~ circular P -> covers (ev pts) P -> cume pts M P = Ok c -> u < 1 -> interp u (combine c (ev pts)) < e_max P.
Proof.
  intros pts M P c u G NC CV CE U. destruct (C146_e pts M P G (or_intror CV)) as (c' & CE' & T & L). assert (c' = c) by congruence. subst c'. destruct (covers_ok _ M P (or_intror CV)) as (f & F). destruct (fe_facts _ _ _ _ G (or_intror CV) F) as (g & -> & NN & (e & I & PE) & ZE). specialize (ZE NC).
  unfold cume in CE. rewrite F in CE. cbn [rbind] in CE. assert (EC : c = normalised_to 1 (cumulative (map g (ev pts)))) by congruence.
  destruct G as (ST & PO & L2). destruct CV as (HD & _). pose proof (e_max_range P NC) as EM. destruct (ev pts) as [|e0 es] eqn:EV; [cbn in L2; lia|]. cbn [hd] in HD. destruct (strict_split es (e_max P) (strict_tl _ _ ST)) as (l1 & l2 & E & H1 & H2).
  assert (Z : forall x, In x l2 -> g x = 0) by (intros x J; apply ZE, H2; exact J). assert (IN : In (1, last (e0 :: l1) 0) (combine c (e0 :: es))).
  { rewrite EC. cbn [map]. rewrite cumulative_eq. unfold normalised_to. pose proof (cumsum_reach g l1 l2 Z 0 e0 0) as R0. rewrite <- E in R0.
    assert (NDC : nondec (0 :: cumsum_from 0 (map g es))). { apply cumsum_nondec. intros x J. apply in_map_iff in J as (z & <- & J). apply NN. right. exact J. }
    assert (RM : rmax (0 :: cumsum_from 0 (map g es)) = last (0 :: cumsum_from 0 (map g es)) 0) by (apply rmax_last; [discriminate|exact NDC]).
    assert (LP : 0 < last (0 :: cumsum_from 0 (map g es)) 0). { apply cumsum_last_pos; [lra|intros x J; apply in_map_iff in J as (z & <- & J); apply NN; right; exact J|right; exists (g e); split; [apply in_map; exact I|exact PE]]. }
    apply combine_map_l with (f := fun x => x / rmax (0 :: cumsum_from 0 (map g es)) * 1) in R0. cbv beta in R0. set (big := 0 :: cumsum_from 0 (map g es)) in *. clearbody big. rewrite RM in *. replace (last big 0 / last big 0 * 1) with 1 in R0 by (field; lra). exact R0. }
  assert (LC : length c = length (e0 :: es)) by exact L. destruct T as (_ & _ & ND & _). apply Rle_lt_trans with (last (e0 :: l1) 0).
  - apply interp_before with (a := 1); [rewrite combine_fst by exact LC; exact ND|rewrite combine_snd by exact LC; apply strict_nondec; exact ST|exact IN|exact U].
  - assert (IL : In (last (e0 :: l1) 0) (e0 :: l1)) by (clear; generalize e0; induction l1 as [|x l IH]; intro a; [left; reflexivity|right; exact (IH x)]). destruct IL as [<-|J]; [lra|exact (H1 _ J)].
Qed.
Print Assumptions C146_cut.

(** A small grid *)
Definition small : points := Points [1] [0; 1] [0.1; 0.4; 0.7; 1] [0.1; 0.3; 0.6; 0.9].
Lemma small_q : good_q (qv small).
Proof.
  unfold good_q, step_of, small. cbn [qv nth]. split; [cbn; lra|]. split; [repeat constructor; lra|]. split; [lra|]. split; [|exists 1; split; [cbn; tauto|lra]]. cbn [filter]. repeat match goal with |- context [Rle_dec ?a ?b] => destruct (Rle_dec a b); try (exfalso; lra) end. cbn. lia.
Qed.
Lemma pow10_0 : pow10 0 = 1. Proof. unfold pow10. apply Rpower_O. lra. Qed.
Lemma pow10_1 : pow10 1 = 10. Proof. unfold pow10. apply Rpower_1. lra. Qed.
Lemma small_P : good_P (logPv small) 1.
Proof. unfold good_P, step_of, small. cbn. split; [lra|]. split; [lra|]. split; [lia|]. exists 1. split; [tauto|]. unfold probbin. destruct (Rle_dec 1 1.5); [|lra]. destruct (Rle_dec 1 0); lra. Qed.
Lemma small_emax : 0.6 < e_max 1 < 0.75.
Proof.
  unfold e_max. rewrite pow10_1. replace (10 / 2) with 5 by lra. replace (- (2) / 3) with (- (2 / 3)) by lra. rewrite Rpower_Ropp. set (x := Rpower 5 (2 / 3)). assert (X : 0 < x) by apply exp_pos. assert (C : x * (x * x) = 25). { unfold x. rewrite <- !Rpower_plus. replace (2 / 3 + (2 / 3 + 2 / 3)) with (1 + 1) by lra. rewrite Rpower_plus, Rpower_1 by lra. lra. }
  clearbody x. assert (2.5 < x) by nra. assert (x < 4) by nra. assert (/ x < / 2.5) by (apply Rinv_lt_contravar; nra). assert (/ 4 < / x) by (apply Rinv_lt_contravar; nra). lra.
Qed.
Lemma small_e : good_e (ev small) /\ circular 0 /\ ~ circular 1 /\ covers (ev small) 1.
Proof.
  unfold good_e, circular, covers, small. cbn [ev hd tl]. rewrite pow10_0, pow10_1. pose proof small_emax. split; [split; [cbn; lra|split; [repeat constructor; lra|cbn; lia]]|]. split; [lra|]. split; [lra|]. split; [lra|]. exists 0.6. split; [cbn; tauto|lra].
Qed.
Example C146_case : good_q (qv small) /\ good_P (logPv small) 1 /\ good_e (ev small) /\ circular 0 /\ ~ circular 1 /\ covers (ev small) 1 /\ allM 1.
Proof. split; [exact small_q|]. split; [exact small_P|]. destruct small_e as (A & B & C & D). split; [exact A|]. split; [exact B|]. split; [exact C|]. split; [exact D|]. unfold allM. lra. Qed.
(** A period just above two days has its maximal eccentricity below the first supporting points: the constructor fails. *)
Theorem C146_gap_refuted : exists pts, strict (logPv pts) /\ good_q (qv pts) /\ good_e (ev pts) /\ constructor pts = Raise ValueError.
Proof.
  exists (Points [1] [0; lg 2.1] [0.1; 0.4; 0.7; 1] [0.1; 0.3; 0.6; 0.9]). cbn [logPv qv ev]. assert (L : 0 < lg 2.1) by (apply Rmult_lt_0_compat; [rewrite <- ln_1; apply ln_increasing; lra|apply Rinv_0_lt_compat; rewrite <- ln_1; apply ln_increasing; lra]). split; [cbn; lra|]. split; [exact small_q|]. split; [apply small_e|].
  assert (PW : pow10 (lg 2.1) = 2.1). { unfold pow10, lg, Rpower. replace (ln 2.1 / ln 10 * ln 10) with (ln 2.1); [apply exp_ln; lra|]. field. assert (0 < ln 10) by (rewrite <- ln_1; apply ln_increasing; lra). lra. }
  assert (EM : e_max (lg 2.1) < 0.1). { unfold e_max. rewrite PW. replace (- (2) / 3) with (- (2 / 3)) by lra. rewrite Rpower_Ropp. assert (X : Rpower (2.1 / 2) (2 / 3) <= 2.1 / 2) by (rewrite <- (Rpower_1 (2.1 / 2)) at 2 by lra; apply Rle_Rpower; lra). assert (0 < Rpower (2.1 / 2) (2 / 3)) by apply exp_pos. pose proof (Rinv_le_contravar _ _ H X). lra. }
  assert (R1 : cume (Points [1] [0; lg 2.1] [0.1; 0.4; 0.7; 1] [0.1; 0.3; 0.6; 0.9]) 1 (lg 2.1) = Raise ValueError). { apply C146_refused. unfold circular. rewrite PW. split; [lra|]. cbn [ev]. intros e I. cbn in I. destruct I as [<-|[<-|[<-|[<-|[]]]]]; lra. }
  unfold constructor. cbn [M1v logPv forallb]. rewrite R1. rewrite !andb_false_r. reflexivity.
Qed.
Print Assumptions C146_gap_refuted.
