(** Broken mass functions: property C40. *)
From Coq Require Import List Bool Reals Lra.
From Coquelicot Require Import Coquelicot.
From Verif Require Import PyBase RealLemmas IntegralLemmas DistModel.
Open Scope R_scope.

Lemma rleb_true x y : x <= y -> rleb x y = true.
Proof. intros H. unfold rleb. destruct (Rle_dec x y); [easy|lra]. Qed.
Lemma rleb_false x y : y < x -> rleb x y = false.
Proof. intros H. unfold rleb. destruct (Rle_dec x y); [lra|easy]. Qed.
Lemma rltb_true x y : x < y -> rltb x y = true.
Proof. intros H. unfold rltb. destruct (Rlt_dec x y); [easy|lra]. Qed.
Lemma rltb_false x y : y <= x -> rltb x y = false.
Proof. intros H. unfold rltb. destruct (Rlt_dec x y); [lra|easy]. Qed.
Lemma reqb_true x y : x = y -> reqb x y = true.
Proof. intros H. unfold reqb. destruct (Req_EM_T x y); easy. Qed.
Lemma reqb_false x y : x <> y -> reqb x y = false.
Proof. intros H. unfold reqb. destruct (Req_EM_T x y); easy. Qed.

(** Two continuous pieces that meet. *)
Lemma glue (f g h : R -> R) c x :
  (forall y, y < c -> f y = g y) -> (forall y, c <= y -> f y = h y) -> (x <= c -> continuous g x) -> (c <= x -> continuous h x) ->
  g c = h c -> continuous f x.
Proof.
  intros FG FH CG CH E. destruct (Rtotal_order x c) as [L|[L|L]].
  - apply (continuous_ext_loc f g x); [|apply CG; lra].
    exists (mkposreal (c - x) ltac:(lra)). intros y B. apply Rabs_lt_between in B. cbn in B. unfold minus, plus, opp in B. cbn in B.
    symmetry. apply FG. lra.
  - subst x. intros P HP.
    assert (HF : f c = h c) by (apply FH; lra).
    rewrite HF in HP. pose proof (CH ltac:(lra) P HP) as PH. rewrite <- E in HP. pose proof (CG ltac:(lra) P HP) as PG.
    change (locally c (fun y => P (g y))) in PG. change (locally c (fun y => P (h y))) in PH. change (locally c (fun y => P (f y))).
    generalize (filter_and _ _ PG PH). apply filter_imp. intros y [Y1 Y2].
    destruct (Rlt_dec y c) as [L|L]; [now rewrite FG|rewrite FH by lra; easy].
  - apply (continuous_ext_loc f h x); [|apply CH; lra].
    exists (mkposreal (x - c) ltac:(lra)). intros y B. apply Rabs_lt_between in B. cbn in B. unfold minus, plus, opp in B. cbn in B.
    symmetry. apply FH. lra.
Qed.
Lemma continuous_piece (k b y x : R) : 0 < b -> 0 < x -> continuous (fun m => k * Rpower (m / b) y) x.
Proof.
  intros B X. apply (ex_derive_continuous (K := R_AbsRing) (V := R_NormedModule)). unfold Rpower. auto_derive.
  assert (0 < x / b) by now apply Rdiv_lt_0_compat. repeat split; lra.
Qed.

(** ** Kroupa2001 *)
Definition ordered (k : kroupa) : Prop := 0 < k_min k /\ 0 < k_m1 k /\ k_m1 k <= k_m2 k.
Lemma kroupa_low k m : ordered k -> m < k_m1 k -> kroupa_imf k m = Rpower (m / k_min k) (- k_alpha1 k).
Proof. intros (A & B & C) L. unfold kroupa_imf. rewrite rleb_false by lra. rewrite rleb_false by lra. reflexivity. Qed.
Lemma kroupa_mid k m : ordered k -> k_m1 k <= m < k_m2 k ->
  kroupa_imf k m = Rpower (k_m1 k / k_min k) (- k_alpha1 k) * Rpower (m / k_m1 k) (- k_alpha2 k).
Proof. intros (A & B & C) L. unfold kroupa_imf. rewrite rleb_false by lra. rewrite rleb_true by lra. rewrite rltb_true by lra. reflexivity. Qed.
Lemma kroupa_high k m : k_m2 k <= m ->
  kroupa_imf k m = Rpower (k_m1 k / k_min k) (- k_alpha1 k) * Rpower (k_m2 k / k_m1 k) (- k_alpha2 k) * Rpower (m / k_m2 k) (- k_alpha3 k).
Proof. intros L. unfold kroupa_imf. rewrite rleb_true by lra. reflexivity. Qed.
Lemma Rpower_one_base y : Rpower 1 y = 1.
Proof. unfold Rpower. now rewrite ln_1, Rmult_0_r, exp_0. Qed.
Lemma Rpower_ratio a b c y : 0 < a -> 0 < b -> 0 < c -> Rpower (a / b) y * Rpower (c / a) y = Rpower (c / b) y.
Proof.
  intros A B C. rewrite Rpower_mult_distr by (now apply Rdiv_lt_0_compat). f_equal. field. lra.
Qed.

Lemma kroupa_continuous k m : ordered k -> 0 < m -> continuous (kroupa_imf k) m.
Proof.
  intros O M. destruct O as (A & B & C).
  set (c1 := Rpower (k_m1 k / k_min k) (- k_alpha1 k)). set (c2 := c1 * Rpower (k_m2 k / k_m1 k) (- k_alpha2 k)).
  set (f12 := fun m => if Rlt_dec m (k_m1 k) then 1 * Rpower (m / k_min k) (- k_alpha1 k) else c1 * Rpower (m / k_m1 k) (- k_alpha2 k)).
  assert (C12 : forall x, 0 < x -> continuous f12 x).
  { intros x X. apply (glue f12 (fun m => 1 * Rpower (m / k_min k) (- k_alpha1 k)) (fun m => c1 * Rpower (m / k_m1 k) (- k_alpha2 k)) (k_m1 k)).
    - intros y Y. unfold f12. destruct (Rlt_dec y (k_m1 k)); [easy|lra].
    - intros y Y. unfold f12. destruct (Rlt_dec y (k_m1 k)); [lra|easy].
    - intros _. now apply continuous_piece.
    - intros _. now apply continuous_piece.
    - cbv beta. fold c1. replace (k_m1 k / k_m1 k) with 1 by (field; lra). rewrite Rpower_one_base. ring. }
  apply (glue (kroupa_imf k) f12 (fun m => c2 * Rpower (m / k_m2 k) (- k_alpha3 k)) (k_m2 k)).
  - intros y Y. unfold f12. destruct (Rlt_dec y (k_m1 k)).
    + rewrite kroupa_low; [ring|easy|easy].
    + rewrite kroupa_mid; [easy|easy|lra].
  - intros y Y. now rewrite kroupa_high.
  - intros _. now apply C12.
  - intros _. apply continuous_piece; lra.
  - unfold f12. replace (k_m2 k / k_m2 k) with 1 by (field; lra). rewrite Rpower_one_base, Rmult_1_r.
    destruct (Rlt_dec (k_m2 k) (k_m1 k)); [lra|]. reflexivity.
Qed.
Lemma kroupa_pos k m : 0 < kroupa_imf k m.
Proof.
  unfold kroupa_imf. destruct (rleb (k_m2 k) m); [|destruct (rleb (k_m1 k) m && rltb m (k_m2 k))].
  - repeat apply Rmult_lt_0_compat; apply Rpower_pos.
  - apply Rmult_lt_0_compat; apply Rpower_pos.
  - apply Rpower_pos.
Qed.

(** Positive, continuous at every mass, a power law in each of the three ranges, 1 at the smallest mass. *)
Theorem C40_kroupa2001 :
  forall a1 a2 a3 b1 b2 lo, 0 < lo -> 0 < b1 -> b1 <= b2 ->
  let f := kroupa_imf (Kroupa a1 a2 a3 b1 b2 lo) in
  (forall m, 0 < m -> 0 < f m /\ continuous f m) /\
  (forall m m', 0 < m <= b1 -> 0 < m' <= b1 -> f m' = f m * Rpower (m' / m) (- a1)) /\
  (forall m m', b1 <= m <= b2 -> b1 <= m' <= b2 -> f m' = f m * Rpower (m' / m) (- a2)) /\
  (forall m m', b2 <= m -> b2 <= m' -> f m' = f m * Rpower (m' / m) (- a3)) /\
  (lo <= b1 -> f lo = 1).
Proof.
  intros a1 a2 a3 b1 b2 lo L B1 B2 f.
  set (k := Kroupa a1 a2 a3 b1 b2 lo).
  assert (O : ordered k) by (repeat split; cbn; lra).
  assert (LOW : forall m, 0 < m <= b1 -> f m = Rpower (m / lo) (- a1)).
  { intros m M. destruct (Req_dec m b1) as [-> |N]; [|apply (kroupa_low k m O); cbn; lra].
    destruct (Req_dec b1 b2) as [E|N].
    - unfold f; fold k. rewrite (kroupa_high k b1) by (cbn; lra). unfold k. cbn [k_m1 k_m2 k_min k_alpha1 k_alpha2 k_alpha3]. rewrite <- E.
      replace (b1 / b1) with 1 by (field; lra). rewrite !Rpower_one_base. ring.
    - unfold f; fold k. rewrite (kroupa_mid k b1 O) by (cbn; lra). unfold k. cbn [k_m1 k_m2 k_min k_alpha1 k_alpha2 k_alpha3].
      replace (b1 / b1) with 1 by (field; lra). rewrite !Rpower_one_base. ring. }
  assert (MID : forall m, b1 <= m <= b2 -> f m = Rpower (b1 / lo) (- a1) * Rpower (m / b1) (- a2)).
  { intros m M. destruct (Req_dec m b2) as [-> |N]; [|apply (kroupa_mid k m O); cbn; lra].
    unfold f; fold k. rewrite (kroupa_high k b2) by (cbn; lra). unfold k. cbn [k_m1 k_m2 k_min k_alpha1 k_alpha2 k_alpha3].
    replace (b2 / b2) with 1 by (field; lra). rewrite Rpower_one_base. ring. }
  assert (HIGH : forall m, b2 <= m -> f m = Rpower (b1 / lo) (- a1) * Rpower (b2 / b1) (- a2) * Rpower (m / b2) (- a3)).
  { intros m M. apply (kroupa_high k m). exact M. }
  split; [|split; [|split; [|split]]].
  - intros m M. split; [apply kroupa_pos|now apply (kroupa_continuous k)].
  - intros m m' M M'. rewrite !LOW by easy. symmetry. apply Rpower_ratio; lra.
  - intros m m' M M'. rewrite !MID by easy. rewrite Rmult_assoc, (Rpower_ratio m b1 m') by lra. ring.
  - intros m m' M M'. rewrite !HIGH by easy. rewrite Rmult_assoc, (Rmult_assoc _ (Rpower (m / b2) _)), (Rpower_ratio m b2 m') by lra. ring.
  - intros LB. rewrite LOW by lra. replace (lo / lo) with 1 by (field; lra). apply Rpower_one_base.
Qed.
Print Assumptions C40_kroupa2001.

(** Nothing checks that the breaks are in order, and continuity needs it. *)
Theorem C40_unordered_breaks_refuted :
  exists a1 a2 a3 b1 b2 lo, 0 < lo /\ 0 < b1 /\ 0 < b2 /\ ~ continuous (kroupa_imf (Kroupa a1 a2 a3 b1 b2 lo)) b2.
Proof.
  exists 0, 1, 0, 2, 1, 1. repeat split; try lra. set (f := kroupa_imf _). intros C.
  assert (F1 : f 1 = 2).
  { unfold f, kroupa_imf. cbn [k_m1 k_m2 k_min k_alpha1 k_alpha2 k_alpha3]. rewrite rleb_true by lra.
    replace (1 / 1) with 1 by field. rewrite Rpower_one_base. replace (-0) with 0 by ring.
    rewrite Rpower_O by lra. rewrite Rpower_Ropp, Rpower_1 by lra. field. }
  assert (F2 : forall x, 0 < x < 1 -> f x = 1).
  { intros x X. unfold f, kroupa_imf. cbn [k_m1 k_m2 k_min k_alpha1 k_alpha2 k_alpha3]. rewrite !rleb_false by lra. cbn [andb].
    replace (-0) with 0 by ring. apply Rpower_O. apply Rdiv_lt_0_compat; lra. }
  specialize (C (fun y => 1.5 < y < 2.5)). rewrite F1 in C. destruct C as [e C].
  - exists (mkposreal 0.5 ltac:(lra)). intros y B. apply Rabs_lt_between in B. cbn in B. unfold minus, plus, opp in B. cbn in B. lra.
  - set (x := Rmax (1/2) (1 - e / 2)). pose proof (cond_pos e) as PE.
    assert (X : 1/2 <= x < 1 /\ 1 - e / 2 <= x) by (unfold x, Rmax; destruct (Rle_dec (1/2) (1 - e/2)); lra).
    specialize (C x). cbv beta in C. rewrite F2 in C by lra. destruct C; [|lra].
    apply Rabs_lt_between. cbn. unfold minus, plus, opp. cbn. lra.
Qed.
Print Assumptions C40_unordered_breaks_refuted.

(** ** Chabrier2003 *)
Lemma chabrier_pos c m : 0 < c_sigma c -> 0 < c_break c -> 0 < m -> 0 < chabrier_imf c m.
Proof.
  intros S B M. unfold chabrier_imf. cbv zeta.
  assert (Q : 0 < sqrt (2 * PI) * c_sigma c).
  { apply Rmult_lt_0_compat; [|easy]. apply sqrt_lt_R0. pose proof PI_RGT_0. lra. }
  destruct (rltb m (c_break c)).
  - apply Rmult_lt_0_compat; [|apply exp_pos]. apply Rdiv_lt_0_compat; [lra|]. now apply Rmult_lt_0_compat.
  - apply Rmult_lt_0_compat; [|apply Rpower_pos]. apply Rmult_lt_0_compat; [|apply exp_pos].
    apply Rdiv_lt_0_compat; [lra|]. now apply Rmult_lt_0_compat.
Qed.
Lemma ln10_pos : 0 < ln 10.
Proof. rewrite <- ln_1. apply ln_increasing; lra. Qed.
Lemma chabrier_continuous c m : 0 < c_sigma c -> 0 < c_break c -> 0 < m -> continuous (chabrier_imf c) m.
Proof.
  intros S B M. pose proof ln10_pos as L10.
  assert (Q : 0 < sqrt (2 * PI) * c_sigma c).
  { apply Rmult_lt_0_compat; [|easy]. apply sqrt_lt_R0. pose proof PI_RGT_0. lra. }
  set (s := sqrt (2 * PI) * c_sigma c) in *.
  set (g := fun m => 1 / (m * s) * exp (- ((log10 m - log10 (c_mc c)) ^ 2 / (2 * c_sigma c ^ 2)))).
  set (C := g (c_break c)).
  apply (glue (chabrier_imf c) g (fun m => C * Rpower (m / c_break c) (- c_alpha c)) (c_break c)).
  - intros y Y. unfold chabrier_imf. cbv zeta. rewrite rltb_true by easy. reflexivity.
  - intros y Y. unfold chabrier_imf. cbv zeta. rewrite rltb_false by easy. reflexivity.
  - intros _. apply (ex_derive_continuous (K := R_AbsRing) (V := R_NormedModule)). unfold g, log10. auto_derive.
    repeat split; try lra. apply Rgt_not_eq, Rmult_lt_0_compat; lra.
  - intros _. now apply continuous_piece.
  - unfold C. replace (c_break c / c_break c) with 1 by (field; lra). rewrite Rpower_one_base. ring.
Qed.

(** Positive, continuous, a power law above the break; below it m f(m) is a normal curve in log10 m around m_c. *)
Theorem C40_chabrier2003 :
  forall mc sigma alpha b, 0 < mc -> 0 < sigma -> 0 < b ->
  let f := chabrier_imf (Chabrier mc sigma alpha b) in
  (forall m, 0 < m -> 0 < f m /\ continuous f m) /\
  (forall m m', b <= m -> b <= m' -> f m' = f m * Rpower (m' / m) (- alpha)) /\
  (forall m, 0 < m <= b -> exists t, Rpower 10 t = m / mc /\
     m * f m * sqrt (2 * PI) * sigma = exp (- (t ^ 2 / (2 * sigma ^ 2)))).
Proof.
  intros mc sigma alpha b MC S B f. pose proof ln10_pos as L10.
  assert (Q : 0 < sqrt (2 * PI)) by (apply sqrt_lt_R0; pose proof PI_RGT_0; lra).
  split; [|split].
  - intros m M. split; [now apply (chabrier_pos (Chabrier mc sigma alpha b))|now apply (chabrier_continuous (Chabrier mc sigma alpha b))].
  - intros m m' M M'. unfold f, chabrier_imf. cbv zeta. cbn [c_mc c_sigma c_alpha c_break]. rewrite !rltb_false by easy.
    rewrite (Rmult_assoc _ (Rpower (m / b) _)), (Rpower_ratio m b m') by lra. reflexivity.
  - intros m M. exists (log10 m - log10 mc). split.
    + unfold Rpower, log10. replace ((ln m / ln 10 - ln mc / ln 10) * ln 10) with (ln m + - ln mc) by (field; lra).
      rewrite exp_plus, exp_Ropp, !exp_ln by lra. reflexivity.
    + unfold f, chabrier_imf. cbv zeta. cbn [c_mc c_sigma c_alpha c_break]. destruct (Req_dec m b) as [-> |N].
      * rewrite rltb_false by lra. replace (b / b) with 1 by (field; lra). rewrite Rpower_one_base.
        set (e := exp _). field. repeat split; lra.
      * rewrite rltb_true by lra. set (e := exp _). field. repeat split; lra.
Qed.
Print Assumptions C40_chabrier2003.

Example C40_defaults :
  continuous (kroupa_imf (Kroupa 0.3 1.3 2.3 0.08 0.5 0.01)) 0.08 /\
  continuous (chabrier_imf (Chabrier 0.22 0.57 2.3 1)) 1.
Proof.
  split; [apply kroupa_continuous; [repeat split; cbn; lra|lra]|apply chabrier_continuous; cbn; lra].
Qed.
