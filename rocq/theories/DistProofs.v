(** Lemmas for C39. *)
From Coq Require Import List Bool Reals Lra.
From Coquelicot Require Import Coquelicot.
From Verif Require Import PyBase RealLemmas IntegralLemmas DistModel ImfProps DistSpec.
Open Scope R_scope.

Lemma is_density f g lo hi (k I : R) : lo < hi -> is_RInt_gen g (at_right lo) (at_left hi) I -> I <> 0 -> k = 1 / I ->
  (forall x, lo < x < hi -> f x = g x * k) -> (forall x, 0 <= f x) -> (forall x, x < lo \/ hi < x -> f x = 0) ->
  density f lo hi.
Proof.
  intros L HI NZ -> IN POS OUT. repeat split; try easy.
  apply (gen_ext (fun x => g x * (1 / I))); [easy| |].
  - intros x X. symmetry. now apply IN.
  - pose proof (gen_scale g lo hi I (1 / I) HI) as G. replace (I * (1 / I)) with 1 in G by (field; easy). exact G.
Qed.
Lemma is_follows f g lo hi k : (forall x, lo < x < hi -> f x = g x * k) -> (forall x, lo < x < hi -> 0 < g x) -> follows f g lo hi.
Proof. intros H P. split; [easy|]. intros x y X Y. rewrite !H by easy. ring. Qed.

(** Positive continuous shapes have a positive integral. *)
Lemma quad_positive (f g : R -> R) lo hi : lo < hi ->
  (forall x, lo < x < hi -> f x = g x) -> (forall x, lo <= x <= hi -> continuous g x) -> (forall x, lo < x < hi -> 0 < g x) ->
  0 < quad f lo hi /\ is_RInt_gen f (at_right lo) (at_left hi) (quad f lo hi).
Proof.
  intros L E C P. pose proof (gen_continuous f g lo hi L E C) as G. unfold quad. rewrite (gen_unique _ _ _ _ G). split; [|easy].
  now apply RInt_gt_0.
Qed.
Lemma quad_ordinary (f : R -> R) lo hi (v : R) : lo < hi -> (forall x, lo <= x <= hi -> continuous f x) -> is_RInt f lo hi v ->
  quad f lo hi = v.
Proof.
  intros L C H. unfold quad. rewrite (gen_unique _ _ _ _ (gen_continuous f f lo hi L (fun _ _ => eq_refl) C)).
  now apply is_RInt_unique.
Qed.

Lemma imf_base_works imf lo hi : 0 < lo ->
  (forall m, 0 < m -> 0 < imf m /\ continuous imf m) ->
  (lo < hi -> exists f, imf_base imf lo hi = Ok f /\ density f lo hi /\ follows f imf lo hi /\
     forall m, lo <= m <= hi -> f m = imf m / quad imf lo hi) /\
  (hi <= lo -> imf_base imf lo hi = Raise ValueError).
Proof.
  intros LO P. split.
  - intros L. destruct (quad_positive imf imf lo hi L) as [Q1 Q2]; [easy|intros x X; apply P; lra|intros x X; apply P; lra|].
    unfold imf_base. rewrite rleb_false by easy. cbv zeta. rewrite rltb_true by easy. cbn [negb].
    set (k := 1 / quad imf lo hi). exists (fun m => if rleb lo m && rleb m hi then imf m * k else 0).
    assert (IN : forall x, lo <= x <= hi -> (if rleb lo x && rleb x hi then imf x * k else 0) = imf x * k).
    { intros x X. now rewrite !rleb_true by lra. }
    assert (K : 0 < k) by (unfold k; apply Rdiv_lt_0_compat; lra).
    split; [reflexivity|]. split; [|split].
    + apply (is_density _ imf lo hi k (quad imf lo hi)); try easy; try lra.
      * intros x X. apply IN. lra.
      * intros x. destruct (rleb lo x) eqn:E; cbn [andb]; [|lra]. destruct (rleb x hi); [|lra].
        unfold rleb in E. destruct (Rle_dec lo x) as [LX|]; [|easy]. apply Rlt_le, Rmult_lt_0_compat; [|easy]. apply P. lra.
      * intros x [X|X]; [now rewrite rleb_false|]. rewrite (rleb_false x hi) by easy. now rewrite andb_false_r.
    + apply (is_follows _ imf lo hi k); [intros x X; apply IN; lra|intros x X; apply P; lra].
    + intros m M. rewrite IN by easy. unfold k. field. lra.
  - intros L. unfold imf_base. now rewrite rleb_true by easy.
Qed.

(** Inverse distribution functions. *)
Lemma is_samples (D : R -> Prop) (r f F : R -> R) lo hi :
  (forall x y, D x -> D y -> x < y -> F x < F y) -> D lo -> D hi -> (forall u, 0 <= u <= 1 -> D (r u)) ->
  F lo = 0 -> F hi = 1 -> (forall u, 0 <= u <= 1 -> F (r u) = u) ->
  (forall y, lo <= y <= hi -> is_RInt f lo y (F y)) -> samples r f lo hi.
Proof.
  intros INC DL DH DR FL FH FR INT.
  assert (INJ : forall x y, D x -> D y -> F x = F y -> x = y).
  { intros x y X Y E. destruct (Rtotal_order x y) as [L|[L|L]]; [|easy|]; apply INC in L; try easy; lra. }
  assert (MON : forall x y, D x -> D y -> F x <= F y -> x <= y).
  { intros x y X Y E. destruct (Rle_lt_dec x y) as [L|L]; [easy|]. apply INC in L; try easy. lra. }
  split; [|split; [|split]].
  - apply INJ; [apply DR; lra|easy|]. rewrite FR, FL; lra.
  - apply INJ; [apply DR; lra|easy|]. rewrite FR, FH; lra.
  - intros u U. assert (B : lo <= r u <= hi).
    { split; apply MON; try easy; try (now apply DR); rewrite ?FR, ?FL, ?FH by easy; lra. }
    split; [easy|]. rewrite <- (FR u U) at 2. now apply INT.
  - intros u v U UV V. destruct (Rlt_le_dec (r u) (r v)) as [L|L]; [easy|].
    destruct (Req_dec (r v) (r u)) as [E|N].
    + assert (F (r v) = F (r u)) by now rewrite E. rewrite !FR in H by lra. lra.
    + assert (F (r v) < F (r u)) by (apply INC; [apply DR; lra|apply DR; lra|lra]). rewrite !FR in H by lra. lra.
Qed.
Lemma integral_from_derivative (f g F : R -> R) lo y (l : R) : lo <= y ->
  (forall x, lo < x < y -> f x = g x) ->
  (forall x, lo <= x <= y -> is_derive F x (g x)) -> (forall x, lo <= x <= y -> continuous g x) ->
  F y - F lo = l -> is_RInt f lo y l.
Proof.
  intros L E D C <-. apply (is_RInt_ext g).
  - intros x. rewrite Rmin_left, Rmax_right by easy. intros X. symmetry. now apply E.
  - apply (is_RInt_derive (V := R_CompleteNormedModule) F g); intros x; rewrite Rmin_left, Rmax_right by easy; [apply D|apply C].
Qed.

(** Decimal logarithms *)
Lemma log10_pow10 x : log10 (pow10 x) = x.
Proof. unfold log10, pow10, Rpower. rewrite ln_exp. field. pose proof ln10_pos. lra. Qed.
Lemma pow10_log10 x : 0 < x -> pow10 (log10 x) = x.
Proof.
  intros X. unfold log10, pow10, Rpower. replace (ln x / ln 10 * ln 10) with (ln x) by (field; pose proof ln10_pos; lra).
  now apply exp_ln.
Qed.
Lemma pow10_pos x : 0 < pow10 x.
Proof. apply Rpower_pos. Qed.
Lemma pow10_lt x y : x < y -> pow10 x < pow10 y.
Proof. intros L. apply Rpower_lt; lra. Qed.
Lemma pow10_le x y : x <= y -> pow10 x <= pow10 y.
Proof. intros [L| ->]; [left; now apply pow10_lt|right; reflexivity]. Qed.
Lemma log10_lt x y : 0 < x -> x < y -> log10 x < log10 y.
Proof.
  intros X L. unfold log10. apply Rmult_lt_compat_r; [apply Rinv_0_lt_compat, ln10_pos|]. now apply ln_increasing.
Qed.
Lemma log10_le x y : 0 < x -> x <= y -> log10 x <= log10 y.
Proof. intros X [L| ->]; [left; now apply log10_lt|right; reflexivity]. Qed.
Lemma rleb_iff x y : rleb x y = true <-> x <= y.
Proof. unfold rleb. destruct (Rle_dec x y); split; intros; try easy; lra. Qed.
Lemma rleb_log_l lo x : 0 < lo -> rleb lo (pow10 x) = rleb (log10 lo) x.
Proof.
  intros L. destruct (Rle_lt_dec (log10 lo) x) as [H|H].
  - rewrite !rleb_true; try easy. rewrite <- (pow10_log10 lo) by easy. now apply pow10_le.
  - rewrite !rleb_false; try easy. rewrite <- (pow10_log10 lo) by easy. now apply pow10_lt.
Qed.
Lemma rleb_log_r hi x : 0 < hi -> rleb (pow10 x) hi = rleb x (log10 hi).
Proof.
  intros L. destruct (Rle_lt_dec x (log10 hi)) as [H|H].
  - rewrite !rleb_true; try easy. rewrite <- (pow10_log10 hi) by easy. now apply pow10_le.
  - rewrite !rleb_false; try easy. rewrite <- (pow10_log10 hi) by easy. now apply pow10_lt.
Qed.
Lemma continuous_one x : continuous (fun _ : R => 1) x.
Proof. apply continuous_const. Qed.
Lemma continuous_phi z : continuous phi z.
Proof.
  apply (ex_derive_continuous (K := R_AbsRing) (V := R_NormedModule)). unfold phi. auto_derive.
  repeat split.
Qed.
Lemma phi_pos z : 0 < phi z.
Proof. unfold phi. apply Rdiv_lt_0_compat; [apply exp_pos|]. apply sqrt_lt_R0. pose proof PI_RGT_0. lra. Qed.
Lemma limit_right (F : R -> R) x : continuous F x -> filterlim F (at_right x) (locally (F x)).
Proof. intros C P HP. destruct (C P HP) as [e H]. exists e. intros y B _. now apply H. Qed.
Lemma limit_left (F : R -> R) x : continuous F x -> filterlim F (at_left x) (locally (F x)).
Proof. intros C P HP. destruct (C P HP) as [e H]. exists e. intros y B _. now apply H. Qed.
Lemma is_RInt_value (f : R -> R) a b (v w : R) : is_RInt f a b v -> v = w -> is_RInt f a b w.
Proof. now intros H <-. Qed.
