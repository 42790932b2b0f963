(** The periods of Sana et al.: the rest of property C39. *)
From Coq Require Import String List Bool Reals Lra.
From Coquelicot Require Import Coquelicot.
From Verif Require Import PyBase OrbitModel RealLemmas IntegralLemmas DistModel ImfProps DistSpec DistProofs DistProps.
Open Scope R_scope.

(** What the constant of the code for masses above 15 divides by. *)
Definition sana_total (lo hi : R) : R :=
  Rpower (15/100) (- (55/100)) * (15/100 - log10 lo) + (Rpower (log10 hi) (45/100) - Rpower (15/100) (45/100)) / (45/100).

Lemma sana_C_value lo hi : 1 < hi -> sana_total lo hi <> 0 -> sana_C lo hi = Some (1 / sana_total lo hi).
Proof.
  intros H N. assert (L : 0 < log10 hi).
  { replace 0 with (log10 1) by (unfold log10; rewrite ln_1; field; pose proof ln10_pos; lra). apply log10_lt; lra. }
  unfold sana_C. cbv zeta. rewrite log10_pow10. unfold fpow. rewrite rltb_false, reqb_false by lra.
  replace (1 - sana_slope) with (45/100) by (unfold sana_slope; lra). replace (- sana_slope) with (- (55/100)) by (unfold sana_slope; lra).
  replace 0.15 with (15/100) by lra.
  assert (E : Rpower (15/100) (- (55/100)) * (15/100 - log10 lo) + 1 / (45/100) * (Rpower (log10 hi) (45/100) - Rpower (15/100) (45/100))
              = sana_total lo hi) by (unfold sana_total; field).
  rewrite E. now rewrite reqb_false.
Qed.
Lemma sana_C_nan lo hi : 0 < hi -> hi < 1 -> sana_C lo hi = None.
Proof.
  intros P H. assert (L : log10 hi < 0).
  { replace 0 with (log10 1) by (unfold log10; rewrite ln_1; field; pose proof ln10_pos; lra). now apply log10_lt. }
  unfold sana_C. cbv zeta. unfold fpow. now rewrite rltb_true.
Qed.
Lemma sana_high_value C lo hi x : log10 lo <= x <= log10 hi ->
  sana_high C lo hi x = C * Rpower (Rmax x (15/100)) (- (55/100)).
Proof.
  intros X. unfold sana_high. replace (- sana_slope) with (- (55/100)) by (unfold sana_slope; lra). replace 0.15 with (15/100) by lra.
  destruct (Rle_lt_dec (15/100) x) as [H|H].
  - rewrite !rleb_true by lra. cbn [andb]. now rewrite Rmax_left.
  - rewrite (rleb_false (15/100)) by easy. cbn [andb]. rewrite rleb_true, rltb_true by lra. cbn [andb]. now rewrite Rmax_right by lra.
Qed.
Lemma continuous_sana x : continuous (fun x => Rpower (Rmax x (15/100)) (- (55/100))) x.
Proof.
  apply (glue _ (fun _ => Rpower (15/100) (- (55/100))) (fun x => Rpower x (- (55/100))) (15/100)).
  - intros y Y. now rewrite Rmax_right by lra.
  - intros y Y. now rewrite Rmax_left by lra.
  - intros _. apply continuous_const.
  - intros X. apply continuous_power. lra.
  - reflexivity.
Qed.

Theorem C39_sana12 :
  forall lo hi,
  (0 < lo /\ lo < hi -> exists pdf, Sana12Period lo hi = Ok pdf /\
     (forall p m1, p < lo \/ hi < p -> pdf p m1 = Ok (Some 0)) /\
     (forall p m1, lo <= p <= hi -> m1 <= 0 -> pdf p m1 = Raise ValueError) /\
     (forall m1, 0 < m1 <= 15 -> exists f, (forall x, pdf (Rpower 10 x) m1 = Ok (Some (f x))) /\
        density f (log10 lo) (log10 hi) /\ follows f (fun _ => 1) (log10 lo) (log10 hi) /\
        samples (fun u => log10 (log_uniform_rvs lo hi u)) f (log10 lo) (log10 hi)) /\
     (forall m1, 15 < m1 -> 1 < hi -> sana_total lo hi <> 0 -> exists f, (forall x, pdf (Rpower 10 x) m1 = Ok (Some (f x))) /\
        density f (log10 lo) (log10 hi) /\ follows f (fun x => Rpower (Rmax x (15/100)) (- (55/100))) (log10 lo) (log10 hi)) /\
     (forall p m1, 15 < m1 -> lo <= p <= hi -> hi < 1 -> pdf p m1 = Ok None)) /\
  (~ (0 < lo /\ lo < hi) -> Sana12Period lo hi = Raise ValueError).
Proof.
  intros lo hi. split.
  - intros [A B]. unfold Sana12Period. rewrite (rleb_false lo 0), (rleb_false hi lo) by lra. cbv zeta.
    pose proof (log10_lt lo hi A B) as L. set (a := log10 lo) in *. set (b := log10 hi) in *.
    assert (Q : quad (fun _ => 1) a b = b - a).
    { apply quad_ordinary; [easy|intros; apply continuous_one|].
      apply (is_RInt_value _ _ _ _ (b - a) (is_RInt_const (V := R_NormedModule) a b 1)). exact (Rmult_1_r _). }
    rewrite Q. rewrite (reqb_false (b - a) 0) by lra. cbn [orb].
    set (h := fun x => Rpower (Rmax x (15/100)) (- (55/100))).
    destruct (quad_positive h h a b L) as [HP HG]; [easy|intros; apply continuous_sana|intros; apply Rpower_pos|].
    set (J := quad h a b) in *.
    assert (QC : forall C, is_RInt_gen (sana_high C lo hi) (at_right a) (at_left b) (J * C) /\ quad (sana_high C lo hi) a b = J * C).
    { intros C. assert (G : is_RInt_gen (sana_high C lo hi) (at_right a) (at_left b) (J * C)).
      { eapply gen_ext; [easy| |apply (gen_scale _ _ _ _ C HG)]. intros x X. cbv beta. rewrite sana_high_value by (unfold a, b in X; lra).
        unfold h. ring. }
      split; [easy|]. unfold quad. now apply gen_unique. }
    assert (CNZ : forall C, sana_C lo hi = Some C -> C <> 0).
    { intros C. unfold sana_C. cbv zeta. destruct (fpow _ _) as [x|]; [|discriminate].
      set (t := _ + _). destruct (Req_dec t 0) as [Z|NZ]; [now rewrite reqb_true|]. rewrite reqb_false by easy.
      intros E. assert (C = 1 / t) by congruence. subst C. unfold Rdiv. rewrite Rmult_1_l. now apply Rinv_neq_0_compat. }
    assert (NOT0 : match lift1 (fun C => quad (sana_high C lo hi) a b) (sana_C lo hi) with Some i => reqb i 0 | None => false end = false).
    { destruct (sana_C lo hi) as [C|] eqn:E; [|reflexivity]. unfold lift1. rewrite (proj2 (QC C)). apply reqb_false.
      apply Rmult_integral_contrapositive_currified; [lra|]. now apply CNZ. }
    rewrite NOT0. eexists. split; [reflexivity|].
    assert (IN : forall x, rleb lo (pow10 x) && rleb (pow10 x) hi = rleb a x && rleb x b).
    { intros x. now rewrite rleb_log_l, rleb_log_r by lra. }
    split; [|split; [|split; [|split]]].
    + intros p m1 [X|X]; [now rewrite (rleb_false lo p)|]. now rewrite (rleb_false p hi), andb_false_r by easy.
    + intros p m1 P M. now rewrite !rleb_true by lra.
    + intros m1 M. exists (fun x => if rleb a x && rleb x b then 1 / (b - a) else 0). split.
      { intros x. fold (pow10 x). rewrite IN. destruct (rleb a x && rleb x b); [|reflexivity].
        rewrite (rleb_false m1 0), (rleb_true m1 15) by lra. do 2 f_equal. ring. }
      destruct (uniform_works (fun x => if rleb a x && rleb x b then 1 / (b - a) else 0) a b L) as (D & F & S).
      * intros x X. now rewrite !rleb_true by lra.
      * intros x. destruct (rleb a x && rleb x b); [|lra]. apply Rlt_le, Rdiv_lt_0_compat; lra.
      * intros x [X|X]; [now rewrite rleb_false by easy|]. now rewrite (rleb_false x b), andb_false_r by easy.
      * split; [easy|]. split; [easy|]. destruct S as (S0 & S1 & S2 & S3).
        assert (EQ : forall u, log10 (log_uniform_rvs lo hi u) = uniform_rvs a b u) by (intros u; apply log10_pow10).
        split; [now rewrite EQ|]. split; [now rewrite EQ|]. split.
        -- intros u U. rewrite EQ. now apply S2.
        -- intros u v U V W. rewrite !EQ. now apply S3.
    + intros m1 M H1 NZ. pose proof (sana_C_value lo hi H1 NZ) as EC. set (C := 1 / sana_total lo hi) in *.
      assert (CN := CNZ C EC).
      exists (fun x => if rleb a x && rleb x b then h x * (1 / J) else 0). split.
      { intros x. fold (pow10 x). rewrite IN. destruct (rleb a x && rleb x b) eqn:E; [|reflexivity].
        apply andb_prop in E. rewrite !rleb_iff in E.
        rewrite (rleb_false m1 0), (rleb_false m1 15) by lra. rewrite EC. unfold lift1, lift2. do 2 f_equal.
        rewrite (proj2 (QC C)), log10_pow10, sana_high_value by (fold a b; lra). fold (h x). field. split; lra. }
      split.
      * apply (is_density _ h a b (1 / J) J); try easy; try lra.
        -- intros x X. now rewrite !rleb_true by lra.
        -- intros x. destruct (rleb a x && rleb x b); [|lra]. apply Rmult_le_pos; [apply Rlt_le, Rpower_pos|].
           apply Rlt_le, Rdiv_lt_0_compat; lra.
        -- intros x [X|X]; [now rewrite rleb_false by easy|]. now rewrite (rleb_false x b), andb_false_r by easy.
      * apply (is_follows _ h a b (1 / J)); [|intros; apply Rpower_pos]. intros x X. now rewrite !rleb_true by lra.
    + intros p m1 M P H. rewrite (rleb_true lo p), (rleb_true p hi) by lra. cbn [andb].
      rewrite (rleb_false m1 0), (rleb_false m1 15) by lra. now rewrite sana_C_nan by lra.
  - intros N. unfold Sana12Period. destruct (Rle_lt_dec lo 0) as [H|H]; [now rewrite (rleb_true lo 0)|].
    rewrite (rleb_false lo 0) by easy. destruct (Rle_lt_dec hi lo) as [H'|H']; [now rewrite (rleb_true hi lo)|]. exfalso. apply N. easy.
Qed.
Print Assumptions C39_sana12.

(** The constant is positive when the break lies in the range of periods, as with the default limits. *)
Theorem C39_sana12_usual : forall lo hi, 0 < lo -> lo < hi -> lo <= Rpower 10 (15/100) <= hi -> 0 < sana_total lo hi.
Proof.
  intros lo hi A B [H1 H2]. pose proof (log10_lt lo hi A B) as L.
  assert (E : log10 (Rpower 10 (15/100)) = 15/100) by apply log10_pow10.
  assert (L1 : log10 lo <= 15/100) by (rewrite <- E; now apply log10_le).
  assert (L2 : 15/100 <= log10 hi) by (rewrite <- E; apply log10_le; [apply Rpower_pos|easy]).
  unfold sana_total. pose proof (Rpower_pos (15/100) (- (55/100))).
  assert (P1 : 0 <= Rpower (15/100) (- (55/100)) * (15/100 - log10 lo)) by (apply Rmult_le_pos; lra).
  destruct (Req_dec (log10 hi) (15/100)) as [E2|N].
  - rewrite E2. assert (0 < Rpower (15/100) (- (55/100)) * (15/100 - log10 lo)) by (apply Rmult_lt_0_compat; lra). lra.
  - assert (Rpower (15/100) (45/100) < Rpower (log10 hi) (45/100)); [|lra]. apply Rlt_Rpower_l; lra.
Qed.
Print Assumptions C39_sana12_usual.

Lemma log10_10 : log10 10 = 1.
Proof. unfold log10. field. pose proof ln10_pos. lra. Qed.
Lemma log10_100 : log10 100 = 2.
Proof. unfold log10. replace 100 with (10 * 10) by ring. rewrite ln_mult by lra. field. pose proof ln10_pos. lra. Qed.
(** With periods between 10 and 100 days the constant is negative, and so is the function that rejection sampling is given. *)
Theorem C39_sana12_shape_refuted :
  exists C, sana_C 10 100 = Some C /\ forall x, 1 <= x <= 2 -> sana_high C 10 100 x < 0.
Proof.
  assert (T : sana_total 10 100 < 0).
  { unfold sana_total. rewrite log10_10, log10_100.
    set (s := Rpower 2 (45/100)). set (t := Rpower (15/100) (45/100)). set (r := Rpower (15/100) (- (55/100))).
    assert (ER : r = t / (15/100)).
    { unfold r, t. replace (- (55/100)) with (45/100 + - (1)) by lra. rewrite Rpower_plus, Rpower_Ropp, Rpower_1 by lra. field. }
    assert (TP : 0 < t) by apply Rpower_pos.
    assert (ST : s = t * Rpower (40/3) (45/100)).
    { unfold s, t. rewrite Rpower_mult_distr by lra. f_equal. field. }
    assert (K : Rpower (40/3) (45/100) < 355/100).
    { destruct (Rlt_le_dec (Rpower (40/3) (45/100)) (355/100)) as [H|H]; [easy|]. exfalso.
      assert (P : Rpower (355/100) 20 <= Rpower (Rpower (40/3) (45/100)) 20) by (apply Rle_Rpower_l; lra).
      rewrite Rpower_mult in P. replace (45/100 * 20) with (INR 9) in P by (cbn; lra). replace 20 with (INR 20) in P by (cbn; lra).
      rewrite !Rpower_pow in P by lra. cbn in P. lra. }
    rewrite ER. assert (s < t * (355/100)) by (rewrite ST; now apply Rmult_lt_compat_l). lra. }
  exists (1 / sana_total 10 100). split; [apply sana_C_value; lra|].
  intros x X. rewrite sana_high_value by (rewrite log10_10, log10_100; lra).
  pose proof (Rpower_pos (Rmax x (15/100)) (- (55/100))).
  assert (1 / sana_total 10 100 < 0).
  { unfold Rdiv. rewrite Rmult_1_l. now apply Rinv_lt_0_compat. }
  rewrite <- (Rmult_0_l (Rpower (Rmax x (15/100)) (- (55/100)))). now apply Rmult_lt_compat_r.
Qed.
Print Assumptions C39_sana12_shape_refuted.

Example C39_sana12_defaults :
  exists pdf f, Sana12Period 0.35 6000 = Ok pdf /\ (forall x, pdf (Rpower 10 x) 30 = Ok (Some (f x))) /\
  density f (log10 0.35) (log10 6000).
Proof.
  destruct (C39_sana12 0.35 6000) as [W _]. destruct W as (pdf & E & _ & _ & _ & H & _); [lra|].
  destruct (H 30) as (f & F & D & _); [lra|lra| |now exists pdf, f].
  apply Rgt_not_eq, C39_sana12_usual; try lra.
  assert (B : 1 < Rpower 10 (15/100)) by (rewrite <- (Rpower_O 10) at 1 by lra; apply Rpower_lt; lra).
  assert (B' : Rpower 10 (15/100) < 10) by (rewrite <- (Rpower_1 10) at 2 by lra; apply Rpower_lt; lra). lra.
Qed.
