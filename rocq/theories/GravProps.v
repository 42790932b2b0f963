(** C76: the gravitational mass of a compact object.  C77: the speed of natal kicks. *)
From Coq Require Import Reals String Bool List Lra Psatz.
From Verif Require Import PyBase GravModel.
Open Scope R_scope.

(** ** C76, specification *)
(** The baryonic mass is the gravitational mass and its binding energy, 0.075 g^2. *)
Definition baryonic (g : R) : R := g + 75 / 1000 * (g * g).

Lemma root_facts m : 0 <= m -> let s := sqrt (1 + 3 / 10 * m) in 1 <= s /\ s * s = 1 + 3 / 10 * m.
Proof.
  intros M. cbv zeta. assert (E : sqrt (1 + 3 / 10 * m) * sqrt (1 + 3 / 10 * m) = 1 + 3 / 10 * m) by (apply sqrt_sqrt; lra). split; [|exact E].
  rewrite <- sqrt_1 at 1. apply sqrt_le_1_alt. lra.
Qed.
Lemma lattimer_bary m : 0 <= m -> 0 <= lattimer m /\ baryonic (lattimer m) = m.
Proof. intros M. destruct (root_facts m M) as [S1 S2]. unfold lattimer, baryonic. set (s := sqrt (1 + 3 / 10 * m)) in *. split; nra. Qed.
Lemma bary_mono a b : 0 <= a -> a < b -> baryonic a < baryonic b.
Proof. unfold baryonic. intros A B. nra. Qed.
Lemma bary_lattimer g : 0 <= g -> lattimer (baryonic g) = g.
Proof.
  intros G. assert (B : 0 <= baryonic g) by (unfold baryonic; nra). destruct (lattimer_bary _ B) as [L E].
  destruct (Rtotal_order (lattimer (baryonic g)) g) as [H|[H|H]]; [|exact H|]; exfalso.
  - assert (X := bary_mono _ _ L H). lra.
  - assert (X := bary_mono _ _ G H). lra.
Qed.
Lemma lattimer_mono a b : 0 <= a -> a < b -> lattimer a < lattimer b.
Proof.
  intros A B. destruct (lattimer_bary a A) as [La Ea]. destruct (lattimer_bary b) as [Lb Eb]; [lra|].
  destruct (Rlt_le_dec (lattimer a) (lattimer b)) as [H|H]; [exact H|exfalso]. destruct H as [H|H]; [assert (X := bary_mono _ _ Lb H); lra|rewrite H in Eb; lra].
Qed.
Lemma grav_max loss m : m_grav loss m = Rmax (lattimer m) (m - loss).
Proof. unfold m_grav, Rmax. destruct (Rlt_dec loss (m - lattimer m)); destruct (Rle_dec (lattimer m) (m - loss)); lra. Qed.

(** ** C76, theorems *)
(** The gravitational mass: the one whose binding energy makes up the baryonic mass, unless more than the maximal loss would be radiated. *)
Theorem C76_mass : forall loss m g, 0 <= loss -> 0 <= m -> (m_grav loss m = g <->
  (0 <= g /\ baryonic g = m /\ m - g <= loss) \/ (g = m - loss /\ 0 <= g /\ m <= baryonic g)).
Proof.
  intros loss m g L M. destruct (lattimer_bary m M) as [G E]. unfold m_grav. split.
  - destruct (Rlt_dec loss (m - lattimer m)) as [H|H]; intros <-.
    + right. split; [reflexivity|]. split; [lra|]. unfold baryonic in *. nra.
    + left. split; [exact G|]. split; [exact E|lra].
  - intros [(A & B & D)|(A & B & D)].
    + assert (g = lattimer m) as -> by (rewrite <- B; symmetry; apply bary_lattimer; exact A). destruct (Rlt_dec loss (m - lattimer m)); lra.
    + subst g. assert (lattimer m <= m - loss). { destruct (Rlt_le_dec (m - loss) (lattimer m)) as [X|X]; [|exact X]. assert (Y := bary_mono _ _ B X). lra. }
      destruct (Rlt_dec loss (m - lattimer m)); lra.
Qed.
(** No remnant gains mass, none loses more than the maximum, and the order of masses is kept. *)
Theorem C76_bounds : forall loss m, 0 <= loss -> 0 < m -> 0 < m_grav loss m /\ m_grav loss m <= m /\ m - m_grav loss m <= loss
  /\ delta_M loss m = m - m_grav loss m.
Proof.
  intros loss m L M. destruct (lattimer_bary m ltac:(lra)) as [G E]. assert (P : 0 < lattimer m) by (destruct G as [G|G]; [exact G|rewrite <- G in E; unfold baryonic in E; lra]).
  assert (U : lattimer m <= m) by (rewrite <- E at 2; unfold baryonic; nra). unfold delta_M. cbv zeta. rewrite grav_max. unfold Rmax. destruct (Rle_dec (lattimer m) (m - loss)).
  - destruct (Rlt_dec loss (m - (m - loss))); repeat split; lra.
  - destruct (Rlt_dec loss (m - lattimer m)); repeat split; lra.
Qed.
Theorem C76_monotone : forall loss m m', 0 <= m -> m < m' -> m_grav loss m < m_grav loss m'.
Proof.
  intros loss m m' M H. rewrite !grav_max. assert (X := lattimer_mono _ _ M H). unfold Rmax.
  destruct (Rle_dec (lattimer m) (m - loss)); destruct (Rle_dec (lattimer m') (m' - loss)); lra.
Qed.
(** The baryonic mass from which on an object has at least the gravitational mass [g] (the border between neutron stars and black holes). *)
Theorem C76_border : forall loss m g, 0 <= loss -> 0 <= m -> 0 <= g -> (g <= m_grav loss m <-> Rmin (baryonic g) (g + loss) <= m).
Proof.
  intros loss m g L M G. rewrite grav_max. destruct (lattimer_bary m M) as [Lm E].
  assert (K : g <= lattimer m <-> baryonic g <= m).
  { split; intros H.
    - destruct H as [H|H]; [assert (X := bary_mono _ _ G H); lra|rewrite H; lra].
    - destruct (Rlt_le_dec (lattimer m) g) as [X|X]; [|exact X]. assert (Y := bary_mono _ _ Lm X). lra. }
  unfold Rmax, Rmin. destruct (Rle_dec (lattimer m) (m - loss)); destruct (Rle_dec (baryonic g) (g + loss)); split; intros H.
  - destruct (Rle_dec g (lattimer m)) as [X|X]; [apply K; exact X|lra].
  - apply K in H. lra.
  - lra.
  - lra.
  - apply K; exact H.
  - apply K; exact H.
  - apply K in H. lra.
  - apply Rnot_lt_le. intros X. lra.
Qed.
(** The baryonic mass used for the kick of an asymmetric explosion is the mass that collapsed, as long as the loss was not limited; otherwise it is too large. *)
Theorem C76_inverse : forall loss m, 0 <= loss -> 0 <= m -> (M_rembar (m_grav loss m) = m <-> m - lattimer m <= loss).
Proof.
  intros loss m L M. assert (B : forall g, M_rembar g = baryonic g) by (intros g; unfold M_rembar, baryonic; field). rewrite B. destruct (lattimer_bary m M) as [G E].
  unfold m_grav. destruct (Rlt_dec loss (m - lattimer m)) as [H|H].
  - split; [|lra]. intros X. exfalso. assert (Y := bary_mono (lattimer m) (m - loss) G ltac:(lra)). lra.
  - split; [intros _; lra|intros _; exact E].
Qed.
Theorem C76_inverse_refuted : exists m, 0 < m /\ M_rembar (m_grav (1 / 2) m) > m + 6.
Proof.
  exists 10. split; [lra|]. destruct (lattimer_bary 10) as [G E]; [lra|]. assert (lattimer 10 < 95 / 10) by (unfold baryonic in E; nra).
  unfold m_grav. destruct (Rlt_dec (1 / 2) (10 - lattimer 10)); [|lra]. unfold M_rembar. lra.
Qed.
Example grav_example : m_grav (1 / 2) (baryonic (14 / 10)) = 14 / 10 /\ baryonic (14 / 10) = 1547 / 1000 /\ m_grav (1 / 2) 40 = 395 / 10.
Proof.
  split; [|split; [unfold baryonic; lra|]].
  - apply C76_mass; [lra|unfold baryonic; lra|]. left. unfold baryonic. repeat split; lra.
  - apply C76_mass; [lra|lra|]. right. unfold baryonic. repeat split; lra.
Qed.
(** With the default values (at most 0.5 solar masses radiated, neutron stars up to 2.5) a remnant of 2.96875 solar masses is the lightest black hole. *)
Example border_example : forall m, 0 <= m -> (25 / 10 <= m_grav (1 / 2) m <-> 296875 / 100000 <= m).
Proof. intros m M. rewrite C76_border; [|lra|lra|lra]. unfold baryonic, Rmin. destruct (Rle_dec (25 / 10 + 75 / 1000 * (25 / 10 * (25 / 10))) (25 / 10 + 1 / 2)); lra. Qed.

(** ** C77, specification *)
Open Scope string_scope.
Definition NORMALISATIONS : list string := ("one_minus_fallback" :: "one_over_mass" :: "NS_one_minus_fallback_BH_one" :: "one" :: "zero" :: nil)%list.
Definition PRESCRIPTIONS : list string := ("maxwellian" :: "log_normal" :: "asym_ej" :: "linear" :: nil)%list.
(** The factor of the speed. *)
Definition factor (n : string) (s : kstar) (x : R) : Prop :=
  (n = "one_minus_fallback" /\ x = (1 - k_f_fb s)%R) \/ (n = "one_over_mass" /\ k_state s = "BH" /\ (x * k_mass s = 14 / 10)%R) \/ (n = "one_over_mass" /\ k_state s <> "BH" /\ x = 1%R)
  \/ (n = "NS_one_minus_fallback_BH_one" /\ k_state s = "BH" /\ x = 1%R) \/ (n = "NS_one_minus_fallback_BH_one" /\ k_state s <> "BH" /\ x = (1 - k_f_fb s)%R)
  \/ (n = "one" /\ x = 1%R) \/ (n = "zero" /\ x = 0%R).
(** The speed before the factor. *)
Definition speed (maxwell : R -> R) (lognorm : R -> R -> R) (p : string) (s : kstar) (sigma : R) (mean : option R) (v : R) : Prop :=
  (p = "maxwellian" /\ v = maxwell sigma) \/ (p = "log_normal" /\ exists e, (mean = Some e \/ mean = None /\ e = exp (56 / 10)) /\ v = lognorm sigma e)
  \/ (p = "asym_ej" /\ (v * k_mass s = 3165 / 100 * Rabs (k_last_mass s - baryonic (k_mass s)))%R)
  \/ (p = "linear" /\ (v * k_mass s = 115 * (k_last_co s - k_mass s) + 15 * k_mass s)%R).

Lemma norm_spec n s x : (0 < k_mass s)%R -> kick_normalisation n s = Ok x -> factor n s x.
Proof.
  intros M. unfold kick_normalisation, factor.
  destruct (String.eqb_spec n "one_minus_fallback"); [intros E; left; split; congruence|].
  destruct (String.eqb_spec n "one_over_mass").
  { destruct (String.eqb_spec (k_state s) "BH"); intros E; [right; left|right; right; left]; repeat split; try assumption; try congruence.
    assert (x = 14 / 10 / k_mass s)%R as -> by congruence. field. lra. }
  destruct (String.eqb_spec n "NS_one_minus_fallback_BH_one").
  { destruct (String.eqb_spec (k_state s) "BH"); intros E; do 3 right; [left|right; left]; repeat split; try assumption; congruence. }
  destruct (String.eqb_spec n "one"); [intros E; do 5 right; left; split; congruence|].
  destruct (String.eqb_spec n "zero"); [intros E; do 6 right; split; congruence|discriminate].
Qed.
Lemma root_tenth : sqrt (1 / 10 * (1 / 10) * 1) = (1 / 10)%R.
Proof. replace (1 / 10 * (1 / 10) * 1)%R with (1 / 10 * (1 / 10))%R by ring. apply sqrt_square. lra. Qed.
Lemma velocity_spec mx lg p s sigma mean v : (0 < k_mass s)%R -> kick_velocity mx lg p s sigma mean = Ok v -> speed mx lg p s sigma mean v.
Proof.
  intros M. unfold kick_velocity, speed.
  destruct (String.eqb_spec p "maxwellian"); [intros E; left; split; congruence|].
  destruct (String.eqb_spec p "log_normal"). { intros E; right; left; split; [assumption|]. destruct mean as [e'|]; eexists; (split; [|symmetry; injection E as E'; exact E']); auto. }
  destruct (String.eqb_spec p "asym_ej").
  { intros E; right; right; left; split; [assumption|]. cbv zeta in E. rewrite root_tenth in E.
    replace (M_rembar (k_mass s)) with (baryonic (k_mass s)) in E by (unfold baryonic, M_rembar; field).
    set (A := Rabs (k_last_mass s - baryonic (k_mass s))) in *. injection E as E. rewrite <- E. field. lra. }
  destruct (String.eqb_spec p "linear"); [|discriminate]. intros E. do 3 right. split; [assumption|]. injection E as E. rewrite <- E. field. lra.
Qed.

(** ** C77, theorems *)
(** A kick is the product of a factor and a speed; without a velocity dispersion there is no kick. *)
Theorem C77_kick : forall mx lg n p s sigma mean v, (0 < k_mass s)%R -> generate_kick mx lg n p s (Some sigma) mean = Ok v ->
  exists x w, factor n s x /\ speed mx lg p s sigma mean w /\ v = (x * w)%R.
Proof.
  intros mx lg n p s sigma mean v M. unfold generate_kick. destruct (kick_normalisation n s) as [x|] eqn:N; cbn [rbind]; [|discriminate].
  destruct (kick_velocity mx lg p s sigma mean) as [w|] eqn:W; cbn [rbind]; [|discriminate]. intros E. injection E as E. exists x, w.
  split; [exact (norm_spec _ _ _ M N)|]. split; [exact (velocity_spec _ _ _ _ _ _ _ M W)|]. symmetry; exact E.
Qed.
Theorem C77_no_dispersion : forall mx lg n p s mean, generate_kick mx lg n p s None mean = Ok 0%R.
Proof. reflexivity. Qed.
(** Exactly the documented options are accepted. *)
Theorem C77_options : forall mx lg n p s sigma mean, (exists v, generate_kick mx lg n p s (Some sigma) mean = Ok v) <-> In n NORMALISATIONS /\ In p PRESCRIPTIONS.
Proof.
  intros mx lg n p s sigma mean. unfold generate_kick. split.
  - intros (v & H). split.
    + unfold kick_normalisation in H. unfold NORMALISATIONS. cbn [In].
      destruct (String.eqb_spec n "one_minus_fallback"); [auto|]. destruct (String.eqb_spec n "one_over_mass"); [auto|]. destruct (String.eqb_spec n "NS_one_minus_fallback_BH_one"); [auto|].
      destruct (String.eqb_spec n "one"); [auto|]. destruct (String.eqb_spec n "zero"); [auto 10|discriminate].
    + destruct (kick_normalisation n s); cbn [rbind] in H; [|discriminate]. unfold kick_velocity in H. unfold PRESCRIPTIONS. cbn [In].
      destruct (String.eqb_spec p "maxwellian"); [auto|]. destruct (String.eqb_spec p "log_normal"); [auto|]. destruct (String.eqb_spec p "asym_ej"); [auto|].
      destruct (String.eqb_spec p "linear"); [auto|discriminate].
  - intros [[<-|[<-|[<-|[<-|[<-|[]]]]]] [<-|[<-|[<-|[<-|[]]]]]]; eexists; reflexivity.
Qed.
(** Factors are between 0 and 1: fallback fractions are fractions, and black holes have at least 1.4 solar masses. *)
Theorem C77_factor : forall n s x, (0 <= k_f_fb s <= 1)%R -> (k_state s = "BH" -> 14 / 10 <= k_mass s)%R -> factor n s x -> (0 <= x <= 1)%R.
Proof.
  intros n s x F B [(_ & ->)|[(_ & S & E)|[(_ & _ & ->)|[(_ & _ & ->)|[(_ & _ & ->)|[(_ & ->)|(_ & ->)]]]]]]; try lra.
  specialize (B S). split; nra.
Qed.
(** No kick is directed backwards, but for the linear prescription: there exactly for remnants heavier than 1.15 times the CO core. *)
Theorem C77_sign : forall mx lg p s sigma mean v, (forall x, 0 <= x -> 0 <= mx x)%R -> (forall x y, 0 <= x -> 0 <= lg x y)%R -> (0 < k_mass s)%R -> (0 <= sigma)%R ->
  speed mx lg p s sigma mean v -> ((v < 0)%R <-> p = "linear" /\ (115 * k_last_co s < 100 * k_mass s)%R).
Proof.
  intros mx lg p s sigma mean v MX LG M Sg [(-> & ->)|[(-> & e & _ & ->)|[(-> & E)|(-> & E)]]].
  - specialize (MX sigma Sg). split; [lra|intros [X _]; discriminate].
  - specialize (LG sigma e Sg). split; [lra|intros [X _]; discriminate].
  - assert (A := Rabs_pos (k_last_mass s - baryonic (k_mass s))). split; [intros X; exfalso; nra|intros [X _]; discriminate].
  - split; [intros X; split; [reflexivity|nra]|intros [_ X]]. nra.
Qed.
Theorem C77_sign_refuted : exists s v, (k_mass s <= k_last_mass s)%R /\ generate_kick (fun _ => 0%R) (fun _ _ => 0%R) "one" "linear" s (Some 265%R) None = Ok v /\ (v < -30)%R.
Proof. exists (KStar "BH" 20 1 25 (115 / 10)), (1 * (115 * ((115 / 10 - 20) / 20) + 15))%R. split; [cbn; lra|]. split; [reflexivity|lra]. Qed.
(** The deprecated normalisations are prescriptions with the factor 1. *)
Theorem C77_deprecated : forall n p, (n = "asym_ej" \/ n = "linear" -> kick_options n p = ("one", n)) /\ (n <> "asym_ej" -> n <> "linear" -> kick_options n p = (n, p)).
Proof.
  intros n p. split; [intros [-> | ->]; reflexivity|]. intros A B. unfold kick_options. apply String.eqb_neq in A, B. rewrite A, B. reflexivity.
Qed.
Example kick_example : generate_kick (fun x => (2 * x)%R) (fun _ _ => 0%R) "one_over_mass" "maxwellian" (KStar "BH" 14 1 25 11) (Some 265%R) None = Ok (14 / 10 / 14 * (2 * 265))%R
  /\ factor "one_over_mass" (KStar "BH" 14 1 25 11) (1 / 10).
Proof. split; [reflexivity|]. right; left. repeat split; cbn; lra. Qed.

Print Assumptions C76_mass.
Print Assumptions C76_bounds.
Print Assumptions C76_monotone.
Print Assumptions C76_border.
Print Assumptions C76_inverse.
Print Assumptions C76_inverse_refuted.
Print Assumptions C77_kick.
Print Assumptions C77_no_dispersion.
Print Assumptions C77_options.
Print Assumptions C77_factor.
Print Assumptions C77_sign.
Print Assumptions C77_sign_refuted.
Print Assumptions C77_deprecated.
