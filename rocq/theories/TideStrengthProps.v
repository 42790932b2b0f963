(** How strong tides are (C154). *)
From Coq Require Import Reals String Bool List Lra.
From Verif Require Import PyBase RealLemmas OrbitModel InspiralModel DetachedModel TidesProps.
Open Scope R_scope.

(** ** Specification *)
(** The rate in a star at which turbulence in a convective region dissipates tides, per year, if the star with its own rate of rotation is in
    an orbit with a mean motion of [n] (Hurley et al. 2002, equations 30 to 33): [tau] is the time in years in which eddies turn over, and
    tides that change faster are damped less. *)
Inductive convective (s : latest) (n : R) : R -> Prop :=
| conv_none : m_env s = None -> convective s n 0
| conv_slow m dr r tau : m_env s = Some m -> dr_env s = Some dr -> rmid_env s = Some r -> 0 < m -> 0 < dr -> 0 < r -> 0 < lum s ->
    0 < tau -> 3 * lum s * tau ^ 3 = 0.431 ^ 3 * (m * dr * r) -> Rabs (n - omega s) * tau <= c_pi ->
    convective s n (2 * m / (21 * mass s * tau))
| conv_fast m dr r tau : m_env s = Some m -> dr_env s = Some dr -> rmid_env s = Some r -> 0 < m -> 0 < dr -> 0 < r -> 0 < lum s ->
    0 < tau -> 3 * lum s * tau ^ 3 = 0.431 ^ 3 * (m * dr * r) -> c_pi <= Rabs (n - omega s) * tau ->
    convective s n (2 * m / (21 * mass s * tau) * (c_pi / ((n - omega s) * tau)) ^ 2).
(** The coefficient E2 of the dynamical tide: after the size of the convective core (Qin et al. 2018) if there is one, after the mass (Zahn
    1975) if not.  A core starts within a tenth of the radius. *)
Definition core_of (s : latest) (c : R) : Prop := rtop_env s - rbot_env s = c /\ 0 < c <= radius s /\ rbot_env s <= radius s / 10.
Inductive coefficient (s : latest) : R -> Prop :=
| coef_mass : (forall c, ~ core_of s c) -> coefficient s (1.592e-9 * Rpower (mass s) 2.84)
| coef_unknown c : core_of s c -> Xsurf s = None -> coefficient s (1.592e-9 * Rpower (mass s) 2.84)
| coef_H c X : core_of s c -> Xsurf s = Some X -> 0.4 < X -> coefficient s (Rpower 10 (- 0.42) * Rpower (c / radius s) 7.5)
| coef_He c X : core_of s c -> Xsurf s = Some X -> X <= 0.4 -> coefficient s (Rpower 10 (- 0.93) * Rpower (c / radius s) 6.7).
(** Per year; the separation and radius in solar radii and the masses in solar masses *)
Definition radiative (s companion : latest) (a k : R) : Prop :=
  exists E, coefficient s E /\
  k = sqrt (standard_cgrav * Msun / Rsun ^ 3 * mass s * radius s ^ 2 / a ^ 5) * Rpower ((mass s + mass companion) / mass s) (5 / 6) * E * secyer.
(** The change of the rate of rotation in a circular orbit if tides are dissipated at a rate [k] (Hut 1981, equation 11) *)
Definition spin_up (s companion : latest) (a n k : R) : R :=
  3 * k * mass companion ^ 2 / mass s * radius s ^ 8 / a ^ 6 / inertia s * (n - omega s).

(** ** Proofs *)
Lemma cube_root x y : 0 < x -> 0 < y -> x ^ 3 = y ^ 3 -> x = y.
Proof.
  intros X Y E. destruct (Rtotal_order x y) as [L | [H | L]]; [|exact H|]; exfalso.
  - assert (x * x < y * y) by nra. assert (x * (x * x) < y * (y * y)) by nra. simpl in E. nra.
  - assert (y * y < x * x) by nra. assert (y * (y * y) < x * (x * x)) by nra. simpl in E. nra.
Qed.
Lemma third_power x : 0 < x -> Rpower x (1 / 3) ^ 3 = x.
Proof.
  intros H. rewrite <- Rpower_pow by apply exp_pos. rewrite Rpower_mult. replace (1 / 3 * INR 3) with 1 by (simpl; lra). now apply Rpower_1.
Qed.
Lemma tau_spec s m dr r tau :
  m_env s = Some m -> dr_env s = Some dr -> rmid_env s = Some r -> 0 < m -> 0 < dr -> 0 < r -> 0 < lum s ->
  0 < tau -> 3 * lum s * tau ^ 3 = 0.431 ^ 3 * (m * dr * r) -> tau_conv s = tau.
Proof.
  intros E1 E2 E3 M D Rr L T C. unfold tau_conv, usable. rewrite E1, E2, E3.
  destruct (Req_EM_T m 0); [lra|]. destruct (Req_EM_T dr 0); [lra|]. destruct (Req_EM_T r 0); [lra|].
  assert (X : 0 < m * dr * r / (3 * lum s)) by (apply Rdiv_lt_0_compat; [repeat apply Rmult_lt_0_compat; assumption|lra]).
  assert (Y := exp_pos (1 / 3 * ln (m * dr * r / (3 * lum s)))). fold (Rpower (m * dr * r / (3 * lum s)) (1 / 3)) in Y.
  apply cube_root; [lra|exact T|]. rewrite Rpow_mult_distr, (third_power _ X).
  apply Rmult_eq_reg_l with (3 * lum s); [|lra]. rewrite C. field. lra.
Qed.
Lemma beat_spec s a m1 m2 : 0 < a -> 0 < m1 -> 0 < m2 ->
  1 / P_orb a m1 m2 - omega s / (2 * c_pi) = (orbital_rate m1 m2 a - omega s) / (2 * c_pi).
Proof.
  intros A H1 H2. rewrite <- mean_motion_rate by assumption. unfold mean_motion. assert (P := pi_pos).
  assert (Q : 0 < P_orb a m1 m2).
  { unfold P_orb. apply sqrt_lt_R0. assert (U := au_pos). apply Rdiv_lt_0_compat; [apply pow_lt; now apply Rdiv_lt_0_compat|lra]. }
  field. lra.
Qed.
Lemma conv_eval s c a k : 0 < a -> 0 < mass s -> 0 < mass c ->
  convective s (orbital_rate (mass c) (mass s) a) k -> kT_conv s (P_orb a (mass c) (mass s)) = k.
Proof.
  intros A Ms Mc H. assert (P := pi_pos). unfold kT_conv, f_conv. rewrite (beat_spec s a _ _ A Mc Ms).
  set (n := orbital_rate (mass c) (mass s) a) in *. clearbody n.
  assert (W : forall tau, 0 < tau -> n - omega s <> 0 ->
    (Rabs (1 / ((n - omega s) / (2 * c_pi))) / (2 * tau)) ^ 2 = (c_pi / ((n - omega s) * tau)) ^ 2).
  { intros tau T N. replace (Rabs (1 / ((n - omega s) / (2 * c_pi))) / (2 * tau)) with (Rabs (c_pi / ((n - omega s) * tau))); [apply pow2_abs|].
    replace (c_pi / ((n - omega s) * tau)) with (1 / ((n - omega s) / (2 * c_pi)) * / (2 * tau)) by (field; repeat split; lra).
    rewrite Rabs_mult, Rabs_inv, (Rabs_pos_eq (2 * tau)) by lra. reflexivity. }
  assert (V : forall tau, 0 < tau -> n - omega s <> 0 -> (c_pi / ((n - omega s) * tau)) ^ 2 = (c_pi / (Rabs (n - omega s) * tau)) ^ 2).
  { intros tau T N. rewrite <- (pow2_abs (c_pi / ((n - omega s) * tau))). f_equal. unfold Rdiv. rewrite Rabs_mult, Rabs_inv, Rabs_mult.
    rewrite (Rabs_pos_eq c_pi), (Rabs_pos_eq tau) by lra. reflexivity. }
  assert (Z : n - omega s = 0 \/ n - omega s <> 0) by (destruct (Req_EM_T (n - omega s) 0); [now left | now right]).
  destruct H as [E | m dr r tau E1 E2 E3 M D Rr L T C F | m dr r tau E1 E2 E3 M D Rr L T C F].
  - now rewrite E.
  - rewrite E1, (tau_spec s m dr r tau E1 E2 E3 M D Rr L T C).
    destruct Z as [Z | Z].
    + rewrite Z. destruct (Req_EM_T (0 / (2 * c_pi)) 0) as [_ | K]; [|elim K; unfold Rdiv; ring]. field. lra.
    + assert (B : (n - omega s) / (2 * c_pi) <> 0).
      { intros K. apply Z. apply Rmult_eq_reg_r with (/ (2 * c_pi)); [unfold Rdiv in K; lra|]. apply Rinv_neq_0_compat. lra. }
      destruct (Req_EM_T ((n - omega s) / (2 * c_pi)) 0) as [K | _]; [contradiction|].
      rewrite W, V by assumption. rewrite Rmin_left; [field; lra|].
      assert (Ab := Rabs_pos_lt _ Z). set (b := Rabs (n - omega s)) in *. assert (bt : 0 < b * tau) by now apply Rmult_lt_0_compat.
      assert (O : 1 <= c_pi / (b * tau)) by (apply Rmult_le_reg_r with (b * tau); [exact bt|]; unfold Rdiv; rewrite Rmult_assoc, Rinv_l; lra).
      nra.
  - rewrite E1, (tau_spec s m dr r tau E1 E2 E3 M D Rr L T C).
    destruct Z as [Z | Z]; [rewrite Z, Rabs_R0 in F; lra|].
    assert (B : (n - omega s) / (2 * c_pi) <> 0).
    { intros K. apply Z. apply Rmult_eq_reg_r with (/ (2 * c_pi)); [unfold Rdiv in K; lra|]. apply Rinv_neq_0_compat. lra. }
    destruct (Req_EM_T ((n - omega s) / (2 * c_pi)) 0) as [K | _]; [contradiction|].
    rewrite W by assumption. rewrite Rmin_right; [field; repeat split; lra|]. rewrite V by assumption.
    assert (Ab := Rabs_pos_lt _ Z). set (b := Rabs (n - omega s)) in *. assert (bt : 0 < b * tau) by now apply Rmult_lt_0_compat.
    assert (O : 0 < c_pi / (b * tau)) by now apply Rdiv_lt_0_compat.
    assert (Q : c_pi / (b * tau) <= 1) by (apply Rmult_le_reg_r with (b * tau); [exact bt|]; unfold Rdiv; rewrite Rmult_assoc, Rinv_l; lra).
    nra.
Qed.
Lemma coef_eval s E : 0 < radius s -> coefficient s E -> E2 s = E.
Proof.
  intros P H. unfold E2. set (d := rtop_env s - rbot_env s).
  assert (G : 0.1 < rbot_env s / radius s <-> ~ rbot_env s <= radius s / 10).
  { replace (rbot_env s) with (rbot_env s / radius s * radius s) at 2 by (field; lra). split; intros K; nra. }
  assert (Y : forall c, core_of s c -> c = d /\ ~ radius s < d /\ ~ d <= 0 /\ ~ 0.1 < rbot_env s / radius s).
  { intros c (C1 & C2 & C3). unfold d. rewrite G. repeat split; lra. }
  destruct H as [N | c K X | c X K EX LX | c X K EX LX].
  - destruct (Rlt_dec (radius s) d); [reflexivity|]. destruct (Rle_dec d 0); [reflexivity|]. destruct (Rlt_dec 0.1 _) as [|K]; [reflexivity|].
    exfalso. apply (N d). split; [reflexivity|]. split; [lra|]. destruct (Rle_dec (rbot_env s) (radius s / 10)); [assumption|]. now apply G in n1.
  - destruct (Y c K) as (-> & K1 & K2 & K3). destruct (Rlt_dec (radius s) d); [contradiction|]. destruct (Rle_dec d 0); [contradiction|].
    destruct (Rlt_dec 0.1 _); [contradiction|]. destruct (Rle_dec (radius s) 0); [lra|]. now rewrite X.
  - destruct (Y c K) as (-> & K1 & K2 & K3). destruct (Rlt_dec (radius s) d); [contradiction|]. destruct (Rle_dec d 0); [contradiction|].
    destruct (Rlt_dec 0.1 _); [contradiction|]. destruct (Rle_dec (radius s) 0); [lra|]. rewrite EX. destruct (Rlt_dec 0.4 X); [reflexivity|lra].
  - destruct (Y c K) as (-> & K1 & K2 & K3). destruct (Rlt_dec (radius s) d); [contradiction|]. destruct (Rle_dec d 0); [contradiction|].
    destruct (Rlt_dec 0.1 _); [contradiction|]. destruct (Rle_dec (radius s) 0); [lra|]. rewrite EX. destruct (Rlt_dec 0.4 X); [lra|reflexivity].
Qed.
Lemma rad_eval s c a k : 0 < a -> 0 < mass s -> 0 < mass c -> 0 < radius s -> radiative s c a k -> kT_rad s c a = k.
Proof.
  intros A Ms Mc Rs (E & HE & ->). unfold kT_rad. rewrite (coef_eval s E Rs HE). f_equal. f_equal. f_equal; f_equal.
  - assert (0 < Rsun) by (unfold Rsun; lra). field. lra.
  - field. lra.
Qed.

Theorem C154_strength :
  forall pri sec a da de d2 d1 kc kr, proper pri sec -> 0 < a -> 0 < radius sec -> default_tides a 0 pri sec = (da, de, d2, d1) ->
  let n := orbital_rate (mass pri) (mass sec) a in
  convective sec n kc -> radiative sec pri a kr -> d2 = spin_up sec pri a n (Rmax kc kr).
Proof.
  intros pri sec a da de d2 d1 kc kr (H1 & H2 & I1 & I2) A R2 EQ n HC HR.
  unfold default_tides in EQ. rewrite mean_motion_rate in EQ by assumption. fold n in EQ. assert (N : 0 < n) by (now apply rate_pos).
  destruct (tide a 0 n sec pri) as ((da2, de2), dO2) eqn:ET. destruct (tide a 0 n pri sec) as ((da1, de1), dO1).
  assert (Q : dO2 = d2) by congruence. subst dO2. clear EQ.
  assert (K : kT sec pri a = Rmax kc kr).
  { unfold kT. f_equal; [now apply conv_eval | now apply rad_eval]. }
  unfold tide in ET. rewrite K in ET.
  match type of ET with (_, ?x) = _ => assert (X : x = d2) by congruence end. rewrite <- X. clear ET X.
  replace (1 - 0 ^ 2) with 1 by ring.
  assert (P1 : forall y, Rpower 1 y = 1) by (intros; unfold Rpower; rewrite ln_1, Rmult_0_r; apply exp_0). rewrite !P1.
  unfold f2, f5, spin_up. field. repeat split; lra.
Qed.
Print Assumptions C154_strength.
(** Both rates exist, and they are unique, whatever the structure of the star, as long as the convective region is not there at all or has a
    mass, thickness and radius. *)
Theorem C154_total :
  forall s c a n, 0 < a -> 0 < mass s -> 0 < mass c -> 0 < radius s ->
  (m_env s = None \/ exists m dr r, m_env s = Some m /\ dr_env s = Some dr /\ rmid_env s = Some r /\ 0 < m /\ 0 < dr /\ 0 < r /\ 0 < lum s) ->
  n = orbital_rate (mass c) (mass s) a ->
  (exists! kc, convective s n kc) /\ (exists! kr, radiative s c a kr).
Proof.
  intros s c a n A Ms Mc Rs H ->. split.
  - exists (kT_conv s (P_orb a (mass c) (mass s))). split; [|intros k; now apply conv_eval].
    assert (Q : exists k, convective s (orbital_rate (mass c) (mass s) a) k).
    { destruct H as [H | (m & dr & r & E1 & E2 & E3 & M & D & Rr & L)]; [exists 0; now constructor|].
      assert (X : 0 < m * dr * r / (3 * lum s)) by (apply Rdiv_lt_0_compat; [repeat apply Rmult_lt_0_compat; assumption|lra]).
      set (tau := 0.431 * Rpower (m * dr * r / (3 * lum s)) (1 / 3)).
      assert (T : 0 < tau) by (apply Rmult_lt_0_compat; [lra|apply exp_pos]).
      assert (C : 3 * lum s * tau ^ 3 = 0.431 ^ 3 * (m * dr * r)).
      { unfold tau. rewrite Rpow_mult_distr, (third_power _ X). field. lra. }
      destruct (Rle_lt_dec (Rabs (orbital_rate (mass c) (mass s) a - omega s) * tau) c_pi) as [F | F].
      - eexists. eapply conv_slow with (tau := tau); eassumption.
      - eexists. eapply conv_fast with (tau := tau); try eassumption. now left. }
    destruct Q as (k & Q). now rewrite (conv_eval s c a k A Ms Mc Q).
  - exists (kT_rad s c a). split; [|intros k; now apply rad_eval].
    assert (Q : exists E, coefficient s E).
    { destruct (Rlt_dec 0 (rtop_env s - rbot_env s)) as [K1 | K1]; [|eexists; apply coef_mass; intros k (? & ? & ?); lra].
      destruct (Rle_dec (rtop_env s - rbot_env s) (radius s)) as [K2 | K2]; [|eexists; apply coef_mass; intros k (? & ? & ?); lra].
      destruct (Rle_dec (rbot_env s) (radius s / 10)) as [K3 | K3]; [|eexists; apply coef_mass; intros k (? & ? & ?); lra].
      assert (C : core_of s (rtop_env s - rbot_env s)) by (repeat split; lra).
      destruct (Xsurf s) as [x|] eqn:EX; [|eexists; now apply coef_unknown with (c := rtop_env s - rbot_env s)].
      destruct (Rlt_dec 0.4 x) as [K | K]; eexists; [eapply coef_H | eapply coef_He]; try eassumption. lra. }
    destruct Q as (E & Q). assert (W := rad_eval s c a _ A Ms Mc Rs (ex_intro _ E (conj Q eq_refl))). rewrite W. now exists E.
Qed.
Print Assumptions C154_total.
(** A convective region that has a mass but of which the thickness or the radius is unknown or zero has, as good as, no effect. *)
Theorem C154_unknown :
  forall s c a m, 0 < mass s -> m_env s = Some m -> 0 <= m <= mass s -> (dr_env s = None \/ rmid_env s = None \/ dr_env s = Some 0 \/ rmid_env s = Some 0) ->
  0 <= kT_conv s (P_orb a (mass c) (mass s)) <= 1e-99.
Proof.
  intros s c a m Ms E M H.
  assert (T : tau_conv s = 1e99).
  { unfold tau_conv. destruct (usable (m_env s)); [|reflexivity].
    assert (U : usable (Some 0) = None) by (unfold usable; destruct (Req_EM_T 0 0); [reflexivity|lra]).
    destruct H as [H | [H | [H | H]]]; rewrite H, ?U; cbn [usable]; try reflexivity; now destruct (usable (dr_env s)). }
  unfold kT_conv. rewrite E. assert (F : 0 <= f_conv s (P_orb a (mass c) (mass s)) <= 1).
  { unfold f_conv. cbv zeta. destruct (Req_EM_T _ 0); [lra|]. split; [apply Rmin_glb; [lra|apply pow2_ge_0]|apply Rmin_l]. }
  rewrite T. set (f := f_conv s _) in *. clearbody f.
  assert (q : 0 <= m / mass s <= 1).
  { assert (0 < / mass s) by now apply Rinv_0_lt_compat. split; [apply Rmult_le_pos; lra|].
    apply Rmult_le_reg_r with (mass s); [exact Ms|]. unfold Rdiv. rewrite Rmult_assoc, Rinv_l; lra. }
  set (x := m / mass s) in *. clearbody x. assert (fx : 0 <= f * x <= 1) by nra.
  replace (2 / 21 * (f / 1e99) * x) with (2 / 21 * (f * x) / 1e99) by (unfold Rdiv; ring). lra.
Qed.
Print Assumptions C154_unknown.

(** A star with an envelope for which the eddies turn over in 0.431 years, hence as in the law of equilibrium tides, in a wide orbit in which
    it corotates *)
Example C154_case :
  let s := Latest 10 100 0 0 100 0 (Some 3) (Some 10) (Some 10) 1 0 (Some (7 / 10)) 100 0 in
  forall n, n = 0 -> convective s n (2 / 21 * 3 / 10 / 0.431) /\ coefficient s (Rpower 10 (- 0.42) * Rpower (1 / 100) 7.5).
Proof.
  intros s n ->. split.
  - replace (2 / 21 * 3 / 10 / 0.431) with (2 * 3 / (21 * mass s * 0.431)) by (cbn [mass s]; lra).
    apply (conv_slow s 0 3 10 10 0.431); cbn [m_env dr_env rmid_env lum omega s]; try reflexivity; try lra.
    replace (0 - 0) with 0 by ring. rewrite Rabs_R0. unfold c_pi. lra.
  - apply (coef_H s 1 (7 / 10)); cbn [rtop_env rbot_env radius Xsurf s]; [repeat split; cbn [rtop_env rbot_env radius s]; lra|reflexivity|lra].
Qed.
Example C154_example :
  exists pri sec a da de d2 d1 kc kr, proper pri sec /\ 0 < a /\ 0 < radius sec /\ default_tides a 0 pri sec = (da, de, d2, d1) /\
  convective sec (orbital_rate (mass pri) (mass sec) a) kc /\ radiative sec pri a kr /\ 0 < kc.
Proof.
  set (pri := Latest 20 8 0 0 100 0 (Some 1) (Some 1) (Some 4) 2 0 (Some (7 / 10)) 10000 0).
  set (sec := Latest 15 6 0 0 80 0 (Some 1) (Some 1) (Some 4) 2 0 (Some (7 / 10)) 10000 0).
  destruct (default_tides 20 0 pri sec) as (((da, de), d2), d1) eqn:EQ.
  destruct (C154_total sec pri 20 (orbital_rate (mass pri) (mass sec) 20)) as ((kc & HC & _) & (kr & HR & _)); cbn [mass radius m_env pri sec]; try lra.
  { right. exists 1, 1, 4. cbn [m_env dr_env rmid_env lum sec]. repeat split; lra. }
  exists pri, sec, 20, da, de, d2, d1, kc, kr. unfold proper. cbn [mass inertia radius pri sec].
  split; [repeat split; lra|]. split; [lra|]. split; [lra|]. split; [exact EQ|]. split; [exact HC|]. split; [exact HR|].
  destruct HC as [HC | m dr r tau HC ? ? ? ? ? ? T ? ? | m dr r tau HC ? ? ? ? ? ? T ? F]; [discriminate| |].
  - apply Rdiv_lt_0_compat; [lra|]. cbn [mass sec]. nra.
  - assert (m = 1) by (cbn in HC; congruence). subst m. apply Rmult_lt_0_compat; [apply Rdiv_lt_0_compat; [lra|cbn [mass sec]; nra]|].
    assert (P := pi_pos). rewrite <- Rsqr_pow2. apply Rsqr_pos_lt. apply Rmult_integral_contrapositive_currified; [lra|]. apply Rinv_neq_0_compat.
    intros K. rewrite <- (Rabs_pos_eq tau), <- Rabs_mult, K, Rabs_R0 in F by lra. lra.
Qed.
