(** C110 to C112: the structure parameter lambda, partial ejection of the envelope, and interpolation between shells *)
From Coq Require Import Reals String Bool List Lia ZArith Lra.
From Verif Require Import PyBase PyStr OrbitModel InspiralModel RealLemmas EnvelopeModel EnvelopeProps EnergyProps.
Import ListNotations.
Open Scope string_scope.
Open Scope R_scope.
Open Scope list_scope.

(** ** C112: linear interpolation *)
Theorem C112_between :
  forall y x target t b, (b < t)%nat -> (t < length y)%nat -> (t < length x)%nat -> at_ x t <> at_ x b ->
  linear_interpolation y x target (Some t) (Some b) = at_ y b + (target - at_ x b) / (at_ x t - at_ x b) * (at_ y t - at_ y b).
Proof.
  intros y x target t b B Y X N. unfold linear_interpolation. destruct (Nat.leb_spec (length y) t); [lia |]. destruct (Nat.leb_spec (length x) t); [lia |].
  destruct (Z.ltb_spec (Z.of_nat b) 0); [lia |]. destruct (Z.leb_spec (Z.of_nat t) (Z.of_nat b)); [lia |]. rewrite Nat2Z.id. unfold get. fold (at_ y t) (at_ y b) (at_ x t) (at_ x b). field. lra.
Qed.
(** So the values at the shells are found again, and a target between those of the two shells has a value between theirs. *)
Theorem C112_within :
  forall y x t b, (b < t)%nat -> (t < length y)%nat -> (t < length x)%nat -> at_ x t <> at_ x b ->
  linear_interpolation y x (at_ x t) (Some t) (Some b) = at_ y t /\ linear_interpolation y x (at_ x b) (Some t) (Some b) = at_ y b /\
  forall target, Rmin (at_ x b) (at_ x t) <= target <= Rmax (at_ x b) (at_ x t) ->
    Rmin (at_ y b) (at_ y t) <= linear_interpolation y x target (Some t) (Some b) <= Rmax (at_ y b) (at_ y t).
Proof.
  intros y x t b B Y X N. split; [| split].
  - rewrite C112_between by assumption. field. lra.
  - rewrite C112_between by assumption. field. lra.
  - intros target T. rewrite C112_between by assumption. assert (W : 0 <= (target - at_ x b) / (at_ x t - at_ x b) <= 1).
    { destruct (Rlt_dec (at_ x b) (at_ x t)) as [L|L].
      - rewrite Rmin_left, Rmax_right in T by lra. split; [apply Rmult_le_pos; [lra | left; apply Rinv_0_lt_compat; lra] |]. apply (Rmult_le_reg_r (at_ x t - at_ x b)); [lra |]. field_simplify; lra.
      - rewrite Rmin_right, Rmax_left in T by lra. replace ((target - at_ x b) / (at_ x t - at_ x b)) with ((at_ x b - target) / (at_ x b - at_ x t)) by (field; lra).
        split; [apply Rmult_le_pos; [lra | left; apply Rinv_0_lt_compat; lra] |]. apply (Rmult_le_reg_r (at_ x b - at_ x t)); [lra |]. field_simplify; lra. }
    set (w := (target - at_ x b) / (at_ x t - at_ x b)) in *. clearbody w. set (p := at_ y b). set (q := at_ y t). clearbody p q.
    destruct (Rle_dec p q) as [L|L]; [rewrite Rmin_left, Rmax_right by lra | rewrite Rmin_right, Rmax_left by lra]; split; nra.
Qed.
(** Without shells, the first at or above the target and the one before; the first value if that is the first shell, and also if there is none. *)
Theorem C112_search :
  forall y x target, length y = length x ->
  (forall t, (0 < t < length x)%nat -> target <= at_ x t -> (forall j, (j < t)%nat -> at_ x j < target) ->
     linear_interpolation y x target None None = at_ y (t - 1) + (target - at_ x (t - 1)) / (at_ x t - at_ x (t - 1)) * (at_ y t - at_ y (t - 1))) /\
  (target <= at_ x 0 \/ (forall t, (t < length x)%nat -> at_ x t < target) -> linear_interpolation y x target None None = at_ y 0).
Proof.
  intros y x target L. assert (H := first_true_spec (map (le target) x)). rewrite map_length in H.
  assert (N : forall i, (i < length x)%nat -> nth i (map (le target) x) false = le target (at_ x i)).
  { intros i I. rewrite (nth_indep _ false (le target 0)) by (rewrite map_length; lia). rewrite (map_nth (le target)). reflexivity. }
  split.
  - intros t T A B. assert (F : first_true (map (le target) x) = Some t).
    { destruct (first_true (map (le target) x)) as [k|].
      - destruct H as (K & HK & HJ). f_equal. rewrite N in HK by assumption. apply le_true in HK. destruct (lt_eq_lt_dec k t) as [[Q | Q] | Q]; [| assumption |].
        + specialize (B k Q). lra.
        + specialize (HJ t Q). rewrite N in HJ by lia. apply le_false in HJ. lra.
      - specialize (H t ltac:(lia)). rewrite N in H by lia. apply le_false in H. lra. }
    assert (NE : at_ x t <> at_ x (t - 1)) by (specialize (B (t - 1)%nat ltac:(lia)); lra).
    rewrite <- (C112_between y x target t (t - 1)) by (assumption || lia). unfold linear_interpolation, argmax. rewrite F. replace (Z.of_nat (t - 1)) with (Z.of_nat t - 1)%Z by lia. reflexivity.
  - intros A. assert (F : argmax (map (le target) x) = 0%nat).
    { unfold argmax. destruct A as [A | A].
      - destruct x as [|x0 x]; [reflexivity |]. cbn [map first_true]. change (at_ (x0 :: x) 0) with x0 in A. apply le_true in A. now rewrite A.
      - destruct (first_true (map (le target) x)) as [k|]; [| reflexivity]. destruct H as (K & HK & _). rewrite N in HK by assumption. apply le_true in HK. specialize (A k K). lra. }
    unfold linear_interpolation. rewrite F. destruct (Nat.leb_spec (length y) 0).
    + replace (length y - 1)%nat with 0%nat by lia. destruct (Nat.leb_spec (length x) 0); [reflexivity | lia].
    + destruct (Nat.leb_spec (length x) 0); [reflexivity |]. reflexivity.
Qed.
Theorem C112_outside_refuted :
  exists y x target, (forall i, (S i < 3)%nat -> at_ x i < at_ x (S i) /\ at_ y i < at_ y (S i)) /\ length x = 3%nat /\ length y = 3%nat /\ at_ x 2 < target /\
  linear_interpolation y x target None None < at_ y 1.
Proof.
  exists [10; 20; 30], [1; 2; 3], 4. split; [intros [|[|i]] H; cbn; try lra; lia |]. split; [reflexivity |]. split; [reflexivity |]. split; [cbn; lra |].
  rewrite (proj2 (C112_search [10; 20; 30] [1; 2; 3] 4 eq_refl)); [cbn; lra |]. right. intros [|[|[|t]]] H; cbn in *; try lra; lia.
Qed.
Example C112_case : linear_interpolation [10; 20; 40] [1; 2; 3] 2.5 None None = 30.
Proof.
  rewrite (proj1 (C112_search [10; 20; 40] [1; 2; 3] 2.5 eq_refl) 2%nat); [cbn; lra | cbn; lia | cbn; lra |]. intros [|[|j]] H; cbn; try lra; lia.
Qed.

(** ** C110: specification *)
Definition H_RICH_STATES := ["H-rich_Core_H_burning"; "H-rich_Core_He_burning"; "H-rich_Shell_H_burning"; "H-rich_Core_He_depleted"; "H-rich_Shell_He_burning";
  "H-rich_Core_C_burning"; "H-rich_Core_C_depleted"; "H-rich_non_burning"].
(** The energy of the outer k shells: gravitation, and the part alpha of the internal energy u per gram *)
Definition energy_above (m r dm u : list R) (alpha : R) (k : nat) : R :=
  - UNIT * sum (fun i => at_ m i * at_ dm i / at_ r i) k + alpha * Msun * sum (fun i => at_ u i * at_ dm i) k.
Definition between (w a b : R) : R := a + w * (b - a).
(** Where the element of the envelope falls to [fraction], on the way from the shell above the boundary *)
Definition depth (x : list R) (fraction : R) (i : nat) : R := (at_ x (i - 1) - fraction) / (at_ x (i - 1) - at_ x i).
Lemma H_rich_states s : In s H_RICH_STATES -> In s HYDROGEN_RICH /\ py_in "H-rich" s = true.
Proof. intros H. split; [cbn in *; tauto |]. cbn in H. repeat (destruct H as [<- | H]; [reflexivity |]). contradiction. Qed.
Lemma mrd_of p m r dm : mass_radius_dm p = Ok (m, r, dm) -> (0 < length m)%nat /\ (0 < length r)%nat.
Proof.
  unfold mass_radius_dm. destruct (p_mass p) as [[|a m']|]; destruct (radii p) as [[|b r']|]; try discriminate. intros H.
  assert (E1 : m = a :: m') by congruence. assert (E2 : r = b :: r') by congruence. subst. cbn. lia.
Qed.
Lemma depth_range x fraction i : at_ x i <= fraction -> fraction < at_ x (i - 1) -> 0 < depth x fraction i <= 1.
Proof.
  intros A B. unfold depth. split; [apply Rmult_lt_0_compat; [lra | apply Rinv_0_lt_compat; lra] |]. apply (Rmult_le_reg_r (at_ x (i - 1) - at_ x i)); [lra |]. field_simplify; lra.
Qed.
Lemma depth_weight x fraction i : at_ x i <> at_ x (i - 1) -> (fraction - at_ x (i - 1)) / (at_ x i - at_ x (i - 1)) = depth x fraction i.
Proof. intros N. unfold depth. field. lra. Qed.
Lemma lambda_value M mc e radius : 0 < radius -> e <> 0 -> lambda_of M mc e radius * e * (radius * Rsun) = - standard_cgrav * Msun ^ 2 * (M * (M - mc)).
Proof.
  intros P N. unfold lambda_of. assert (Q : Rsun <> 0) by (unfold Rsun; lra). set (g := standard_cgrav). set (y := Msun). set (s := Rsun) in *. clearbody g y s. field. repeat split; lra.
Qed.
Lemma accepted_inv tolerance r r' : accepted tolerance r = Ok r' -> r' = r.
Proof. unfold accepted. destruct (lambda r); [destruct (lt _ _) |]; congruence. Qed.
Lemma boundary_H n mass state p x y z mc fraction i : p_X p = Some x -> p_Y p = Some y -> p_Z p = Some z -> composition n x y z -> fraction <= 0.9 -> In state HYDROGEN_RICH ->
  first_shell n (at_ x) fraction i -> calculate_core_boundary mass state p mc (Some fraction) false = Ok i.
Proof.
  intros X Y Z C F S B. destruct (C108_boundary n mass state p x y z mc fraction false X Y Z C F (or_introl S)) as (k & K & A & _). specialize (A S eq_refl). rewrite K. f_equal.
  destruct A as [[-> A] | (a & -> & A1 & A2 & A3)], B as [[-> B] | (b & -> & B1 & B2 & B3)]; try reflexivity.
  - specialize (A b B1). lra.
  - specialize (B a A1). lra.
  - f_equal. destruct (lt_eq_lt_dec a b) as [[Q | Q] | Q]; [| assumption |].
    + specialize (B3 a Q). lra.
    + specialize (A3 b Q). lra.
Qed.
(** For a hydrogen-rich star and its helium core: mass and radius of the core lie between those of the shells around the boundary, the energy
    between the energies of the shells above each, and lambda makes - G M (M - mc) / (lambda R) that energy. *)
Theorem C110_lambda :
  forall n p m r dm u x y z state option_ fraction alpha tolerance i result,
  mass_radius_dm p = Ok (m, r, dm) -> internal_energy option_ p tolerance = Ok u -> p_X p = Some x -> p_Y p = Some y -> p_Z p = Some z -> composition n x y z ->
  length m = n -> length r = n -> (forall i, (i < n)%nat -> 0 < at_ r i /\ 0 <= at_ m i /\ 0 <= at_ dm i) ->
  In state H_RICH_STATES -> fraction <= 0.9 -> (0 < i)%nat -> first_shell n (at_ x) fraction (Z.of_nat i) ->
  calculate_lambda_from_profile p state option_ fraction None alpha tolerance false = Ok result ->
  let w := depth x fraction i in
  let e := between w (energy_above m r dm u alpha (i - 1)) (energy_above m r dm u alpha i) in
  0 < w <= 1 /\ core_mass result = between w (at_ m (i - 1)) (at_ m i) /\ core_radius result = between w (at_ r (i - 1)) (at_ r i) /\
  exists l, lambda result = Some l /\ - tolerance < l /\
    (e <> 0 -> l * e * (at_ r 0 * Rsun) = - standard_cgrav * Msun ^ 2 * (at_ m 0 * (at_ m 0 - core_mass result))).
Proof.
  intros n p m r dm u x y z state option_ fraction alpha tolerance i result MRD U X Y Z C LM LR P ST F I0 B CL w e.
  destruct (H_rich_states state ST) as [SH PI]. assert (BD := boundary_H n m state p x y z None fraction _ X Y Z C F SH B).
  destruct B as [[B _] | (i' & E & IN & A1 & A2)]; [lia |]. apply Nat2Z.inj in E. subst i'. specialize (A2 (i - 1)%nat ltac:(lia)).
  assert (W := depth_range x fraction i A1 A2). fold w in W.
  destruct C as (LX & _ & _ & _).
  unfold calculate_lambda_from_profile in CL. rewrite MRD in CL. cbn [rbind] in CL. rewrite U in CL. cbn [rbind] in CL. rewrite BD in CL. cbn [rbind] in CL.
  destruct (Z.eqb_spec (Z.of_nat i) 0); [lia |]. destruct (Z.eqb_spec (Z.of_nat i) (-1)); [lia |]. rewrite Nat2Z.id in CL. unfold element_of in CL. rewrite PI, X in CL. cbn [column rbind] in CL.
  rewrite !C109_energy in CL by (intros j J; apply P; lia). cbn [rbind] in CL. rewrite !C112_between in CL by (lra || lia).
  change (get x i) with (at_ x i) in CL. change (get x (i - 1)) with (at_ x (i - 1)) in CL. rewrite depth_weight in CL by lra. fold w in CL.
  fold (energy_above m r dm u alpha i) (energy_above m r dm u alpha (i - 1)) in CL.
  fold (between w (at_ m (i - 1)) (at_ m i)) (between w (at_ r (i - 1)) (at_ r i)) (between w (energy_above m r dm u alpha (i - 1)) (energy_above m r dm u alpha i)) in CL. fold e in CL.
  assert (Q := accepted_inv _ _ _ CL). subst result. cbn [core_mass core_radius lambda]. split; [assumption |]. split; [reflexivity |]. split; [reflexivity |].
  eexists. split; [reflexivity |]. split.
  - unfold accepted in CL. cbn [lambda] in CL. destruct (lt (- tolerance) _) eqn:T in CL; [| discriminate]. now apply lt_true.
  - intros NE. apply lambda_value; [| assumption]. apply P. lia.
Qed.
Lemma gravity_energy p tolerance m r dm : p_radius p = Some r -> mass_radius_dm p = Ok (m, r, dm) ->
  exists u, internal_energy "lambda_from_profile_gravitational" p tolerance = Ok u /\ forall i, at_ u i = 0.
Proof.
  intros PR _. unfold internal_energy, GRAVITATIONAL. cbn [String.eqb Ascii.eqb Bool.eqb]. unfold zeros, column. rewrite PR. cbn [rbind]. eexists. split; [reflexivity |].
  intros i. unfold at_. destruct (nth_in_or_default i (map (fun x => x * 0) r) 0) as [I | ->]; [| reflexivity]. apply in_map_iff in I. destruct I as (a & E & _). rewrite <- E. ring.
Qed.
Lemma no_heat m r dm u alpha k : (forall i, at_ u i = 0) -> energy_above m r dm u alpha k = - UNIT * bound m r dm k.
Proof.
  intros H. unfold energy_above, bound. assert (Z : sum (fun i => at_ u i * at_ dm i) k = 0) by (induction k as [|k IH]; cbn [sum]; [reflexivity | rewrite IH, H; lra]). rewrite Z. lra.
Qed.
(** With gravitation alone a structure in order always has its lambda; it is positive, and at most M / m where m is the mass at the boundary. *)
Theorem C110_gravity :
  forall p m r x y z state fraction alpha tolerance i,
  p_mass p = Some m -> p_radius p = Some r -> p_dm p = None -> p_X p = Some x -> p_Y p = Some y -> p_Z p = Some z -> composition (length m) x y z -> star_shells m r ->
  In state H_RICH_STATES -> fraction <= 0.9 -> 0 <= tolerance -> (0 < i)%nat -> first_shell (length m) (at_ x) fraction (Z.of_nat i) ->
  exists l mc rc, calculate_lambda_from_profile p state "lambda_from_profile_gravitational" fraction None alpha tolerance false = Ok (Parts (Some l) mc rc) /\
  let w := depth x fraction i in
  mc = between w (at_ m (i - 1)) (at_ m i) /\ rc = between w (at_ r (i - 1)) (at_ r i) /\ at_ m i <= mc < at_ m (i - 1) /\ at_ r i <= rc < at_ r (i - 1) /\
  l = at_ m 0 * (at_ m 0 - mc) / (at_ r 0 * between w (bound m r (shells m) (i - 1)) (bound m r (shells m) i)) /\ 0 < l <= at_ m 0 / at_ m i.
Proof.
  intros p m r x y z state fraction alpha tolerance i PM PR PD X Y Z C SS ST F T I0 B.
  assert (SS' := SS). destruct SS as (L & N & P & D).
  assert (MRD : mass_radius_dm p = Ok (m, r, shells m)).
  { unfold mass_radius_dm, radii. rewrite PM, PR, PD. destruct m; [cbn in N; lia |]. destruct r; [cbn in L; lia |]. reflexivity. }
  destruct (gravity_energy p tolerance m r (shells m) PR MRD) as (u & U & U0).
  destruct (H_rich_states state ST) as [SH PI]. assert (BD := boundary_H (length m) m state p x y z None fraction _ X Y Z C F SH B).
  destruct B as [[B _] | (i' & E & IN & A1 & A2)]; [lia |]. apply Nat2Z.inj in E. subst i'. specialize (A2 (i - 1)%nat ltac:(lia)).
  assert (W := depth_range x fraction i A1 A2). set (w := depth x fraction i) in *. destruct C as (LX & _ & _ & _).
  assert (DM : forall j, (j < length m)%nat -> 0 < at_ (shells m) j).
  { intros j J. change (at_ (shells m) j) with (get (shells m) j). rewrite shells_nth by assumption. destruct (Nat.eqb_spec (Datatypes.S j) (length m)); [now apply P |]. destruct (D j); [lia |]. lra. }
  assert (DI : at_ m i < at_ m (i - 1) /\ at_ r i < at_ r (i - 1)) by (replace i with (S (i - 1)) at 1 3 by lia; apply D; lia).
  destruct (P i IN) as [MI RI]. destruct (P 0%nat N) as [M0 R0]. destruct (order m r 0 (i - 1) SS' ltac:(lia)) as [O1 O2].
  assert (MC : at_ m i <= between w (at_ m (i - 1)) (at_ m i) < at_ m (i - 1)) by (unfold between; nra).
  assert (RC : at_ r i <= between w (at_ r (i - 1)) (at_ r i) < at_ r (i - 1)) by (unfold between; nra).
  destruct (C109_bound m r SS') as [B1 B2]. specialize (B1 (i - 1)%nat ltac:(lia)). replace (S (i - 1)) with i in B1 by lia. assert (B3 := B2 (i - 1)%nat ltac:(lia)). specialize (B2 i IN).
  set (b1 := bound m r (shells m) (i - 1)) in *. set (b2 := bound m r (shells m) i) in *.
  assert (EB : at_ m i * (at_ m 0 - between w (at_ m (i - 1)) (at_ m i)) / at_ r 0 <= between w b1 b2).
  { assert (K1 : at_ m i * (at_ m 0 - at_ m (i - 1)) / at_ r 0 <= b1).
    { apply Rle_trans with (2 := B3). unfold Rdiv. apply Rmult_le_compat_r; [left; now apply Rinv_0_lt_compat |]. apply Rmult_le_compat_r; lra. }
    replace (at_ m i * (at_ m 0 - between w (at_ m (i - 1)) (at_ m i)) / at_ r 0)
      with ((1 - w) * (at_ m i * (at_ m 0 - at_ m (i - 1)) / at_ r 0) + w * (at_ m i * (at_ m 0 - at_ m i) / at_ r 0)) by (unfold between; field; lra).
    unfold between. replace (b1 + w * (b2 - b1)) with ((1 - w) * b1 + w * b2) by ring. apply Rplus_le_compat; apply Rmult_le_compat_l; lra. }
  assert (E0 : 0 < between w b1 b2).
  { apply Rlt_le_trans with (2 := EB). apply Rmult_lt_0_compat; [| now apply Rinv_0_lt_compat]. apply Rmult_lt_0_compat; lra. }
  set (mc := between w (at_ m (i - 1)) (at_ m i)) in *. set (rc := between w (at_ r (i - 1)) (at_ r i)) in *. set (e := between w b1 b2) in *.
  exists (at_ m 0 * (at_ m 0 - mc) / (at_ r 0 * e)), mc, rc.
  assert (LP : 0 < at_ m 0 * (at_ m 0 - mc) / (at_ r 0 * e)).
  { apply Rmult_lt_0_compat; [apply Rmult_lt_0_compat; lra | apply Rinv_0_lt_compat, Rmult_lt_0_compat; assumption]. }
  assert (LV : lambda_of (at_ m 0) mc (- UNIT * e) (at_ r 0) = at_ m 0 * (at_ m 0 - mc) / (at_ r 0 * e)).
  { unfold lambda_of, UNIT. assert (Q1 : 0 < Rsun) by (unfold Rsun; lra). assert (Q2 : 0 < Msun) by (unfold Msun; lra). assert (Q3 : 0 < standard_cgrav) by (unfold standard_cgrav; lra).
    set (g := standard_cgrav) in *. set (a := Msun) in *. set (s := Rsun) in *. clearbody g a s. field. repeat split; lra. }
  split.
  - unfold calculate_lambda_from_profile. rewrite MRD. cbn [rbind]. rewrite U. cbn [rbind]. rewrite BD. cbn [rbind].
    destruct (Z.eqb_spec (Z.of_nat i) 0); [lia |]. destruct (Z.eqb_spec (Z.of_nat i) (-1)); [lia |]. rewrite Nat2Z.id. unfold element_of. rewrite PI, X. cbn [column rbind].
    rewrite !C109_energy by (intros j J; destruct (P j ltac:(lia)); specialize (DM j ltac:(lia)); lra). cbn [rbind]. rewrite !C112_between by (lra || lia).
    change (get x i) with (at_ x i). change (get x (i - 1)) with (at_ x (i - 1)). rewrite depth_weight by lra. fold w.
    fold (energy_above m r (shells m) u alpha i) (energy_above m r (shells m) u alpha (i - 1)). rewrite !no_heat by assumption. fold b1 b2.
    change (at_ m (i - 1) + w * (at_ m i - at_ m (i - 1))) with mc. change (at_ r (i - 1) + w * (at_ r i - at_ r (i - 1))) with rc.
    replace (- UNIT * b1 + w * (- UNIT * b2 - - UNIT * b1)) with (- UNIT * e) by (unfold e, between; ring).
    change (get m 0) with (at_ m 0). change (get r 0) with (at_ r 0). rewrite LV. unfold accepted. cbn [lambda]. replace (lt (- tolerance) (at_ m 0 * (at_ m 0 - mc) / (at_ r 0 * e))) with true; [reflexivity |]. symmetry. apply lt_true. lra.
  - cbv zeta. split; [reflexivity |]. split; [reflexivity |]. split; [assumption |]. split; [assumption |]. split; [reflexivity |]. split; [assumption |].
    apply (Rmult_le_reg_r (at_ r 0 * e)); [now apply Rmult_lt_0_compat |]. replace (at_ m 0 * (at_ m 0 - mc) / (at_ r 0 * e) * (at_ r 0 * e)) with (at_ m 0 * (at_ m 0 - mc)) by (field; lra).
    replace (at_ m 0 / at_ m i * (at_ r 0 * e)) with (at_ m 0 * (at_ r 0 / at_ m i * e)) by (field; lra). apply Rmult_le_compat_l; [lra |].
    apply (Rmult_le_compat_l (at_ r 0 / at_ m i)) in EB; [| apply Rmult_le_pos; [lra | left; now apply Rinv_0_lt_compat]].
    replace (at_ r 0 / at_ m i * (at_ m i * (at_ m 0 - mc) / at_ r 0)) with (at_ m 0 - mc) in EB by (field; lra). lra.
Qed.
(** The parameter has no dimension: it is that of the same star in other units of mass and length. *)
Lemma shells_scale s m : shells (map (fun x => s * x) m) = map (fun x => s * x) (shells m).
Proof.
  induction m as [|a [|b m] IH]; [reflexivity | reflexivity |]. change (map (fun x => s * x) (a :: b :: m)) with (s * a :: map (fun x => s * x) (b :: m)).
  change (shells (a :: b :: m)) with (- (1) * (b - a) :: shells (b :: m)). cbn [map]. rewrite <- IH. cbn [map shells]. f_equal. ring.
Qed.
Lemma at_scale s m i : at_ (map (fun x => s * x) m) i = s * at_ m i.
Proof. unfold at_. replace 0 with (s * 0) at 1 by ring. now rewrite (map_nth (fun x => s * x)). Qed.
Lemma bound_scale s t m r k : 0 < t -> (forall i, (i < k)%nat -> 0 < at_ r i) -> bound (map (fun x => s * x) m) (map (fun x => t * x) r) (shells (map (fun x => s * x) m)) k = s ^ 2 / t * bound m r (shells m) k.
Proof.
  intros T P. unfold bound. rewrite <- sum_scale. apply sum_ext. intros i I. rewrite shells_scale, !at_scale. specialize (P i I). field. lra.
Qed.
Theorem C110_units :
  forall p p' m r x y z state fraction alpha tolerance i s t l mc rc, 0 < s -> 0 < t ->
  p_mass p = Some m -> p_radius p = Some r -> p_dm p = None -> p_X p = Some x -> p_Y p = Some y -> p_Z p = Some z -> composition (length m) x y z -> star_shells m r ->
  p_mass p' = Some (map (fun a => s * a) m) -> p_radius p' = Some (map (fun a => t * a) r) -> p_dm p' = None -> p_X p' = Some x -> p_Y p' = Some y -> p_Z p' = Some z ->
  In state H_RICH_STATES -> fraction <= 0.9 -> 0 <= tolerance -> (0 < i)%nat -> first_shell (length m) (at_ x) fraction (Z.of_nat i) ->
  calculate_lambda_from_profile p state "lambda_from_profile_gravitational" fraction None alpha tolerance false = Ok (Parts (Some l) mc rc) ->
  calculate_lambda_from_profile p' state "lambda_from_profile_gravitational" fraction None alpha tolerance false = Ok (Parts (Some l) (s * mc) (t * rc)).
Proof.
  intros p p' m r x y z state fraction alpha tolerance i s t l mc rc S0 T0 PM PR PD X Y Z C SS PM' PR' PD' X' Y' Z' ST F T I0 B CL.
  destruct (C110_gravity p m r x y z state fraction alpha tolerance i PM PR PD X Y Z C SS ST F T I0 B) as (l1 & m1 & r1 & E1 & A1 & A2 & A3 & A4 & A5 & A6).
  assert (SS' : star_shells (map (fun a => s * a) m) (map (fun a => t * a) r)).
  { destruct SS as (L & N & P & D). unfold star_shells. rewrite !map_length. split; [assumption |]. split; [assumption |]. split; intros j J; rewrite !at_scale.
    - destruct (P j J). split; apply Rmult_lt_0_compat; assumption.
    - destruct (D j J). split; apply Rmult_lt_compat_l; assumption. }
  assert (C' : composition (length (map (fun a => s * a) m)) x y z) by (rewrite map_length; exact C).
  assert (B' : first_shell (length (map (fun a => s * a) m)) (at_ x) fraction (Z.of_nat i)) by (rewrite map_length; exact B).
  destruct (C110_gravity p' _ _ x y z state fraction alpha tolerance i PM' PR' PD' X' Y' Z' C' SS' ST F T I0 B') as (l2 & m2 & r2 & E2 & B1 & B2 & _ & _ & B5 & _).
  rewrite E2. rewrite E1 in CL. assert (l = l1) by congruence. assert (mc = m1) by congruence. assert (rc = r1) by congruence. subst l mc rc.
  assert (IN : (i < length m)%nat) by (destruct B as [[B _] | (i' & E & IN & _)]; lia).
  assert (PR0 : forall j, (j < length m)%nat -> 0 < at_ r j) by (intros; now apply SS).
  assert (Q1 : m2 = s * m1) by (rewrite B1, A1; unfold between; rewrite !at_scale; ring). assert (Q2 : r2 = t * r1) by (rewrite B2, A2; unfold between; rewrite !at_scale; ring).
  rewrite Q1, Q2. do 2 f_equal. f_equal. rewrite B5, A5, Q1. rewrite !at_scale, !bound_scale by (try assumption; intros; apply PR0; lia).
  set (w := depth x fraction i) in *. set (b1 := bound m r (shells m) (i - 1)) in *. set (b2 := bound m r (shells m) i) in *.
  replace (between w (s ^ 2 / t * b1) (s ^ 2 / t * b2)) with (s ^ 2 / t * between w b1 b2) by (unfold between; ring).
  destruct (Req_dec (between w b1 b2) 0) as [Q | Q].
  - rewrite A5, Q, Rmult_0_r in A6. unfold Rdiv in A6. rewrite Rinv_0, Rmult_0_r in A6. lra.
  - specialize (PR0 0%nat ltac:(lia)). field. repeat split; lra.
Qed.
(** The limits: no envelope, and no core *)
Theorem C110_limits :
  forall p m r dm u state option_ fraction alpha tolerance CO_core result k,
  mass_radius_dm p = Ok (m, r, dm) -> internal_energy option_ p tolerance = Ok u -> calculate_core_boundary m state p None (Some fraction) CO_core = Ok k ->
  calculate_lambda_from_profile p state option_ fraction None alpha tolerance CO_core = Ok result ->
  (k = 0%Z -> lambda result = None /\ core_mass result = at_ m 0 /\ core_radius result = at_ r 0) /\
  (k = (-1)%Z -> core_mass result = 0 /\ core_radius result = 0 /\
     ((forall i, (i < length m)%nat -> 0 < at_ r i /\ 0 <= at_ m i /\ 0 <= at_ dm i) -> length r = length m -> energy_above m r dm u alpha (length m) <> 0 ->
      exists l, lambda result = Some l /\ l * energy_above m r dm u alpha (length m) * (at_ r 0 * Rsun) = - standard_cgrav * Msun ^ 2 * (at_ m 0) ^ 2)).
Proof.
  intros p m r dm u state option_ fraction alpha tolerance CO_core result k MRD U B CL. unfold calculate_lambda_from_profile in CL. rewrite MRD in CL. cbn [rbind] in CL. rewrite U in CL. cbn [rbind] in CL. rewrite B in CL. cbn [rbind] in CL.
  split; intros ->; cbn [Z.eqb Pos.eqb] in CL.
  - assert (Q : result = Parts None (get m 0) (get r 0)) by congruence. subst result. repeat split; reflexivity.
  - destruct (calculate_binding_energy m r dm u (length m) alpha) as [e|] eqn:BE; [| discriminate]. cbn [rbind] in CL. assert (Q := accepted_inv _ _ _ CL). subst result. cbn [core_mass core_radius lambda]. split; [reflexivity |]. split; [reflexivity |].
    intros P LR NE. rewrite C109_energy in BE by assumption. fold (energy_above m r dm u alpha (length m)) in BE. assert (E : e = energy_above m r dm u alpha (length m)) by congruence. rewrite E. eexists. split; [reflexivity |].
    destruct (mrd_of p m r dm MRD). rewrite lambda_value; [change (get m 0) with (at_ m 0); ring | | assumption]. apply P. assumption.
Qed.
(** A star that accreted helium has a boundary, but where it is inside, its element is not known. *)
Theorem C110_accreted :
  forall n p m r dm u x y z state option_ fraction alpha tolerance i,
  mass_radius_dm p = Ok (m, r, dm) -> internal_energy option_ p tolerance = Ok u -> p_X p = Some x -> p_Y p = Some y -> p_Z p = Some z -> composition n x y z -> fraction <= 0.9 ->
  In state ["accreted_He_Core_H_burning"; "accreted_He_Shell_H_burning"; "accreted_He_non_burning"] -> (0 < i)%nat -> first_shell n (at_ x) fraction (Z.of_nat i) ->
  calculate_lambda_from_profile p state option_ fraction None alpha tolerance false = Raise ValueError.
Proof.
  intros n p m r dm u x y z state option_ fraction alpha tolerance i MRD U X Y Z C F S I B.
  assert (SH : In state HYDROGEN_RICH) by (cbn in *; tauto). assert (BD := boundary_H n m state p x y z None fraction _ X Y Z C F SH B).
  unfold calculate_lambda_from_profile. rewrite MRD. cbn [rbind]. rewrite U. cbn [rbind]. rewrite BD. cbn [rbind].
  destruct (Z.eqb_spec (Z.of_nat i) 0); [lia |]. destruct (Z.eqb_spec (Z.of_nat i) (-1)); [lia |].
  replace (element_of state p false) with (Raise ValueError : result (list R)); [reflexivity |]. cbn in S. repeat (destruct S as [<- | S]; [reflexivity |]). contradiction.
Qed.
(** The carbon-oxygen core begins where hydrogen and helium together are few, but its mass is interpolated with helium alone: it can exceed the star. *)
Theorem C110_CO_core_refuted :
  exists p m r x y z result, p_mass p = Some m /\ p_radius p = Some r /\ p_X p = Some x /\ p_Y p = Some y /\ p_Z p = Some z /\ p_dm p = None /\ star_shells m r /\ composition (length m) x y z /\
  calculate_core_boundary m "H-rich_Core_He_depleted" p None (Some 0.1) true = Ok 2%Z /\
  calculate_lambda_from_profile p "H-rich_Core_He_depleted" "lambda_from_profile_gravitational" 0.1 None 1 0.001 true = Ok result /\ core_mass result = 20 /\ at_ m 0 = 10.
Proof.
  set (m := [10; 5; 2]). set (r := [100; 10; 1]). set (x := [0.05; 0.09; 0]). set (y := [0.9; 0.05; 0.04]). set (z := [0.05; 0.86; 0.96]).
  set (p := Profile (Some m) (Some r) None None None (Some x) (Some y) (Some z) None None None).
  assert (C : composition 3 x y z) by (repeat split; try reflexivity; destruct i as [|[|[|i]]]; cbn; try lra; lia).
  assert (SS : star_shells m r) by (unfold star_shells; cbn [m r length]; repeat split; try lia; destruct i as [|[|[|i]]]; cbn; try lra; lia).
  assert (BD : calculate_core_boundary m "H-rich_Core_He_depleted" p None (Some 0.1) true = Ok 2%Z).
  { destruct (C108_boundary 3 m "H-rich_Core_He_depleted" p x y z None 0.1 true eq_refl eq_refl eq_refl C ltac:(lra)) as (k & K & _ & A); [left; cbn; tauto |]. specialize (A (or_intror eq_refl)). rewrite K. f_equal.
    destruct A as [[_ A] | (i & -> & I & A & _)]; [specialize (A 2%nat ltac:(lia)); cbn in A; lra |]. destruct i as [|[|[|i]]]; cbn in A; try lra; try lia; reflexivity. }
  exists p, m, r, x, y, z, (Parts (Some (1 / 7)) 20 (at_ r 1 + (0.1 - 0.05) / (0.04 - 0.05) * (at_ r 2 - at_ r 1))). do 6 (split; [reflexivity |]). split; [exact SS |]. split; [exact C |]. split; [exact BD |].
  split; [| split; reflexivity].
  assert (MRD : mass_radius_dm p = Ok (m, r, shells m)) by reflexivity. destruct (gravity_energy p 0.001 m r (shells m) eq_refl MRD) as (u & U & U0).
  unfold calculate_lambda_from_profile. rewrite MRD. cbn [rbind]. rewrite U. cbn [rbind]. rewrite BD. cbn [rbind Z.eqb Pos.eqb]. change (Z.to_nat 2) with 2%nat.
  replace (element_of "H-rich_Core_He_depleted" p true) with (Ok y : result (list R)) by reflexivity. cbn [rbind]. change (2 - 1)%nat with 1%nat.
  assert (PP : forall j, (j < 3)%nat -> 0 < at_ r j /\ 0 <= at_ m j /\ 0 <= at_ (shells m) j) by (intros [|[|[|j]]] J; cbn; try lra; lia).
  rewrite !C109_energy by (intros j J; apply PP; lia). cbn [rbind]. rewrite !C112_between by (cbn; lra || lia).
  fold (energy_above m r (shells m) u 1 2) (energy_above m r (shells m) u 1 1). rewrite !no_heat by assumption.
  replace (bound m r (shells m) 2) with 2 by (cbn; lra). replace (bound m r (shells m) 1) with 0.5 by (cbn; lra).
  replace (at_ m 1 + (0.1 - at_ y 1) / (at_ y 2 - at_ y 1) * (at_ m 2 - at_ m 1)) with 20 by (cbn; lra).
  replace (- UNIT * 0.5 + (0.1 - get y 1) / (get y 2 - get y 1) * (- UNIT * 2 - - UNIT * 0.5)) with (- UNIT * (- 7)) by (cbn; lra).
  assert (LV : lambda_of (get m 0) 20 (- UNIT * (- 7)) (get r 0) = 1 / 7).
  { unfold lambda_of, UNIT. change (get m 0) with 10. change (get r 0) with 100. assert (Q1 : 0 < Rsun) by (unfold Rsun; lra). assert (Q2 : 0 < Msun) by (unfold Msun; lra). assert (Q3 : 0 < standard_cgrav) by (unfold standard_cgrav; lra).
    set (g := standard_cgrav) in *. set (a := Msun) in *. set (s := Rsun) in *. clearbody g a s. field. repeat split; lra. }
  rewrite LV. unfold accepted. cbn [lambda]. replace (lt (- (0.001)) (1 / 7)) with true by (symmetry; apply lt_true; lra). reflexivity.
Qed.
Example C110_case :
  star_shells [10; 6; 3; 2.5] [100; 50; 0.5; 0.2] /\ composition 4 giant_x giant_y giant_z /\ first_shell 4 (at_ giant_x) 0.1 3 /\
  exists l rc, calculate_lambda_from_profile giant "H-rich_Shell_H_burning" "lambda_from_profile_gravitational" 0.1 None 1 0.001 false = Ok (Parts (Some l) 2.75 rc) /\ 0 < l <= 4.
Proof.
  assert (SS : star_shells [10; 6; 3; 2.5] [100; 50; 0.5; 0.2]) by (unfold star_shells; cbn [length]; repeat split; try lia; destruct i as [|[|[|[|i]]]]; cbn; try lra; lia).
  assert (FS : first_shell 4 (at_ giant_x) 0.1 3).
  { right. exists 3%nat. split; [reflexivity |]. split; [lia |]. split; [cbn; lra |]. intros [|[|[|j]]] H; cbn; try lra; lia. }
  split; [assumption |]. split; [exact giant_composition |]. split; [assumption |].
  destruct (C110_gravity giant _ _ giant_x giant_y giant_z "H-rich_Shell_H_burning" 0.1 1 0.001 3 eq_refl eq_refl eq_refl eq_refl eq_refl eq_refl giant_composition SS) as (l & mc & rc & E & A & _ & _ & _ & _ & B); [cbn; tauto | lra | lra | lia | exact FS |].
  exists l, rc. split; [rewrite E; do 2 f_equal; rewrite A; unfold between, depth; cbn; lra |]. cbn in B. lra.
Qed.

(** ** C111: the part of the envelope that can be unbound *)
Lemma unbind_spec mass radius dm energy threshold factor : forall k i, let E := fun j => total (grav_cell mass radius dm) j + factor * total (heat_cell energy dm) j in
  let j := unbind mass radius dm energy threshold factor k i (total (grav_cell mass radius dm) i) (total (heat_cell energy dm) i) in
  (i <= j <= i + k)%nat /\ (forall a, (i <= a < j)%nat -> Rabs (E a) < threshold) /\ ((j < i + k)%nat -> threshold <= Rabs (E j)).
Proof.
  cbv zeta. induction k as [|k IH]; intros i; cbn [unbind].
  - split; [lia |]. split; [intros; lia | lia].
  - assert (T : forall f, total f i + f i = total f (S i)) by (intros f; rewrite !total_sum; reflexivity). rewrite !T.
    destruct (lt (Rabs _) threshold) eqn:L.
    + apply lt_true in L. destruct (IH (S i)) as (A & B & C). split; [lia |]. split; [| intros; apply C; lia]. intros a H. destruct (Nat.eq_dec a i) as [-> | N]; [assumption | apply B; lia].
    + apply lt_false in L. split; [lia |]. split; [intros; lia | intros; assumption].
Qed.
Lemma above_total mass radius dm energy factor j : (forall i, (i < j)%nat -> 0 < at_ radius i) ->
  total (grav_cell mass radius dm) j + factor * total (heat_cell energy dm) j = energy_above mass radius dm energy factor j.
Proof.
  intros P. rewrite grav_total by assumption. unfold energy_above. fold (bound mass radius dm j). f_equal. rewrite total_sum, <- !sum_scale. apply sum_ext. intros i _. unfold heat_cell, get, at_. ring.
Qed.
Definition inner_mass (m r : list R) (mc rc : R) (i : nat) : R := if Rlt_dec (at_ m i) mc then mc else if Rlt_dec (at_ r i) rc then mc else at_ m i.
(** As long as there is energy to unbind, shells are taken away from the surface while those above are bound by less; what lies above the last
    of them is ejected, but nothing of the core. *)
Theorem C111_ejected :
  forall p m r dm u threshold mc rc factor tolerance, mass_radius_dm p = Ok (m, r, dm) ->
  internal_energy "lambda_from_profile_gravitational_plus_internal_minus_recombination" p tolerance = Ok u -> star_shells m r -> 0 < threshold ->
  exists i, (i < length m)%nat /\ (forall j, (j <= i)%nat -> Rabs (energy_above m r dm u factor j) < threshold) /\
    (S i = length m \/ threshold <= Rabs (energy_above m r dm u factor (S i))) /\
    calculate_Mejected p threshold mc rc factor tolerance = Ok (at_ m 0 - inner_mass m r mc rc i).
Proof.
  intros p m r dm u threshold mc rc factor tolerance MRD U (L & N & P & D) T. unfold calculate_Mejected. rewrite MRD. cbn [rbind]. unfold MINUS_RECOMBINATION. rewrite U. cbn [rbind].
  assert (H := unbind_spec m r dm u threshold factor (length m) 0). cbv zeta in H. change (total (grav_cell m r dm) 0) with 0 in H. change (total (heat_cell u dm) 0) with 0 in H.
  destruct (unbind m r dm u threshold factor (length m) 0 0 0) as [|i].
  - destruct H as (_ & _ & H). specialize (H ltac:(lia)). change (threshold <= Rabs (0 + factor * 0)) in H. replace (0 + factor * 0) with 0 in H by ring. rewrite Rabs_R0 in H. lra.
  - destruct H as (A & B & C). exists i. split; [lia |]. split; [| split].
    + intros j J. rewrite <- above_total by (intros; apply P; lia). apply B. lia.
    + destruct (Nat.eq_dec (S i) (length m)) as [|NE]; [now left |]. right. rewrite <- above_total by (intros; apply P; lia). apply C. lia.
    + unfold inner_mass, lt. change (get m i) with (at_ m i). change (get r i) with (at_ r i). destruct (Rlt_dec (at_ m i) mc); [reflexivity |]. destruct (Rlt_dec (at_ r i) rc); reflexivity.
Qed.
(** So between nothing and the envelope, and more for more energy *)
Lemma inner_range m r mc rc i : star_shells m r -> (i < length m)%nat -> mc <= at_ m 0 -> mc <= inner_mass m r mc rc i <= at_ m 0.
Proof.
  intros SS I H. unfold inner_mass. destruct (Rlt_dec (at_ m i) mc); [lra |]. destruct (Rlt_dec (at_ r i) rc); [lra |]. destruct (order m r 0 i SS ltac:(lia)). lra.
Qed.
Lemma inner_mono m r mc rc i j : star_shells m r -> (i <= j < length m)%nat -> mc <= at_ m 0 -> inner_mass m r mc rc j <= inner_mass m r mc rc i.
Proof.
  intros SS IJ H. destruct (order m r i j SS IJ) as [A B]. unfold inner_mass. destruct (Rlt_dec (at_ m i) mc), (Rlt_dec (at_ r i) rc), (Rlt_dec (at_ m j) mc), (Rlt_dec (at_ r j) rc); lra.
Qed.
Theorem C111_range :
  forall p m r dm threshold mc rc factor tolerance e, mass_radius_dm p = Ok (m, r, dm) -> star_shells m r -> 0 < threshold -> mc <= at_ m 0 ->
  calculate_Mejected p threshold mc rc factor tolerance = Ok e -> 0 <= e <= at_ m 0 - mc.
Proof.
  intros p m r dm threshold mc rc factor tolerance e MRD SS T H E.
  destruct (internal_energy "lambda_from_profile_gravitational_plus_internal_minus_recombination" p tolerance) as [u|] eqn:U.
  - destruct (C111_ejected p m r dm u threshold mc rc factor tolerance MRD U SS T) as (i & I & _ & _ & E'). assert (Q : e = at_ m 0 - inner_mass m r mc rc i) by congruence. assert (K := inner_range m r mc rc i SS I H). lra.
  - exfalso. unfold calculate_Mejected in E. rewrite MRD in E. cbn [rbind] in E. unfold MINUS_RECOMBINATION in E. rewrite U in E. discriminate.
Qed.
Theorem C111_monotone :
  forall p m r dm threshold threshold' mc rc factor tolerance e e', mass_radius_dm p = Ok (m, r, dm) -> star_shells m r -> 0 < threshold <= threshold' -> mc <= at_ m 0 ->
  calculate_Mejected p threshold mc rc factor tolerance = Ok e -> calculate_Mejected p threshold' mc rc factor tolerance = Ok e' -> e <= e'.
Proof.
  intros p m r dm t t' mc rc factor tolerance e e' MRD SS T H E E'.
  destruct (internal_energy "lambda_from_profile_gravitational_plus_internal_minus_recombination" p tolerance) as [u|] eqn:U.
  - destruct (C111_ejected p m r dm u t mc rc factor tolerance MRD U SS ltac:(lra)) as (i & I & A & B & Q).
    destruct (C111_ejected p m r dm u t' mc rc factor tolerance MRD U SS ltac:(lra)) as (j & J & A' & B' & Q').
    assert (K : (i <= j)%nat). { destruct (le_lt_dec i j) as [|K]; [assumption |]. destruct B' as [B' | B']; [lia |]. specialize (A (S j) ltac:(lia)). lra. }
    assert (Z1 : e = at_ m 0 - inner_mass m r mc rc i) by congruence. assert (Z2 : e' = at_ m 0 - inner_mass m r mc rc j) by congruence. assert (M := inner_mono m r mc rc i j SS ltac:(lia) H). lra.
  - exfalso. unfold calculate_Mejected in E. rewrite MRD in E. cbn [rbind] in E. unfold MINUS_RECOMBINATION in E. rewrite U in E. discriminate.
Qed.
(** With no energy to unbind anything the index before the first shell is the last shell: the whole envelope goes. *)
Theorem C111_nothing_refuted :
  forall p m r dm u threshold mc rc factor tolerance, mass_radius_dm p = Ok (m, r, dm) ->
  internal_energy "lambda_from_profile_gravitational_plus_internal_minus_recombination" p tolerance = Ok u -> star_shells m r -> threshold <= 0 -> at_ m (length m - 1) < mc ->
  calculate_Mejected p threshold mc rc factor tolerance = Ok (at_ m 0 - mc).
Proof.
  intros p m r dm u threshold mc rc factor tolerance MRD U (L & N & P & D) T M. unfold calculate_Mejected. rewrite MRD. cbn [rbind]. unfold MINUS_RECOMBINATION. rewrite U. cbn [rbind].
  assert (Z : unbind m r dm u threshold factor (length m) 0 0 0 = 0%nat).
  { destruct (length m) as [|k]; [lia |]. cbn [unbind]. replace (lt (Rabs (0 + factor * 0)) threshold) with false; [reflexivity |]. symmetry. apply lt_false. replace (0 + factor * 0) with 0 by ring. rewrite Rabs_R0. lra. }
  rewrite Z. change (get m (length m - 1)) with (at_ m (length m - 1)). replace (lt (at_ m (length m - 1)) mc) with true by (symmetry; now apply lt_true). reflexivity.
Qed.
Example C111_case :
  exists dm u e, mass_radius_dm giant = Ok ([10; 6; 3; 2.5], [100; 50; 0.5; 0.2], dm) /\ internal_energy "lambda_from_profile_gravitational_plus_internal_minus_recombination" giant 0.001 = Ok u /\ calculate_Mejected giant UNIT 2.75 0.3 1 0.001 = Ok e /\ e = 7.
Proof.
  assert (SS : star_shells [10; 6; 3; 2.5] [100; 50; 0.5; 0.2]) by (unfold star_shells; cbn [length]; repeat split; try lia; destruct i as [|[|[|[|i]]]]; cbn; try lra; lia).
  assert (Z : internal_energy "lambda_from_profile_gravitational_plus_internal_minus_recombination" giant 0.001 = Ok [100 * 0; 50 * 0; 0.5 * 0; 0.2 * 0]) by reflexivity.
  exists (shells [10; 6; 3; 2.5]), [100 * 0; 50 * 0; 0.5 * 0; 0.2 * 0], 7. split; [reflexivity |]. split; [exact Z |]. split; [| reflexivity].
  assert (UP := unit_pos).
  destruct (C111_ejected giant _ _ _ _ UNIT 2.75 0.3 1 0.001 eq_refl Z SS UP) as (i & I & A & B & ->). f_equal.
  assert (U0 : forall i, at_ [100 * 0; 50 * 0; 0.5 * 0; 0.2 * 0] i = 0) by (intros [|[|[|[|[|j]]]]]; cbn; lra).
  assert (V1 : energy_above [10; 6; 3; 2.5] [100; 50; 0.5; 0.2] (shells [10; 6; 3; 2.5]) [100 * 0; 50 * 0; 0.5 * 0; 0.2 * 0] 1 2 = - UNIT * 0.76) by (rewrite no_heat by assumption; cbn; lra).
  assert (V0 : energy_above [10; 6; 3; 2.5] [100; 50; 0.5; 0.2] (shells [10; 6; 3; 2.5]) [100 * 0; 50 * 0; 0.5 * 0; 0.2 * 0] 1 1 = - UNIT * 0.4) by (rewrite no_heat by assumption; cbn; lra).
  assert (V2 : energy_above [10; 6; 3; 2.5] [100; 50; 0.5; 0.2] (shells [10; 6; 3; 2.5]) [100 * 0; 50 * 0; 0.5 * 0; 0.2 * 0] 1 3 = - UNIT * 3.76) by (rewrite no_heat by assumption; cbn; lra).
  assert (G : forall a, 0 <= a -> Rabs (- UNIT * a) = UNIT * a) by (intros a Ha; replace (- UNIT * a) with (- (UNIT * a)) by ring; rewrite Rabs_Ropp; apply Rabs_right, Rle_ge, Rmult_le_pos; lra).
  destruct i as [|[|[|[|i]]]].
  - destruct B as [B | B]; [discriminate |]. rewrite V0, G in B by lra. nra.
  - destruct B as [B | B]; [discriminate |]. rewrite V1, G in B by lra. nra.
  - unfold inner_mass. cbn. repeat destruct (Rlt_dec _ _); lra.
  - specialize (A 3%nat ltac:(lia)). rewrite V2, G in A by lra. nra.
  - cbn in I. lia.
Qed.
Print Assumptions C110_lambda. Print Assumptions C110_gravity. Print Assumptions C110_units. Print Assumptions C110_limits. Print Assumptions C110_accreted. Print Assumptions C110_CO_core_refuted.
Print Assumptions C111_ejected. Print Assumptions C111_range. Print Assumptions C111_monotone. Print Assumptions C111_nothing_refuted.
Print Assumptions C112_between. Print Assumptions C112_within. Print Assumptions C112_search. Print Assumptions C112_outside_refuted.
