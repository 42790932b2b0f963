(** C109: masses of the shells, their binding energy, internal and recombination energy *)
From Coq Require Import Reals String Bool List Lia ZArith Lra.
From Verif Require Import PyBase PyStr OrbitModel InspiralModel RealLemmas EnvelopeModel EnvelopeProps.
Import ListNotations.
Open Scope string_scope.
Open Scope R_scope.
Open Scope list_scope.

(** ** Specification *)
Fixpoint sum (f : nat -> R) (n : nat) : R := match n with O => 0 | S n => sum f n + f n end.
Lemma total_sum f n : total f n = sum f n.
Proof.
  unfold total. enough (H : forall a s, fold_left (fun acc i => acc + f i) (seq s n) a = a + sum (fun i => f (s + i)%nat) n).
  { rewrite H. rewrite Rplus_0_l. clear H. induction n as [|n IH]; [reflexivity |]. cbn [sum]. now rewrite IH. }
  induction n as [|n IH]; intros a s; cbn [seq fold_left sum]; [lra |]. rewrite IH. clear IH.
  enough (Q : f s + sum (fun i => f (S s + i)%nat) n = sum (fun i => f (s + i)%nat) n + f (s + n)%nat) by lra.
  induction n as [|n IH]; cbn [sum]; [rewrite Nat.add_0_r; lra |]. rewrite <- Rplus_assoc, IH. replace (S s + n)%nat with (s + S n)%nat by lia. lra.
Qed.
Lemma sum_ext f g n : (forall i, (i < n)%nat -> f i = g i) -> sum f n = sum g n.
Proof. induction n as [|n IH]; intros H; [reflexivity |]. cbn [sum]. rewrite IH by (intros; apply H; lia). rewrite H by lia. reflexivity. Qed.
Lemma sum_le f g n : (forall i, (i < n)%nat -> f i <= g i) -> sum f n <= sum g n.
Proof. induction n as [|n IH]; intros H; [cbn; lra |]. cbn [sum]. assert (A := IH ltac:(intros; apply H; lia)). assert (B := H n ltac:(lia)). lra. Qed.
Lemma sum_scale c f n : sum (fun i => c * f i) n = c * sum f n.
Proof. induction n as [|n IH]; cbn [sum]; [ring |]. rewrite IH. ring. Qed.
(** A star in shells: enclosed masses and radii decrease inwards and are positive. *)
Definition star_shells (mass radius : list R) : Prop :=
  length mass = length radius /\ (0 < length mass)%nat /\
  (forall i, (i < length mass)%nat -> 0 < at_ mass i /\ 0 < at_ radius i) /\
  (forall i, (S i < length mass)%nat -> at_ mass (S i) < at_ mass i /\ at_ radius (S i) < at_ radius i).
Lemma order mass radius i j : star_shells mass radius -> (i <= j < length mass)%nat -> at_ mass j <= at_ mass i /\ at_ radius j <= at_ radius i.
Proof.
  intros (_ & _ & _ & D) [IJ J]. induction IJ as [|j IJ IH]; [lra |]. destruct (D j J). specialize (IH ltac:(lia)). lra.
Qed.

(** ** The shells *)
Lemma shells_length m : length (shells m) = length m.
Proof. induction m as [|a [|b m] IH]; [reflexivity | reflexivity |]. change (shells (a :: b :: m)) with (- (1) * (b - a) :: shells (b :: m)). cbn [length] in *. now rewrite IH. Qed.
Lemma shells_nth m i : (i < length m)%nat -> get (shells m) i = if Nat.eqb (S i) (length m) then at_ m i else at_ m i - at_ m (S i).
Proof.
  revert i. induction m as [|a [|b m] IH]; intros i H.
  - cbn in H. lia.
  - cbn in H. assert (i = 0%nat) by lia. subst i. reflexivity.
  - change (shells (a :: b :: m)) with (- (1) * (b - a) :: shells (b :: m)). destruct i as [|i].
    + cbn. lra.
    + cbn [get nth]. change (nth i (shells (b :: m)) 0) with (get (shells (b :: m)) i). rewrite IH by (cbn [length] in *; lia). cbn [length]. reflexivity.
Qed.
(** Where the profile has no masses of shells they are the differences, and add up to what lies above; all together to the star. *)
Theorem C109_shells :
  forall mass k, (k < length mass)%nat -> sum (get (shells mass)) k = at_ mass 0 - at_ mass k /\ sum (get (shells mass)) (length mass) = at_ mass 0.
Proof.
  intros mass k K.
  assert (A : forall j, (j < length mass)%nat -> sum (get (shells mass)) j = at_ mass 0 - at_ mass j).
  { induction j as [|j IH]; intros J; cbn [sum]; [lra |]. rewrite IH, shells_nth by lia. destruct (Nat.eqb_spec (S j) (length mass)); [lia |]. lra. }
  split; [now apply A |]. destruct (length mass) as [|n] eqn:L; [lia |]. cbn [sum]. rewrite A by lia. rewrite shells_nth by lia. rewrite L, Nat.eqb_refl. lra.
Qed.
Theorem C109_columns :
  forall p m r dm, mass_radius_dm p = Ok (m, r, dm) ->
  p_mass p = Some m /\ (p_radius p = Some r \/ (p_radius p = None /\ exists l, p_log_R p = Some l /\ r = map (fun x => Rpower 10 x) l)) /\
  (p_dm p = None -> dm = shells m) /\ (forall l, p_dm p = Some l -> length dm = length l /\ forall i, get dm i * Msun = get l i).
Proof.
  intros p m r dm. unfold mass_radius_dm, radii. destruct (p_mass p) as [m'|]; [| discriminate].
  destruct (match p_radius p with Some r0 => Some r0 | None => option_map (map (Rpower 10)) (p_log_R p) end) as [r'|] eqn:RR; [| discriminate].
  destruct m' as [|m0 m']; [discriminate |]. destruct r' as [|r0 r']; [discriminate |]. intros E.
  assert (E1 : m = m0 :: m') by congruence. assert (E2 : r = r0 :: r') by congruence.
  assert (E3 : dm = match p_dm p with Some l => map (fun x => x / Msun) l | None => shells (m0 :: m') end) by congruence. clear E. split; [congruence |]. split.
  - destruct (p_radius p); [left; congruence |]. right. split; [reflexivity |]. destruct (p_log_R p) as [l|]; [| discriminate]. exists l. split; [reflexivity |]. cbn [option_map] in RR. rewrite E2. assert (G : map (Rpower 10) l = r0 :: r') by congruence. rewrite <- G. reflexivity.
  - split; [intros N; rewrite E3, N; now rewrite E1 |]. intros l L. rewrite E3, L. split; [apply map_length |]. intros i. unfold get.
    assert (P : 0 < Msun) by (unfold Msun; lra). set (y := Msun) in *. clearbody y. replace 0 with (0 / y) at 1 by (field; lra). rewrite (map_nth (fun x => x / y)). field. lra.
Qed.
(** ** The binding energy, over Rsun / (G Msun^2) *)
Definition bound (mass radius dm : list R) (k : nat) : R := sum (fun i => at_ mass i * at_ dm i / at_ radius i) k.
Definition UNIT : R := standard_cgrav * Msun ^ 2 / Rsun.
Lemma unit_pos : 0 < UNIT. Proof. unfold UNIT, standard_cgrav, Msun, Rsun. lra. Qed.
Lemma cell_value mass radius dm i : 0 < at_ radius i -> grav_cell mass radius dm i = - UNIT * (at_ mass i * at_ dm i / at_ radius i).
Proof.
  intros H. unfold grav_cell, UNIT. unfold get. fold (at_ mass i) (at_ dm i) (at_ radius i). assert (P : 0 < Rsun) by (unfold Rsun; lra).
  set (g := standard_cgrav). set (y := Msun). set (s := Rsun) in *. clearbody g y s. field. lra.
Qed.
Lemma grav_total mass radius dm k : (forall i, (i < k)%nat -> 0 < at_ radius i) -> total (grav_cell mass radius dm) k = - UNIT * bound mass radius dm k.
Proof. intros H. rewrite total_sum. unfold bound. rewrite <- sum_scale. apply sum_ext. intros i I. apply cell_value. now apply H. Qed.
(** Gravitation and the given part of the internal energy of the shells above [k]; never refused where mass and radius are positive. *)
Theorem C109_energy :
  forall mass radius dm energy k factor, (forall i, (i < k)%nat -> 0 < at_ radius i /\ 0 <= at_ mass i /\ 0 <= at_ dm i) ->
  calculate_binding_energy mass radius dm energy k factor =
  Ok (- UNIT * sum (fun i => at_ mass i * at_ dm i / at_ radius i) k + factor * Msun * sum (fun i => at_ energy i * at_ dm i) k).
Proof.
  intros mass radius dm energy k factor H. unfold calculate_binding_energy. rewrite grav_total by (intros; now apply H). rewrite total_sum.
  assert (B : 0 <= bound mass radius dm k).
  { unfold bound. replace 0 with (sum (fun _ => 0) k) by (clear H; induction k as [|k IH]; cbn [sum]; lra). apply sum_le. intros i I. destruct (H i I) as (A & B & C). apply Rmult_le_pos; [now apply Rmult_le_pos | left; now apply Rinv_0_lt_compat]. }
  assert (U := unit_pos). replace (lt 0 (- UNIT * bound mass radius dm k)) with false by (symmetry; apply lt_false; nra). cbn [andb].
  do 2 f_equal. rewrite <- sum_scale. rewrite <- sum_scale. apply sum_ext. intros i _. unfold heat_cell, get, at_. ring.
Qed.
(** A deeper boundary means more to unbind; and at least G m (M - m) / R, where m is left and R the radius of the star. *)
Theorem C109_bound :
  forall mass radius, star_shells mass radius ->
  (forall k, (k < length mass)%nat -> bound mass radius (shells mass) k < bound mass radius (shells mass) (S k)) /\
  (forall k, (k < length mass)%nat -> at_ mass k * (at_ mass 0 - at_ mass k) / at_ radius 0 <= bound mass radius (shells mass) k).
Proof.
  intros mass radius SS. assert (SS' := SS). destruct SS as (L & N & P & D).
  assert (DM : forall i, (i < length mass)%nat -> 0 < at_ (shells mass) i).
  { intros i I. change (at_ (shells mass) i) with (get (shells mass) i). rewrite shells_nth by assumption. destruct (Nat.eqb_spec (Datatypes.S i) (length mass)); [now apply P |]. destruct (D i); [lia |]. lra. }
  split.
  - intros k K. unfold bound. cbn [sum]. destruct (P k K) as [A B]. assert (C := DM k K). enough (0 < at_ mass k * at_ (shells mass) k / at_ radius k) by lra.
    apply Rmult_lt_0_compat; [now apply Rmult_lt_0_compat | now apply Rinv_0_lt_compat].
  - intros k K. destruct (P 0%nat ltac:(lia)) as [M0 R0]. destruct (P k K) as [MK RK].
    rewrite <- (proj1 (C109_shells mass k K)). unfold bound. unfold Rdiv at 1. rewrite Rmult_assoc, Rmult_comm.
    replace (sum (get (shells mass)) k * / at_ radius 0 * at_ mass k) with (at_ mass k / at_ radius 0 * sum (get (shells mass)) k) by (field; lra).
    rewrite <- sum_scale. apply sum_le. intros i I. change (get (shells mass) i) with (at_ (shells mass) i). assert (C := DM i ltac:(lia)). destruct (P i ltac:(lia)) as [Mi Ri].
    destruct (order mass radius i k) as [O1 _]; [exact SS' | lia |]. destruct (order mass radius 0 i) as [_ O2]; [exact SS' | lia |].
    replace (at_ mass i * at_ (shells mass) i / at_ radius i) with (at_ mass i * / at_ radius i * at_ (shells mass) i) by (field; lra). apply Rmult_le_compat_r; [lra |].
    unfold Rdiv. apply Rmult_le_compat; [lra | left; now apply Rinv_0_lt_compat | assumption | now apply Rinv_le_contravar].
Qed.

(** ** Recombination *)
(** If of the helium the parts n0, n1 and n2 have lost no, one and two electrons, which makes the mean charge, 24.6 eV per first and 54.4 eV
    more per second electron become free, and 13.6 eV per hydrogen nucleus without its electron. *)
Theorem C109_recombination :
  forall x y nH n0 n1 n2 q, n0 + n1 + n2 = 1 -> n1 + 2 * n2 = q -> 0 <= q -> n0 <= 1 ->
  shell_recomb x y nH n0 q =
  avo * ev2erg * (y / He_weight * (n1 * 24.587388 + n2 * (24.587388 + 54.4177650)) + x / H_weight * (1 - Rmin 1 nH) * 13.598434).
Proof.
  intros x y nH n0 n1 n2 q S Q Q0 N0. unfold shell_recomb. rewrite (Rmin_right 1 n0), (Rmax_left q 0) by lra. cbv zeta.
  replace (2 - 2 * n0 - q) with n1 by lra. replace (1 - n1 - n0) with n2 by lra. unfold recomb.
  assert (A : He_weight <> 0) by (unfold He_weight; lra). assert (B : H_weight <> 0) by (unfold H_weight; lra).
  set (a := avo). set (b := ev2erg). set (c := He_weight) in *. set (d := H_weight) in *. set (e := 54.4177650). set (f := 24.587388). set (g := 13.598434). set (h := Rmin 1 nH). clearbody a b c d e f g h. field. split; assumption.
Qed.
(** So it is between nothing and that of the fully ionized shell. *)
Theorem C109_recombination_range :
  forall x y nH n0 q, 0 <= x -> 0 <= y -> 0 <= nH -> 0 <= n0 <= 1 -> 1 - n0 <= q <= 2 * (1 - n0) ->
  0 <= shell_recomb x y nH n0 q <= shell_recomb x y 0 0 2.
Proof.
  intros x y nH n0 q X Y NH N0 Q.
  rewrite (C109_recombination x y nH n0 (2 * (1 - n0) - q) (q - (1 - n0)) q) by lra. rewrite (C109_recombination x y 0 0 0 1 2) by lra.
  rewrite (Rmin_right 1 0) by lra. assert (H : 0 <= 1 - Rmin 1 nH <= 1) by (split; [assert (A := Rmin_l 1 nH); lra | assert (A := Rmin_glb 1 nH 0); lra]).
  assert (A : 0 < avo * ev2erg) by (unfold avo, ev2erg; lra). assert (B : 0 <= y / He_weight) by (unfold He_weight; apply Rmult_le_pos; [assumption | lra]). assert (C : 0 <= x / H_weight) by (unfold H_weight; apply Rmult_le_pos; [assumption | lra]).
  set (a := avo * ev2erg) in *. set (b := y / He_weight) in *. set (c := x / H_weight) in *. set (h := 1 - Rmin 1 nH) in *. clearbody a b c h.
  assert (D : 0 <= (2 * (1 - n0) - q) * 24.587388 + (q - (1 - n0)) * (24.587388 + 54.4177650) <= 0 * 24.587388 + 1 * (24.587388 + 54.4177650)) by lra.
  set (d := (2 * (1 - n0) - q) * 24.587388 + (q - (1 - n0)) * (24.587388 + 54.4177650)) in *. set (u := 0 * 24.587388 + 1 * (24.587388 + 54.4177650)) in *. clearbody d u.
  split.
  - apply Rmult_le_pos; [lra |]. assert (0 <= b * d) by (apply Rmult_le_pos; lra). assert (0 <= c * h) by (apply Rmult_le_pos; lra). lra.
  - apply Rmult_le_compat_l; [lra |]. assert (b * d <= b * u) by (apply Rmult_le_compat_l; lra). assert (c * h <= c * (1 - 0)) by (apply Rmult_le_compat_l; lra). lra.
Qed.

(** ** Internal energy *)
(** Per gram of matter with the fraction [x] of hydrogen, if all of it forms molecules of 35999.58 / cm *)
Definition molecules (x : R) : R := x * avo / (2 * H_weight) * (35999.582894 * (planck_h * clight)).
(** Columns of the same length *)
Definition columns (n : nat) (p : profile) : Prop :=
  forall c, In (Some c) [p_mass p; p_radius p; p_energy p; p_X p; p_Y p; p_neutral_H p; p_neutral_He p; p_charge_He p] -> length c = n.
Definition has (c : option (list R)) : Prop := c <> None.
Definition ionization (p : profile) : Prop := has (p_X p) /\ has (p_Y p) /\ has (p_neutral_H p) /\ has (p_neutral_He p) /\ has (p_charge_He p).
Definition value (c : option (list R)) (i : nat) : R := match c with Some l => nth i l 0 | None => 0 end.

Lemma map_get (f : R -> R) l i : (i < length l)%nat -> get (map f l) i = f (get l i).
Proof. intros H. unfold get. rewrite (nth_indep _ 0 (f 0)) by (rewrite map_length; lia). apply map_nth. Qed.
Lemma zeros_ok n p : columns n p -> has (p_radius p) -> exists z, zeros p = Ok z /\ length z = n /\ forall i, get z i = 0.
Proof.
  intros C H. unfold zeros, column. destruct (p_radius p) as [r|] eqn:E; [| now elim H]. cbn [rbind]. eexists. split; [reflexivity |]. rewrite map_length. split.
  - apply C. rewrite E. cbn. tauto.
  - intros i. unfold get. destruct (nth_in_or_default i (map (fun x => x * 0) r) 0) as [I | ->]; [| reflexivity]. apply in_map_iff in I. destruct I as (x & X & _). rewrite <- X. ring.
Qed.
Lemma checked_ok tolerance l : (exists x, In x l /\ - tolerance < x) -> checked tolerance l = Ok l.
Proof.
  intros (x & I & H). unfold checked, none_above. replace (existsb (fun x0 => lt (- tolerance) x0) l) with true; [reflexivity |]. symmetry. apply existsb_exists. exists x. split; [assumption | now apply lt_true].
Qed.
Lemma checked_inv tolerance l r : checked tolerance l = Ok r -> r = l /\ exists x, In x l /\ - tolerance < x.
Proof.
  unfold checked, none_above. destruct (existsb (fun x0 => lt (- tolerance) x0) l) eqn:E; [| discriminate]. cbn. intros H. split; [congruence |].
  apply existsb_exists in E. destruct E as (x & I & L). exists x. split; [assumption | now apply lt_true].
Qed.
Lemma get_in (l : list R) i : (i < length l)%nat -> In (get l i) l. Proof. intros H. unfold get. now apply nth_In. Qed.
Lemma h2_ok n p tolerance l : columns n p -> H2_recombination p tolerance = Ok l ->
  length l = n /\ forall i, (i < n)%nat -> get l i = if p_X p then molecules (value (p_X p) i) else 0.
Proof.
  intros C. unfold H2_recombination. destruct (p_X p) as [x|] eqn:E.
  - intros H. apply checked_inv in H. destruct H as [-> _]. rewrite map_length. assert (LX : length x = n) by (apply C; rewrite E; cbn; tauto). split; [assumption |].
    intros i I. rewrite map_get by lia. unfold value, molecules, inversecm2erg. fold (get x i). assert (P : H_weight <> 0) by (unfold H_weight; lra).
    set (a := 35999.582894). set (b := H_weight) in *. set (c := avo). set (d := planck_h). set (e := clight). clearbody a b c d e. field. assumption.
  - intros H. assert (HR : has (p_radius p)) by (unfold zeros, column in H; destruct (p_radius p); [discriminate | discriminate H]).
    destruct (zeros_ok n p C HR) as (z & Z & LZ & GZ). assert (l = z) by congruence. subst l. split; [assumption |]. intros i _. apply GZ.
Qed.
Lemma rec_ok n p tolerance l : columns n p -> recombination p tolerance = Ok l ->
  length l = n /\ forall i, (i < n)%nat ->
    (ionization p -> get l i = shell_recomb (value (p_X p) i) (value (p_Y p) i) (value (p_neutral_H p) i) (value (p_neutral_He p) i) (value (p_charge_He p) i)) /\ (~ ionization p -> get l i = 0).
Proof.
  intros C. unfold recombination.
  assert (Z : zeros p = Ok l -> length l = n /\ forall i, get l i = 0).
  { intros H. assert (HR : has (p_radius p)) by (unfold zeros, column in H; destruct (p_radius p); [discriminate | discriminate H]).
    destruct (zeros_ok n p C HR) as (z & Z & LZ & GZ). assert (l = z) by congruence. subst l. split; assumption. }
  unfold ionization, has.
  destruct (p_X p) as [x|] eqn:EX; [| intros H; destruct (Z H); split; [assumption |]; intros i _; split; [tauto | auto]].
  destruct (p_Y p) as [y|] eqn:EY; [| intros H; destruct (Z H); split; [assumption |]; intros i _; split; [tauto | auto]].
  destruct (p_neutral_H p) as [a|] eqn:E1; [| intros H; destruct (Z H); split; [assumption |]; intros i _; split; [tauto | auto]].
  destruct (p_neutral_He p) as [b|] eqn:E2; [| intros H; destruct (Z H); split; [assumption |]; intros i _; split; [tauto | auto]].
  destruct (p_charge_He p) as [q|] eqn:E3; [| intros H; destruct (Z H); split; [assumption |]; intros i _; split; [tauto | auto]].
  intros H. apply checked_inv in H. destruct H as [-> _]. assert (LX : length x = n) by (apply C; rewrite EX; cbn; tauto). rewrite map_length, seq_length. split; [assumption |].
  intros i I. split; [intros _ | intros N; elim N; repeat split; discriminate]. unfold get at 1.
  set (f := fun i0 : nat => shell_recomb (get x i0) (get y i0) (get a i0) (get b i0) (get q i0)).
  rewrite (nth_indep _ 0 (f 0%nat)) by (rewrite map_length, seq_length; lia). rewrite (map_nth f). rewrite seq_nth by lia. reflexivity.
Qed.
(** What each choice of [option_for_lambda] counts; the energy of the profile includes that of recombination. *)
Theorem C109_internal :
  forall n p option_ tolerance u, columns n p -> internal_energy option_ p tolerance = Ok u ->
  length u = n /\ forall i, (i < n)%nat ->
    let e := value (p_energy p) i in let h2 := if p_X p then molecules (value (p_X p) i) else 0 in
    (option_ = "lambda_from_profile_gravitational" \/ p_energy p = None -> get u i = 0) /\
    (option_ = "lambda_from_profile_gravitational_plus_internal" -> has (p_energy p) -> get u i = e - h2) /\
    (option_ = "lambda_from_profile_gravitational_plus_internal_minus_recombination" -> has (p_energy p) ->
       (ionization p -> get u i = e - h2 - shell_recomb (value (p_X p) i) (value (p_Y p) i) (value (p_neutral_H p) i) (value (p_neutral_He p) i) (value (p_charge_He p) i)) /\
       (~ ionization p -> get u i = e - h2)).
Proof.
  intros n p option_ tolerance u C. unfold internal_energy, GRAVITATIONAL, PLUS_INTERNAL, MINUS_RECOMBINATION.
  assert (Z : zeros p = Ok u -> length u = n /\ forall i, get u i = 0).
  { intros H. assert (HR : has (p_radius p)) by (unfold zeros, column in H; destruct (p_radius p); [discriminate | discriminate H]).
    destruct (zeros_ok n p C HR) as (z & Z & LZ & GZ). assert (u = z) by congruence. subst u. split; assumption. }
  destruct (String.eqb_spec option_ "lambda_from_profile_gravitational") as [-> | N1].
  { intros H. destruct (Z H) as [A B]. split; [assumption |]. intros i I. split; [intros; apply B |]. split; intros D; discriminate D. }
  destruct (p_energy p) as [energy|] eqn:EE.
  2:{ intros H. destruct (Z H) as [A B]. split; [assumption |]. intros i I. split; [intros; apply B |]. split; intros _ D; now elim D. }
  assert (LE : length energy = n) by (apply C; rewrite EE; cbn; tauto).
  destruct (String.eqb_spec option_ "lambda_from_profile_gravitational_plus_internal") as [-> | N2].
  { destruct (checked tolerance energy) as [en|] eqn:CE; [| discriminate]. cbn [rbind]. apply checked_inv in CE. destruct CE as [-> _].
    destruct (H2_recombination p tolerance) as [h|] eqn:HE; [| discriminate]. cbn [rbind]. intros H. apply checked_inv in H. destruct H as [-> _]. destruct (h2_ok n p tolerance h C HE) as [LH GH].
    rewrite zip_length by lia. split; [assumption |]. intros i I. split; [intros [D | D]; discriminate D |]. split; [| intros D; discriminate D].
    intros _ _. unfold get at 1. rewrite zip_nth by lia. change (nth i h 0) with (get h i). rewrite GH by assumption. reflexivity. }
  destruct (String.eqb_spec option_ "lambda_from_profile_gravitational_plus_internal_minus_recombination") as [-> | N3]; [| discriminate].
  destruct (checked tolerance energy) as [en|] eqn:CE; [| discriminate]. cbn [rbind]. apply checked_inv in CE. destruct CE as [-> _].
  destruct (H2_recombination p tolerance) as [h|] eqn:HE; [| discriminate]. cbn [rbind]. destruct (recombination p tolerance) as [rc|] eqn:RE; [| discriminate]. cbn [rbind].
  intros H. apply checked_inv in H. destruct H as [-> _]. destruct (h2_ok n p tolerance h C HE) as [LH GH]. destruct (rec_ok n p tolerance rc C RE) as [LR GR].
  assert (LZ := zip_length Rminus energy rc ltac:(lia)). rewrite zip_length by lia. split; [lia |]. intros i I. split; [intros [D | D]; [now elim N1 | discriminate D] |]. split; [intros D; discriminate D |].
  intros _ _. unfold get at 1 2. rewrite !zip_nth by lia. change (nth i h 0) with (get h i). change (nth i rc 0) with (get rc i). rewrite GH by assumption. destruct (GR i I) as [G1 G2].
  cbn [value]. split; intros K; [rewrite (G1 K) | rewrite (G2 K)]; lra.
Qed.
(** Other names are refused, unless there is no energy in the profile. *)
Theorem C109_options :
  forall p option_ tolerance, ~ In option_ ["lambda_from_profile_gravitational"; "lambda_from_profile_gravitational_plus_internal"; "lambda_from_profile_gravitational_plus_internal_minus_recombination"] ->
  has (p_energy p) -> internal_energy option_ p tolerance = Raise ValueError.
Proof.
  intros p option_ tolerance N H. unfold internal_energy, GRAVITATIONAL, PLUS_INTERNAL, MINUS_RECOMBINATION. cbn [In] in N.
  destruct (String.eqb_spec option_ "lambda_from_profile_gravitational"); [subst; tauto |]. destruct (p_energy p); [| now elim H].
  destruct (String.eqb_spec option_ "lambda_from_profile_gravitational_plus_internal"); [subst; tauto |].
  destruct (String.eqb_spec option_ "lambda_from_profile_gravitational_plus_internal_minus_recombination"); [subst; tauto |]. reflexivity.
Qed.
(** The checks against negative energies only fail if all shells are negative: one good shell is enough. *)
Theorem C109_check :
  forall p tolerance, (p_X p = None) -> has (p_radius p) -> forall energy, p_energy p = Some energy -> columns (length energy) p ->
  (internal_energy "lambda_from_profile_gravitational_plus_internal" p tolerance = Raise ValueError <-> forall e, In e energy -> e <= - tolerance).
Proof.
  intros p tolerance NX HR energy EE C. unfold internal_energy, GRAVITATIONAL, PLUS_INTERNAL. cbn [String.eqb Ascii.eqb Bool.eqb]. rewrite EE.
  destruct (zeros_ok _ p C HR) as (z & Z & LZ & GZ).
  assert (ZW : zip_with Rminus energy z = energy).
  { apply (nth_ext _ _ 0 0); [apply zip_length; lia |]. intros i I. rewrite zip_length in I by lia. rewrite zip_nth by lia. change (nth i z 0) with (get z i). rewrite GZ. lra. }
  unfold H2_recombination. rewrite NX, Z. split.
  - intros H e I. destruct (Rle_dec e (- tolerance)) as [|N]; [assumption |]. exfalso. assert (K : exists x, In x energy /\ - tolerance < x) by (exists e; split; [assumption | lra]).
    rewrite (checked_ok tolerance energy K) in H. cbn [rbind] in H. rewrite ZW, (checked_ok tolerance energy K) in H. discriminate.
  - intros H. destruct (checked tolerance energy) as [l|] eqn:CE; cbn [rbind].
    + apply checked_inv in CE. destruct CE as (_ & x & I & L). specialize (H x I). lra.
    + unfold checked in CE. destruct (none_above tolerance energy); [| discriminate]. congruence.
Qed.
Theorem C109_check_refuted :
  exists p u, internal_energy "lambda_from_profile_gravitational_plus_internal" p 0.001 = Ok u /\ get u 1 = - 1e15.
Proof.
  set (p := Profile (Some [2; 1]) (Some [2; 1]) None None (Some [1e15; - 1e15]) None None None None None None).
  assert (K : exists x, In x [1e15; - 1e15] /\ - (0.001) < x) by (exists 1e15; split; [now left | lra]).
  exists p, (zip_with Rminus [1e15; - 1e15] [2 * 0; 1 * 0]). split.
  - unfold internal_energy. cbn [String.eqb Ascii.eqb Bool.eqb GRAVITATIONAL PLUS_INTERNAL p p_energy]. rewrite (checked_ok 0.001 _ K). cbn [rbind H2_recombination p_X zeros column p_radius map].
    apply checked_ok. exists (1e15 - 2 * 0). split; [now left | lra].
  - cbn [zip_with combine map fst snd get nth]. lra.
Qed.
(** A profile with the logarithm of the radius only has its radii read, but the energies cannot be computed. *)
Theorem C109_log_R_refuted :
  exists p mrd, mass_radius_dm p = Ok mrd /\ forall tolerance, internal_energy "lambda_from_profile_gravitational" p tolerance = Raise ValueError.
Proof.
  exists (Profile (Some [2; 1]) None (Some [1; 0]) None None None None None None None None). eexists. split; [cbn; reflexivity |]. reflexivity.
Qed.
Example C109_case :
  let p := Profile (Some [2; 1]) (Some [20; 1]) None None (Some [5e14; 1e15]) (Some [0.7; 0.5]) None None None None None in
  columns 2 p /\ star_shells [2; 1] [20; 1] /\ exists u, internal_energy "lambda_from_profile_gravitational_plus_internal" p 0.001 = Ok u.
Proof.
  cbv zeta. split; [| split].
  - intros c H. cbn in H. repeat (destruct H as [H | H]; [try discriminate H; injection H; intros <-; reflexivity |]). contradiction.
  - unfold star_shells. cbn [length]. repeat split; try lia; destruct i as [|[|i]]; cbn; try lra; lia.
  - unfold internal_energy. cbn [String.eqb Ascii.eqb Bool.eqb GRAVITATIONAL PLUS_INTERNAL p_energy]. rewrite checked_ok by (exists 5e14; split; [now left | lra]). cbn [rbind H2_recombination p_X map].
    assert (B : 0 < 35999.582894 * inversecm2erg / (2 * H_weight) * 0.7 * avo < 3e12) by (unfold inversecm2erg, H_weight, avo, planck_h, clight; lra).
    set (h := 35999.582894 * inversecm2erg / (2 * H_weight) * 0.7 * avo) in *. set (h' := 35999.582894 * inversecm2erg / (2 * H_weight) * 0.5 * avo) in *.
    rewrite (checked_ok 0.001 [h; h']) by (exists h; split; [now left | lra]). cbn [rbind]. eexists. apply checked_ok. exists (5e14 - h). split; [now left | lra].
Qed.
Print Assumptions C109_shells. Print Assumptions C109_columns. Print Assumptions C109_energy. Print Assumptions C109_bound. Print Assumptions C109_recombination. Print Assumptions C109_recombination_range.
Print Assumptions C109_internal. Print Assumptions C109_options. Print Assumptions C109_check. Print Assumptions C109_check_refuted. Print Assumptions C109_log_R_refuted.
