(** C108 and C109: the boundary of the core, and the energy that binds the envelope *)
From Coq Require Import Reals String Bool List Lia ZArith Lra.
From Verif Require Import PyBase PyStr OrbitModel InspiralModel RealLemmas EnvelopeModel.
From Verif Require CEEModel.
Import ListNotations.
Open Scope string_scope.
Open Scope R_scope.
Open Scope list_scope.

(** ** C108: specification *)
Definition at_ (l : list R) (i : nat) : R := nth i l 0.
(** Mass fractions of hydrogen, helium and metals of [n] shells *)
Definition composition (n : nat) (x y z : list R) : Prop :=
  length x = n /\ length y = n /\ length z = n /\ forall i, (i < n)%nat -> 0 <= at_ x i /\ 0 <= at_ y i /\ 0 <= at_ z i /\ at_ x i + at_ y i + at_ z i = 1.
(** The first shell, from the surface, with at most [fraction] of what the envelope is made of; -1 if there is none *)
Definition first_shell (n : nat) (element : nat -> R) (fraction : R) (k : Z) : Prop :=
  (k = (-1)%Z /\ forall i, (i < n)%nat -> fraction < element i) \/
  (exists i, k = Z.of_nat i /\ (i < n)%nat /\ element i <= fraction /\ forall j, (j < i)%nat -> fraction < element j).
Definition HYDROGEN_RICH := ["H-rich_Core_H_burning"; "H-rich_Core_He_burning"; "H-rich_Shell_H_burning"; "H-rich_Core_He_depleted"; "H-rich_Shell_He_burning";
  "H-rich_Core_C_burning"; "H-rich_Core_C_depleted"; "H-rich_non_burning"; "accreted_He_Core_H_burning"; "accreted_He_Shell_H_burning"; "accreted_He_non_burning"].
Definition HELIUM_RICH := ["H-rich_non_burning"; "accreted_He_non_burning"; "accreted_He_Core_He_burning"; "stripped_He_Core_He_burning"; "stripped_He_Core_He_depleted";
  "stripped_He_Core_C_depleted"; "stripped_He_non_burning"].

Lemma mem_in k l : CEEModel.mem k l = true <-> In k l.
Proof.
  unfold CEEModel.mem. rewrite existsb_exists. split.
  - intros (x & I & E). apply String.eqb_eq in E. now subst x.
  - intros I. exists k. split; [assumption | apply String.eqb_refl].
Qed.
Lemma rich_H s : CEEModel.mem s CEEModel.H_RICH = true <-> In s HYDROGEN_RICH.
Proof. replace CEEModel.H_RICH with HYDROGEN_RICH by reflexivity. apply mem_in. Qed.
Lemma rich_He s : CEEModel.mem s CEEModel.HE_RICH = true <-> In s HELIUM_RICH.
Proof. replace CEEModel.HE_RICH with HELIUM_RICH by reflexivity. apply mem_in. Qed.
Lemma first_true_spec l : match first_true l with
  | None => forall i, (i < length l)%nat -> nth i l false = false
  | Some i => (i < length l)%nat /\ nth i l false = true /\ forall j, (j < i)%nat -> nth j l false = false end.
Proof.
  induction l as [|b l IH]; cbn [first_true].
  - intros i H. cbn in H. lia.
  - destruct b.
    + cbn. repeat split; [lia |]. intros j H. lia.
    + destruct (first_true l) as [i|]; cbn [option_map].
      * destruct IH as (A & B & C). cbn [length nth]. repeat split; [lia | assumption |]. intros [|j] H; [reflexivity |]. apply C. lia.
      * intros [|i] H; [reflexivity |]. cbn [length nth] in *. apply IH. lia.
Qed.
Lemma zip_nth f a b i : length a = length b -> (i < length a)%nat -> nth i (zip_with f a b) 0 = f (nth i a 0) (nth i b 0).
Proof.
  intros L H. unfold zip_with. set (g := fun x : R * R => f (fst x) (snd x)). rewrite (nth_indep _ 0 (g (0, 0))) by (rewrite map_length, combine_length; lia).
  rewrite (map_nth g). rewrite combine_nth by assumption. reflexivity.
Qed.
Lemma zip_length f a b : length a = length b -> length (zip_with f a b) = length a.
Proof. intros L. unfold zip_with. rewrite map_length, combine_length. lia. Qed.
Lemma conditions_nth fraction e c i : length e = length c -> (i < length e)%nat ->
  nth i (both_conditions fraction (e, c)) false = le (nth i e 0) fraction && le 0.1 (nth i c 0).
Proof.
  intros L H. unfold both_conditions. cbn [fst snd]. set (g := fun x : R * R => le (fst x) fraction && le 0.1 (snd x)).
  rewrite (nth_indep _ false (g (0, 0))) by (rewrite map_length, combine_length; lia). rewrite (map_nth g). rewrite combine_nth by assumption. reflexivity.
Qed.
Lemma le_true x y : le x y = true <-> x <= y. Proof. unfold le. destruct (Rle_dec x y); split; intros; auto; discriminate. Qed.
Lemma le_false x y : le x y = false <-> y < x. Proof. unfold le. destruct (Rle_dec x y); split; intros; auto; try discriminate; Lra.lra. Qed.
Lemma lt_true x y : lt x y = true <-> x < y. Proof. unfold lt. destruct (Rlt_dec x y); split; intros; auto; discriminate. Qed.
Lemma lt_false x y : lt x y = false <-> y <= x. Proof. unfold lt. destruct (Rlt_dec x y); split; intros; auto; try discriminate; Lra.lra. Qed.
Lemma boundary_of n fraction e c : length e = n -> length c = n -> fraction <= 0.9 -> (forall i, (i < n)%nat -> 1 - at_ e i <= at_ c i) ->
  first_shell n (at_ e) fraction (match first_true (both_conditions fraction (e, c)) with None => (-1)%Z | Some i => Z.of_nat i end).
Proof.
  intros Le Lc F S. assert (H := first_true_spec (both_conditions fraction (e, c))).
  assert (LB : length (both_conditions fraction (e, c)) = n) by (unfold both_conditions; rewrite map_length, combine_length; cbn [fst snd]; lia). rewrite LB in H.
  assert (C : forall i, (i < n)%nat -> nth i (both_conditions fraction (e, c)) false = le (at_ e i) fraction).
  { intros i I. rewrite conditions_nth by lia. fold (at_ e i). fold (at_ c i). specialize (S i I). destruct (le (at_ e i) fraction) eqn:E; [| reflexivity]. apply le_true in E. cbn. apply le_true. lra. }
  unfold first_shell. destruct (first_true (both_conditions fraction (e, c))) as [i|].
  - right. exists i. destruct H as (I & A & B). repeat split; [assumption | |].
    + rewrite C in A by assumption. now apply le_true.
    + intros j J. specialize (B j J). rewrite C in B by lia. now apply le_false.
  - left. split; [reflexivity |]. intros i I. specialize (H i I). rewrite C in H by assumption. now apply le_false.
Qed.
(** The core begins where hydrogen falls to the given fraction; for helium stars, and where the carbon-oxygen core of a hydrogen-rich star is
    asked for, where hydrogen and helium together do. *)
Theorem C108_boundary :
  forall n mass state p x y z mc fraction CO_core, p_X p = Some x -> p_Y p = Some y -> p_Z p = Some z -> composition n x y z -> fraction <= 0.9 ->
  In state HYDROGEN_RICH \/ In state HELIUM_RICH ->
  exists k, calculate_core_boundary mass state p mc (Some fraction) CO_core = Ok k /\
    (In state HYDROGEN_RICH -> CO_core = false -> first_shell n (at_ x) fraction k) /\
    (~ In state HYDROGEN_RICH \/ CO_core = true -> first_shell n (fun i => at_ x i + at_ y i) fraction k).
Proof.
  intros n mass state p x y z mc fraction CO_core X Y Z (Lx & Ly & Lz & C) F S. unfold calculate_core_boundary, envelope_and_core. rewrite X, Y, Z.
  assert (LXY := zip_length Rplus x y ltac:(lia)). assert (LYZ := zip_length Rplus y z ltac:(lia)).
  assert (B1 : first_shell n (at_ x) fraction (match first_true (both_conditions fraction (x, zip_with Rplus y z)) with None => (-1)%Z | Some i => Z.of_nat i end)).
  { apply boundary_of; [lia | lia | assumption |]. intros i I. unfold at_ at 2. rewrite zip_nth by lia. specialize (C i I). unfold at_ in *. lra. }
  assert (B2 : first_shell n (at_ (zip_with Rplus x y)) fraction (match first_true (both_conditions fraction (zip_with Rplus x y, z)) with None => (-1)%Z | Some i => Z.of_nat i end)).
  { apply boundary_of; [lia | lia | assumption |]. intros i I. unfold at_ at 1. rewrite zip_nth by lia. specialize (C i I). unfold at_ in *. lra. }
  assert (B3 : first_shell n (fun i => at_ x i + at_ y i) fraction (match first_true (both_conditions fraction (zip_with Rplus x y, z)) with None => (-1)%Z | Some i => Z.of_nat i end)).
  { assert (Q : forall i, (i < n)%nat -> at_ (zip_with Rplus x y) i = at_ x i + at_ y i) by (intros i I; unfold at_; apply zip_nth; lia).
    destruct B2 as [[K A] | (i & K & I & A & B)].
    - left. split; [assumption |]. intros i I. rewrite <- Q by assumption. now apply A.
    - right. exists i. repeat split; [assumption | assumption | now rewrite <- Q |]. intros j J. rewrite <- Q by lia. now apply B. }
  destruct (CEEModel.mem state CEEModel.H_RICH) eqn:MH.
  - apply rich_H in MH. destruct CO_core.
    + exists (match first_true (both_conditions fraction (zip_with Rplus x y, z)) with None => (-1)%Z | Some i => Z.of_nat i end). split; [destruct (first_true (both_conditions fraction (zip_with Rplus x y, z))); reflexivity |]. split; [discriminate |]. intros _. exact B3.
    + exists (match first_true (both_conditions fraction (x, zip_with Rplus y z)) with None => (-1)%Z | Some i => Z.of_nat i end). split; [destruct (first_true (both_conditions fraction (x, zip_with Rplus y z))); reflexivity |]. split; [intros; exact B1 |]. intros [N | N]; [contradiction | discriminate].
  - assert (NH : ~ In state HYDROGEN_RICH) by (intros I; apply rich_H in I; congruence). destruct S as [S|S]; [contradiction |]. apply rich_He in S. rewrite S.
    exists (match first_true (both_conditions fraction (zip_with Rplus x y, z)) with None => (-1)%Z | Some i => Z.of_nat i end). split; [destruct (first_true (both_conditions fraction (zip_with Rplus x y, z))); reflexivity |]. split; [contradiction |]. intros _. exact B3.
Qed.
(** Without the abundances, or for any other state, the whole star counts as envelope. *)
Theorem C108_no_columns :
  forall mass state p mc fraction CO_core,
  p_X p = None \/ p_Y p = None \/ p_Z p = None \/ (~ In state HYDROGEN_RICH /\ ~ In state HELIUM_RICH) ->
  calculate_core_boundary mass state p mc (Some fraction) CO_core = Ok (-1)%Z.
Proof.
  intros mass state p mc fraction CO_core H. unfold calculate_core_boundary, envelope_and_core.
  destruct (p_X p); [| reflexivity]. destruct (p_Y p); [| reflexivity]. destruct (p_Z p); [| reflexivity].
  destruct H as [H | [H | [H | [A B]]]]; try discriminate. rewrite <- rich_H in A. rewrite <- rich_He in B.
  destruct (CEEModel.mem state CEEModel.H_RICH); [now contradiction A |]. destruct (CEEModel.mem state CEEModel.HE_RICH); [now contradiction B |]. reflexivity.
Qed.
(** By mass: the first shell below the core mass - and 0, which means that all of the star is core, if there is no such shell. *)
Theorem C108_by_mass :
  forall mass state p mc CO_core,
  (forall i, (i < length mass)%nat -> at_ mass i < mc -> (forall j, (j < i)%nat -> mc <= at_ mass j) -> calculate_core_boundary mass state p (Some mc) None CO_core = Ok (Z.of_nat i)) /\
  ((forall i, (i < length mass)%nat -> mc <= at_ mass i) -> calculate_core_boundary mass state p (Some mc) None CO_core = Ok 0%Z).
Proof.
  intros mass state p mc CO_core. unfold calculate_core_boundary, argmin, argmax. rewrite map_map.
  set (f := fun x : R => negb (le mc x)). assert (H := first_true_spec (map f mass)). rewrite map_length in H.
  assert (N : forall i, (i < length mass)%nat -> nth i (map f mass) false = f (at_ mass i)).
  { intros i I. rewrite (nth_indep _ false (f 0)) by (rewrite map_length; lia). rewrite (map_nth f). reflexivity. }
  assert (T : forall x, f x = true <-> x < mc) by (intros x; unfold f; rewrite negb_true_iff; apply le_false).
  split.
  - intros i I A B. destruct (first_true (map f mass)) as [k|].
    + destruct H as (K & HK & HJ). do 2 f_equal. destruct (lt_eq_lt_dec k i) as [[L | ->] | L]; [| reflexivity |].
      * specialize (B k L). rewrite N in HK by assumption. apply T in HK. lra.
      * specialize (HJ i L). rewrite N in HJ by assumption. apply T in A. congruence.
    + specialize (H i I). rewrite N in H by assumption. apply T in A. congruence.
  - intros A. destruct (first_true (map f mass)) as [k|]; [| reflexivity]. destruct H as (K & HK & _). rewrite N in HK by assumption. apply T in HK. specialize (A k K). lra.
Qed.
Theorem C108_all_envelope_refuted :
  exists mass mc state p CO_core, (forall i, (i < length mass)%nat -> mc < at_ mass i) /\ calculate_core_boundary mass state p (Some mc) None CO_core = Ok 0%Z.
Proof.
  exists [3; 2; 1], 0.5, "H-rich_Core_H_burning", (Profile None None None None None None None None None None None), false.
  assert (H : forall i, (i < 3)%nat -> 0.5 < at_ [3; 2; 1] i) by (intros [|[|[|i]]] I; cbn; try lra; lia). split; [exact H |].
  apply C108_by_mass. intros i I. left. now apply H.
Qed.
(** A giant: envelope, the shell burning hydrogen, core *)
Definition giant_x := [0.7; 0.7; 0.2; 0]. Definition giant_y := [0.28; 0.28; 0.78; 0.98]. Definition giant_z := [0.02; 0.02; 0.02; 0.02].
Definition giant : profile := Profile (Some [10; 6; 3; 2.5]) (Some [100; 50; 0.5; 0.2]) None None None (Some giant_x) (Some giant_y) (Some giant_z) None None None.
Lemma giant_composition : composition 4 giant_x giant_y giant_z.
Proof. repeat split; try reflexivity; destruct i as [|[|[|[|i]]]]; cbn; try lra; lia. Qed.
Example C108_case : calculate_core_boundary [10; 6; 3; 2.5] "H-rich_Shell_H_burning" giant None (Some 0.1) false = Ok 3%Z.
Proof.
  destruct (C108_boundary 4 [10; 6; 3; 2.5] "H-rich_Shell_H_burning" giant giant_x giant_y giant_z None 0.1 false eq_refl eq_refl eq_refl giant_composition ltac:(lra)) as (k & E & A & _); [left; cbn; tauto |].
  specialize (A ltac:(cbn; tauto) eq_refl). rewrite E. f_equal. destruct A as [[_ A] | (i & -> & I & A & B)].
  - specialize (A 3%nat ltac:(lia)). cbn in A. lra.
  - destruct i as [|[|[|[|i]]]]; cbn in A; try lra; try lia; reflexivity.
Qed.
Print Assumptions C108_boundary. Print Assumptions C108_no_columns. Print Assumptions C108_by_mass. Print Assumptions C108_all_envelope_refuted.
