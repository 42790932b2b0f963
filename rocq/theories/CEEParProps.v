(** C159: the cores of a star for several definitions *)
From Coq Require Import Reals String Bool List Lia ZArith Lra.
From Verif Require Import PyBase PyStr OrbitModel RealLemmas EnvelopeModel EnvelopeProps EnergyProps LambdaProps CEEParModel.
Import ListNotations.
Open Scope string_scope.
Open Scope R_scope.
Open Scope list_scope.

(** The core for a boundary at [fraction] of hydrogen: all of the star, none of it, or inside the shell in which hydrogen falls to it *)
Inductive is_core (m r x : list R) (fraction : R) : R -> R -> Prop :=
| all_core : (0 < length m)%nat -> at_ x 0 <= fraction -> is_core m r x fraction (at_ m 0) (at_ r 0)
| no_core : (forall i, (i < length m)%nat -> fraction < at_ x i) -> is_core m r x fraction 0 0
| some_core i : (0 < i < length m)%nat -> at_ x i <= fraction -> (forall j, (j < i)%nat -> fraction < at_ x j) ->
    is_core m r x fraction (between (depth x fraction i) (at_ m (i - 1)) (at_ m i)) (between (depth x fraction i) (at_ r (i - 1)) (at_ r i)).

Lemma between_range w a b : 0 <= w <= 1 -> b <= a -> b <= between w a b <= a.
Proof. intros W L. unfold between. nra. Qed.
Lemma depth_le x f g i : f <= g -> g < at_ x (i - 1) -> at_ x i <= f -> depth x g i <= depth x f i.
Proof.
  intros L A B. unfold depth. apply Rmult_le_compat_r; [left; apply Rinv_0_lt_compat; lra|lra].
Qed.
Lemma core_le m r x f g mf rf mg rg : star_shells m r -> (0 < length m)%nat -> f <= g -> is_core m r x f mf rf -> is_core m r x g mg rg ->
  0 <= mf <= mg /\ mg <= at_ m 0 /\ 0 <= rf <= rg /\ rg <= at_ r 0.
Proof.
  intros S P L Cf Cg.
  assert (POS : forall i, (i < length m)%nat -> 0 <= at_ m i /\ 0 <= at_ r i).
  { intros i I. destruct S as (_ & _ & S1 & S2). specialize (S1 i I). lra. }
  assert (TOP : forall i, (i < length m)%nat -> at_ m i <= at_ m 0 /\ at_ r i <= at_ r 0) by (intros i I; apply (order m r 0 i S); lia).
  assert (ALL : forall f mf rf, is_core m r x f mf rf -> 0 <= mf <= at_ m 0 /\ 0 <= rf <= at_ r 0).
  { intros f' mf' rf' [A B | A | i I A B].
    - destruct (POS 0%nat P). lra.
    - destruct (POS 0%nat P). lra.
    - assert (W := depth_range x f' i A (B (i - 1)%nat ltac:(lia))). destruct (POS i) as (P1 & P2); [lia|]. destruct (TOP (i - 1)%nat) as (T1 & T2); [lia|].
      destruct (order m r (i - 1) i S) as (O1 & O2); [lia|].
      assert (B1 := between_range (depth x f' i) (at_ m (i - 1)) (at_ m i) ltac:(lra) O1). assert (B2 := between_range (depth x f' i) (at_ r (i - 1)) (at_ r i) ltac:(lra) O2). lra. }
  destruct (ALL _ _ _ Cf) as (F1 & F2). destruct (ALL _ _ _ Cg) as (G1 & G2).
  assert (LE : mf <= mg /\ rf <= rg); [|lra].
  destruct Cf as [A B | A | i I A B]; [|lra|].
  - destruct Cg as [A' B' | A' | j J A' B']; [lra| |].
    + exfalso. specialize (A' 0%nat P). lra.
    + exfalso. specialize (B' 0%nat ltac:(lia)). lra.
  - destruct Cg as [A' B' | A' | j J A' B']; [lra| |].
    + exfalso. specialize (A' i ltac:(lia)). lra.
    + assert (JI : (j <= i)%nat). { destruct (le_lt_dec j i) as [Q | Q]; [exact Q|]. specialize (B' i Q). lra. }
      assert (W := depth_range x f i A (B (i - 1)%nat ltac:(lia))). assert (V := depth_range x g j A' (B' (j - 1)%nat ltac:(lia))).
      destruct (order m r (i - 1) i S) as (O1 & O2); [lia|]. destruct (order m r (j - 1) j S) as (Q1 & Q2); [lia|].
      destruct (Nat.eq_dec i j) as [<- | NE].
      * assert (D := depth_le x f g i L (B' (i - 1)%nat ltac:(lia)) A). unfold between. nra.
      * assert (B1 := between_range (depth x f i) (at_ m (i - 1)) (at_ m i) ltac:(lra) O1). assert (B2 := between_range (depth x f i) (at_ r (i - 1)) (at_ r i) ltac:(lra) O2).
        assert (B3 := between_range (depth x g j) (at_ m (j - 1)) (at_ m j) ltac:(lra) Q1). assert (B4 := between_range (depth x g j) (at_ r (j - 1)) (at_ r j) ltac:(lra) Q2).
        destruct (order m r j (i - 1) S) as (R1 & R2); [lia|]. lra.
Qed.
Lemma given_index p state option_ fraction alpha tolerance CO_core m r dm k :
  mass_radius_dm p = Ok (m, r, dm) -> calculate_core_boundary m state p None (Some fraction) CO_core = Ok k ->
  calculate_lambda_from_profile p state option_ fraction (Some k) alpha tolerance CO_core = calculate_lambda_from_profile p state option_ fraction None alpha tolerance CO_core.
Proof. intros M B. unfold calculate_lambda_from_profile. rewrite M. cbn [rbind]. now rewrite B. Qed.
Lemma one_core_is p m r dm x y z state fraction c :
  mass_radius_dm p = Ok (m, r, dm) -> p_X p = Some x -> p_Y p = Some y -> p_Z p = Some z -> composition (length m) x y z -> star_shells m r ->
  (forall i, (i < length m)%nat -> 0 <= at_ dm i) -> In state H_RICH_STATES -> fraction <= 0.9 -> one_core p state fraction false = Ok c ->
  exists mc rc, c = Core (Some mc) (Some rc) (ce_lambda c) /\ is_core m r x fraction mc rc.
Proof.
  intros MRD X Y Z C S D ST F E. unfold one_core in E.
  assert (PM : p_mass p = Some m).
  { unfold mass_radius_dm in MRD. destruct (p_mass p) as [m'|]; [|discriminate]. destruct (radii p) as [r'|]; [|discriminate]. destruct m', r'; try discriminate; congruence. }
  rewrite PM in E. cbn [column rbind] in E. destruct (H_rich_states state ST) as (SH & _).
  destruct (C108_boundary (length m) m state p x y z None fraction false X Y Z C F (or_introl SH)) as (k & K & A & _). specialize (A SH eq_refl). rewrite K in E. cbn [rbind] in E.
  rewrite (given_index _ _ _ _ _ _ _ m r dm k MRD K) in E.
  destruct (calculate_lambda_from_profile p state DEFAULT_CE_OPTION_FOR_LAMBDA fraction None 1 0.001 false) as [res|] eqn:EL; [|discriminate]. cbn [rbind] in E.
  assert (W : c = Core (Some (core_mass res)) (Some (core_radius res)) (lambda res)) by congruence. subst c. cbn [ce_lambda]. exists (core_mass res), (core_radius res). split; [reflexivity|].
  assert (U : exists u, internal_energy DEFAULT_CE_OPTION_FOR_LAMBDA p 0.001 = Ok u).
  { unfold calculate_lambda_from_profile in EL. rewrite MRD in EL. cbn [rbind] in EL. destruct (internal_energy DEFAULT_CE_OPTION_FOR_LAMBDA p 0.001) as [u|]; [now exists u|discriminate]. }
  destruct U as (u & U). destruct (C110_limits p m r dm u state _ fraction 1 0.001 false res k MRD U K EL) as (L0 & L1). destruct (mrd_of p m r dm MRD) as (M0 & _).
  destruct S as (LR & _ & S1 & S2).
  destruct A as [(-> & A) | (i & -> & I & A & B)].
  - destruct (L1 eq_refl) as (-> & -> & _). now constructor.
  - destruct i as [|i].
    + destruct (L0 eq_refl) as (_ & -> & ->). now constructor.
    + destruct (C110_lambda (length m) p m r dm u x y z state _ fraction 1 0.001 (S i) res MRD U X Y Z C eq_refl) as (W & -> & -> & _); trivial; try lia.
      * intros j J. specialize (S1 j J). specialize (D j J). lra.
      * right. exists (S i). repeat split; assumption.
      * apply some_core; [lia|exact A|exact B].
Qed.
(** A hydrogen-rich star: the cores for 1, 10 and 30 per cent are nested, in mass and in radius, and inside the star. *)
Theorem C159_nested :
  forall p m r dm x y z state M log_R c,
  mass_radius_dm p = Ok (m, r, dm) -> p_X p = Some x -> p_Y p = Some y -> p_Z p = Some z -> composition (length m) x y z -> star_shells m r ->
  (forall i, (i < length m)%nat -> 0 <= at_ dm i) -> In state H_RICH_STATES -> CEE_parameters M log_R state (Some p) = Ok c ->
  exists m1 m10 m30 r1 r10 r30, ce_mass (cent_1 c) = Some m1 /\ ce_mass (cent_10 c) = Some m10 /\ ce_mass (cent_30 c) = Some m30 /\
  ce_radius (cent_1 c) = Some r1 /\ ce_radius (cent_10 c) = Some r10 /\ ce_radius (cent_30 c) = Some r30 /\
  is_core m r x 0.01 m1 r1 /\ is_core m r x 0.1 m10 r10 /\ is_core m r x 0.3 m30 r30 /\
  0 <= m1 <= m10 /\ m10 <= m30 <= at_ m 0 /\ 0 <= r1 <= r10 /\ r10 <= r30 <= at_ r 0.
Proof.
  intros p m r dm x y z state M log_R c MRD X Y Z C S D ST E. unfold CEE_parameters in E. destruct (H_rich_states state ST) as (_ & PI). rewrite PI in E.
  destruct (column (p_mass p)); [|discriminate]. cbn [rbind] in E.
  destruct (one_core p state 0.01 false) as [c1|] eqn:E1; [|discriminate]. cbn [rbind] in E. destruct (one_core p state 0.1 false) as [c2|] eqn:E2; [|discriminate]. cbn [rbind] in E.
  destruct (one_core p state 0.3 false) as [c3|] eqn:E3; [|discriminate]. cbn [rbind] in E. destruct (one_core p state 0.1 true) as [c4|] eqn:E4; [|discriminate]. cbn [rbind] in E.
  assert (W : c = CEE c1 c2 c3 c4) by congruence. subst c. cbn [cent_1 cent_10 cent_30].
  destruct (one_core_is p m r dm x y z state 0.01 c1 MRD X Y Z C S D ST ltac:(lra) E1) as (m1 & r1 & -> & I1).
  destruct (one_core_is p m r dm x y z state 0.1 c2 MRD X Y Z C S D ST ltac:(lra) E2) as (m2 & r2 & -> & I2).
  destruct (one_core_is p m r dm x y z state 0.3 c3 MRD X Y Z C S D ST ltac:(lra) E3) as (m3 & r3 & -> & I3).
  destruct (mrd_of p m r dm MRD) as (M0 & _).
  destruct (core_le m r x 0.01 0.1 m1 r1 m2 r2 S M0 ltac:(lra) I1 I2) as (A1 & A2 & A3 & A4). destruct (core_le m r x 0.1 0.3 m2 r2 m3 r3 S M0 ltac:(lra) I2 I3) as (B1 & B2 & B3 & B4).
  exists m1, m2, m3, r1, r2, r3. cbn [ce_mass ce_radius]. repeat (split; [reflexivity || assumption|]). repeat split; lra.
Qed.
Print Assumptions C159_nested.
(** A stripped star is all helium core; other stars, and stars without a profile, have no known cores. *)
Theorem C159_others :
  forall M log_R state p c, CEE_parameters M log_R state p = Ok c -> py_in "H-rich" state = false ->
  (py_in "stripped_He" state = true -> p <> None -> forall k, In k [cent_1 c; cent_10 c; cent_30 c] -> k = Core (Some M) (Some (Rpower 10 log_R)) None) /\
  (py_in "stripped_He" state = false \/ p = None -> forall k, In k [cent_1 c; cent_10 c; cent_30 c; pure_He_10 c] -> k = Core None None None).
Proof.
  intros M log_R state p c E N. unfold CEE_parameters in E. rewrite N in E. destruct p as [p|].
  - destruct (column (p_mass p)); [|discriminate]. cbn [rbind] in E. split.
    + intros S _ k K. rewrite S in E. destruct (one_core p state 0.1 false) as [d|]; [|discriminate]. cbn [rbind] in E.
      match type of E with Ok ?t = _ => assert (W : c = t) by congruence end. subst c. cbn [cent_1 cent_10 cent_30 In] in K. destruct K as [<- | [<- | [<- | []]]]; reflexivity.
    + intros [S | S] k K; [|discriminate]. rewrite S in E. match type of E with Ok ?t = _ => assert (W : c = t) by congruence end. subst c.
      cbn [cent_1 cent_10 cent_30 pure_He_10 In] in K. destruct K as [<- | [<- | [<- | [<- | []]]]]; reflexivity.
  - split; [intros _ K; now contradiction K|]. intros _ k K. match type of E with Ok ?t = _ => assert (W : c = t) by congruence end. subst c.
    cbn [cent_1 cent_10 cent_30 pure_He_10 In] in K. destruct K as [<- | [<- | [<- | [<- | []]]]]; reflexivity.
Qed.
Print Assumptions C159_others.
(** A giant with a helium core, in which hydrogen falls from 20 per cent to none in the innermost shell *)
Example C159_case :
  exists c, CEE_parameters 10 2 "H-rich_Shell_H_burning" (Some giant) = Ok c /\ mass_radius_dm giant = Ok ([10; 6; 3; 2.5], [100; 50; 0.5; 0.2], shells [10; 6; 3; 2.5]) /\
  composition 4 giant_x giant_y giant_z /\ star_shells [10; 6; 3; 2.5] [100; 50; 0.5; 0.2] /\
  ce_mass (cent_1 c) = Some 2.525 /\ ce_mass (cent_10 c) = Some 2.75 /\ ce_mass (cent_30 c) = Some 3.6 /\ ce_mass (pure_He_10 c) = Some 0.
Proof.
  set (m := [10; 6; 3; 2.5]). set (r := [100; 50; 0.5; 0.2]).
  assert (SS : star_shells m r) by (unfold star_shells; cbn [m r length]; repeat split; try lia; destruct i as [|[|[|[|i]]]]; cbn; try lra; lia).
  assert (MRD : mass_radius_dm giant = Ok (m, r, shells m)) by reflexivity.
  assert (GR : forall k f co, calculate_lambda_from_profile giant "H-rich_Shell_H_burning" DEFAULT_CE_OPTION_FOR_LAMBDA f k 1 0.001 co = calculate_lambda_from_profile giant "H-rich_Shell_H_burning" "lambda_from_profile_gravitational" f k 1 0.001 co) by reflexivity.
  assert (SH : In "H-rich_Shell_H_burning" HYDROGEN_RICH) by (cbn; tauto).
  assert (ONE : forall f i, f <= 0.9 -> (0 < i)%nat -> first_shell 4 (at_ giant_x) f (Z.of_nat i) ->
    exists c, one_core giant "H-rich_Shell_H_burning" f false = Ok c /\ ce_mass c = Some (between (depth giant_x f i) (at_ m (i - 1)) (at_ m i))).
  { intros f i F I FS. destruct (C110_gravity giant m r giant_x giant_y giant_z "H-rich_Shell_H_burning" f 1 0.001 i eq_refl eq_refl eq_refl eq_refl eq_refl eq_refl giant_composition SS) as (l & mc & rc & E & A & _);
      [cbn; tauto|exact F|lra|exact I|exact FS|].
    assert (B := boundary_H 4 m "H-rich_Shell_H_burning" giant giant_x giant_y giant_z None f _ eq_refl eq_refl eq_refl giant_composition F SH FS).
    unfold one_core. change (column (p_mass giant)) with (Ok m : result (list R)). cbn [rbind]. rewrite B. cbn [rbind]. rewrite (given_index _ _ _ _ _ _ _ m r (shells m) _ MRD B), GR, E. cbn [rbind].
    eexists. split; [reflexivity|]. cbn [ce_mass core_mass]. now rewrite A. }
  assert (F3 : forall f, 0 <= f -> f < 0.2 -> first_shell 4 (at_ giant_x) f (Z.of_nat 3)).
  { intros f P Q. right. exists 3%nat. split; [reflexivity|]. split; [lia|]. split; [cbn; lra|]. intros [|[|[|j]]] H; cbn; try lra; lia. }
  destruct (ONE 0.01 3%nat ltac:(lra) ltac:(lia) (F3 0.01 ltac:(lra) ltac:(lra))) as (c1 & E1 & M1). destruct (ONE 0.1 3%nat ltac:(lra) ltac:(lia) (F3 0.1 ltac:(lra) ltac:(lra))) as (c2 & E2 & M2).
  assert (F2 : first_shell 4 (at_ giant_x) 0.3 (Z.of_nat 2)).
  { right. exists 2%nat. split; [reflexivity|]. split; [lia|]. split; [cbn; lra|]. intros [|[|j]] H; cbn; try lra; lia. }
  destruct (ONE 0.3 2%nat ltac:(lra) ltac:(lia) F2) as (c3 & E3 & M3).
  assert (CO : exists c4, one_core giant "H-rich_Shell_H_burning" 0.1 true = Ok c4 /\ ce_mass c4 = Some 0).
  { destruct (C108_boundary 4 m "H-rich_Shell_H_burning" giant giant_x giant_y giant_z None 0.1 true eq_refl eq_refl eq_refl giant_composition ltac:(lra) (or_introl SH)) as (k & K & _ & A).
    specialize (A (or_intror eq_refl)). assert (KE : k = (-1)%Z).
    { destruct A as [(-> & _) | (i & -> & I & A & _)]; [reflexivity|]. exfalso. destruct i as [|[|[|[|i]]]]; cbn in A; try lra; lia. }
    subst k. unfold one_core. change (column (p_mass giant)) with (Ok m : result (list R)). cbn [rbind]. rewrite K. cbn [rbind]. rewrite GR. unfold calculate_lambda_from_profile. rewrite MRD. cbn [rbind].
    destruct (gravity_energy giant 0.001 m r (shells m) eq_refl MRD) as (u & U & U0). rewrite U. cbn [rbind Z.eqb].
    assert (PP : forall j, (j < 4)%nat -> 0 < at_ r j /\ 0 <= at_ m j /\ 0 <= at_ (shells m) j) by (intros [|[|[|[|j]]]] J; cbn; try lra; lia).
    rewrite C109_energy by exact PP. cbn [rbind]. fold (energy_above m r (shells m) u 1 (length m)). rewrite no_heat by exact U0.
    unfold accepted. cbn [lambda].
    assert (PB : 0 < bound m r (shells m) (length m)) by (cbn; lra). assert (UP := unit_pos).
    assert (LP : 0 < lambda_of (get m 0) 0 (- UNIT * bound m r (shells m) (length m)) (get r 0)).
    { unfold lambda_of. change (get m 0) with 10. change (get r 0) with 100. set (bb := bound m r (shells m) (length m)) in *. clearbody bb.
      assert (Q1 : 0 < Rsun) by (unfold Rsun; lra). assert (Q2 : 0 < Msun) by (unfold Msun; lra). assert (Q3 : 0 < standard_cgrav) by (unfold standard_cgrav; lra).
      revert Q1 Q2 Q3 UP. generalize Rsun, Msun, standard_cgrav, UNIT. intros s_ y_ g_ u_ Q1 Q2 Q3 UP.
      replace (- g_ * 10 * y_ * (10 - 0) * y_ / (- u_ * bb * 100 * s_)) with ((g_ * y_ * y_) * / (u_ * bb * s_)) by (field; repeat split; lra).
      repeat apply Rmult_lt_0_compat; trivial. apply Rinv_0_lt_compat. repeat apply Rmult_lt_0_compat; trivial. }
    replace (lt (- (0.001)) _) with true by (symmetry; apply lt_true; lra). cbn [rbind core_mass core_radius lambda]. eexists. split; reflexivity. }
  destruct CO as (c4 & E4 & M4). unfold CEE_parameters. change (column (p_mass giant)) with (Ok m : result (list R)). cbn [rbind].
  change (py_in "H-rich" "H-rich_Shell_H_burning") with true. cbn iota. rewrite E1. cbn [rbind]. rewrite E2. cbn [rbind]. rewrite E3. cbn [rbind]. rewrite E4. cbn [rbind].
  eexists. split; [reflexivity|]. split; [exact MRD|]. split; [exact giant_composition|]. split; [exact SS|]. cbn [cent_1 cent_10 cent_30 pure_He_10]. rewrite M1, M2, M3, M4.
  unfold between, depth. cbn. repeat split; f_equal; lra.
Qed.
