(** C71, C72: theorems about merging stars and about the steps for isolated stars.  The specification is in `MergeProps`. *)
From Coq Require Import String List Bool ZArith QArith Lqa Lia.
From Verif Require Import PyBase PyNum PyStr MTModel BinaryModel MergeModel MergeProps.
Import ListNotations.
Open Scope string_scope.
Open Scope list_scope.

(** ** When a merger is refused *)
Definition only_type {A} (x : result A) : Prop := forall e, x = Raise e -> e = TypeError.
Lemma ot_ok {A} (a : A) : only_type (Ok a).
Proof. intros e. discriminate. Qed.
Lemma ot_bind {A B} (x : result A) (f : A -> result B) : only_type x -> (forall a, only_type (f a)) -> only_type (rbind x f).
Proof. intros X F e. destruct x as [a|e0]; cbn [rbind]; [apply F|]. intros H. apply X. congruence. Qed.
Lemma ot_op f a b : only_type (p_op f a b).
Proof. unfold p_op. intros e. destruct a; [|congruence]. destruct b; congruence. Qed.
Lemma ot_gt a b : only_type (p_gt a b).
Proof. unfold p_gt, p_lt. intros e. destruct a, b; congruence. Qed.
Lemma ot_lt a b : only_type (p_lt a b).
Proof. unfold p_lt. intros e. destruct a, b; congruence. Qed.
Lemma ot_and a b : only_type a -> only_type b -> only_type (r_and a b).
Proof. intros A B. unfold r_and. destruct a as [[|]|]; auto. Qed.
Lemma ot_each d f : (forall p k, only_type (f p k)) -> forall names p, only_type (for_each d f names p).
Proof. intros F. induction names as [|k names IH]; intros p; cbn [for_each]; [apply ot_ok|]. apply ot_bind; [apply F|intros; apply IH]. Qed.

Section Refused.
  Context (fadd fsub fmul fdiv : num -> num -> num) (round10 : num -> num) (rel : num) (critical_rot kept_mass : num).
  Lemma ot_mix d names w1 w2 p : only_type (mix fadd fsub fmul fdiv d names w1 w2 p).
  Proof using Type.
    apply ot_each. intros q k. unfold mass_weighted_avg.
    assert (W : forall s w, only_type (weight fsub s w)). { intros s w. unfold weight. destruct (String.eqb w _); [|destruct (String.eqb w _)]; try (apply ot_bind; [apply ot_op|]; intros); apply ot_ok. }
    apply ot_bind; [apply W|]. intros m1. apply ot_bind; [apply W|]. intros m2. apply ot_ok.
  Qed.
  Lemma ot_pure {A B} (f : A -> B) x : only_type x -> only_type (r_pure f x).
  Proof using Type. intros X. apply ot_bind; [exact X|]. intros; apply ot_ok. Qed.
  Lemma ot_copy s d names p : only_type (copy_from s d names p).
  Proof using Type. apply ot_each. intros; apply ot_ok. Qed.
  Lemma ot_add d p : only_type (add_masses fadd d p).
  Proof using Type. apply ot_each. intros; apply ot_op. Qed.
  Lemma ot_cores d p : only_type (mix_cores fadd fsub fmul fdiv d p).
  Proof using Type.
    unfold mix_cores. cbv zeta. destruct (_ && _); [apply ot_pure, ot_mix|]. apply ot_bind; [apply ot_and; [apply ot_gt|apply ot_ok]|]. intros [|]; [destruct d; [apply ot_ok|apply ot_pure, ot_copy]|].
    apply ot_bind; [apply ot_and; [apply ot_gt|apply ot_ok]|]. intros [|]; [destruct d; [apply ot_pure, ot_copy|apply ot_ok]|].
    apply ot_bind; [apply ot_and; apply ot_gt|]. intros [|]; [apply ot_pure, ot_mix|apply ot_ok].
  Qed.
  Lemma ot_cores_HeMS d p : only_type (mix_cores_HeMS fadd fsub fmul fdiv d p).
  Proof using Type.
    unfold mix_cores_HeMS. cbv zeta. destruct (_ && _); [apply ot_pure, ot_mix|]. apply ot_bind; [|intros; apply ot_ok]. destruct d; apply ot_and; try apply ot_gt; apply ot_ok.
  Qed.
  Lemma ot_cores_WD p : only_type (mix_cores_WD fadd fsub fmul fdiv p).
  Proof using Type.
    unfold mix_cores_WD. cbv zeta. destruct (attr (comp p) _); [|apply ot_ok]. destruct (is0 _); [apply ot_pure, ot_copy|]. apply ot_bind; [apply ot_gt|]. intros [|]; [apply ot_pure, ot_mix|apply ot_ok].
  Qed.
  Lemma ot_state s : only_type (check_state fsub round10 rel s).
  Proof using Type.
    unfold check_state. apply ot_bind; [|intros; apply ot_ok]. unfold infer_star_state. destruct (isna _); [apply ot_ok|].
    assert (R : forall a, only_type (p_round10 round10 a)) by (intros [a|] e; cbn; congruence).
    assert (B : forall a b, only_type (burning_of fsub rel a b)).
    { intros a b. apply ot_and; [apply ot_gt|]. apply ot_bind; [|intros; apply ot_gt]. intros e. unfold p_sub. destruct a, b; congruence. }
    apply ot_bind; [unfold rich_in; apply ot_bind; [apply ot_gt|]; intros [|]; [apply ot_ok|]; apply ot_bind; [apply R|]; intros; apply ot_bind; [apply R|]; intros; apply ot_bind; [apply ot_lt|]; intros; apply ot_ok|].
    intros rich. apply ot_bind; [apply B|]. intros. apply ot_bind; [apply B|]. intros. do 3 (apply ot_bind; [apply ot_gt|]; intros). apply ot_ok.
  Qed.
  Lemma ot_finish d p : only_type (finish fsub round10 rel critical_rot d p).
  Proof using Type. unfold finish. cbv zeta. apply ot_bind; [apply ot_state|]. intros; apply ot_ok. Qed.
  Lemma ot_branch k B C : only_type (branch fadd fsub fmul fdiv round10 rel critical_rot kept_mass k B C).
  Proof using Type.
    assert (PM : forall d w1 w2 p, only_type (post_and_MS fadd fsub fmul fdiv round10 rel critical_rot d w1 w2 p)).
    { intros. unfold post_and_MS. apply ot_bind; [apply ot_mix|]. intros. apply ot_bind; [apply ot_op|]. intros. cbv zeta. apply ot_bind; [apply ot_state|]. intros; apply ot_ok. }
    destruct k; cbn [branch].
    - apply ot_bind; [apply ot_mix|]. intros. apply ot_bind; [apply ot_op|]. intros. apply ot_ok.
    - apply PM.
    - apply PM.
    - apply ot_bind; [apply ot_cores|]. intros. apply ot_bind; [apply ot_mix|]. intros. apply ot_bind; [apply ot_add|]. intros; apply ot_finish.
    - apply ot_bind; [apply ot_cores_HeMS|]. intros. apply ot_bind; [apply ot_add|]. intros; apply ot_finish.
    - apply ot_bind; [apply ot_cores_HeMS|]. intros. apply ot_bind; [apply ot_add|]. intros; apply ot_finish.
    - apply ot_bind; [apply ot_cores|]. intros. apply ot_bind; [apply ot_add|]. intros; apply ot_finish.
    - apply ot_bind; [apply ot_cores|]. intros. apply ot_bind; [apply ot_add|]. intros; apply ot_finish.
    - apply ot_bind; [apply ot_cores|]. intros. apply ot_bind; [apply ot_add|]. intros. apply ot_bind; [apply ot_mix|]. intros; apply ot_finish.
    - apply ot_bind; [apply ot_cores_WD|]. intros. apply ot_bind; [apply ot_each; intros; apply ot_op|]. intros; apply ot_finish.
    - apply ot_ok.
  Qed.

  (** ** Stars whose attributes are all numbers *)
  Definition measured (s : star) : Prop := forall n, In n ALL -> attr s n <> None.
  Definition both (p : pair) : Prop := measured (base p) /\ measured (comp p).
  Lemma both_the d p : both p -> measured (the d p).
  Proof using Type. intros [A B]. destruct d; assumption. Qed.
  Lemma both_upd d f p : both p -> measured (f (the d p)) -> both (upd d f p).
  Proof using Type. intros [A B] M. destruct d; split; assumption. Qed.
  Lemma measured_set s k v : measured s -> v <> None -> measured (setattr s k v).
  Proof using Type. intros M V n I. rewrite attr_set. destruct (String.eqb n k); [exact V|apply M, I]. Qed.
  Definition good (x : result pair) : Prop := exists p, x = Ok p /\ both p.
  Lemma each_good d f names : (forall p k, both p -> In k names -> exists v, f p k = Ok (Some v)) -> forall p, both p -> good (for_each d f names p).
  Proof using Type.
    induction names as [|k names IH]; intros F p Bp; cbn [for_each]; [exists p; split; [reflexivity|exact Bp]|].
    destruct (F p k Bp (or_introl eq_refl)) as [v V]. rewrite V. cbn [rbind]. apply IH; [intros q k' Bq I; apply F; [exact Bq|right; exact I]|].
    apply both_upd; [exact Bp|]. apply measured_set; [apply both_the, Bp|discriminate].
  Qed.
  Lemma op_good f a b : a <> None -> b <> None -> exists v, p_op f a b = Ok (Some v).
  Proof using Type. intros A B. destruct a as [a|]; [|congruence]. destruct b as [b|]; [|congruence]. eexists. reflexivity. Qed.
  Lemma all_in n : mem n ALL = true -> In n ALL.
  Proof using Type. apply mem_iff. Qed.
  Lemma mix_good d names w1 w2 p : both p -> good (mix fadd fsub fmul fdiv d names w1 w2 p).
  Proof using Type.
    apply each_good. intros q k [A B] _. unfold mass_weighted_avg.
    assert (W : forall s w, measured s -> exists v, weight fsub s w = Ok v).
    { intros s w M. unfold weight. destruct (String.eqb w _); [|destruct (String.eqb w _)]; [| |eexists; reflexivity].
      - destruct (op_good fsub (attr s "mass") (attr s "he_core_mass")) as [v V]; [apply M, all_in; reflexivity|apply M, all_in; reflexivity|]. rewrite V. eexists. reflexivity.
      - destruct (op_good fsub (attr s "he_core_mass") (attr s "co_core_mass")) as [v V]; [apply M, all_in; reflexivity|apply M, all_in; reflexivity|]. rewrite V. eexists. reflexivity. }
    destruct (W (base q) w1 A) as [v1 V1]. destruct (W (comp q) w2 B) as [v2 V2]. rewrite V1, V2. cbn [rbind]. cbv zeta. eexists. reflexivity.
  Qed.
  Lemma gamma_good d x : good x -> good (r_pure (gamma_nan d) x).
  Proof using Type. intros (p & -> & Bp). exists (gamma_nan d p). split; [reflexivity|]. apply both_upd; [exact Bp|]. apply measured_set; [apply both_the, Bp|discriminate]. Qed.
  Lemma copy_good s d p : both p -> good (r_pure (gamma_from s d) (copy_from s d CENTERS_C p)).
  Proof using Type.
    intros Bp. destruct (each_good d (fun p k => Ok (attr (the s p) k)) CENTERS_C) with (p := p) as (q & Q & Bq); [|exact Bp|].
    - intros r k Br I. assert (N : attr (the s r) k <> None). { apply (both_the s r Br). revert I. apply incl_b. reflexivity. } destruct (attr (the s r) k) as [v|]; [|congruence]. exists v. reflexivity.
    - exists (gamma_from s d q). split; [unfold copy_from; rewrite Q; reflexivity|]. apply both_upd; [exact Bq|]. apply measured_set; [apply both_the, Bq|]. apply (both_the s q Bq), all_in. reflexivity.
  Qed.
  Lemma gt0_good a : a <> None -> exists g, gt0 a = Ok g.
  Proof using Type. destruct a as [v|]; [|congruence]. intros _. unfold gt0, p_gt, p_lt. eexists. reflexivity. Qed.
  Lemma cores_good d p : both p -> good (mix_cores fadd fsub fmul fdiv d p).
  Proof using Type.
    intros Bp. unfold mix_cores. cbv zeta. destruct (gt0_good (attr (base p) "co_core_mass")) as [g1 G1]; [apply Bp, all_in; reflexivity|].
    destruct (gt0_good (attr (comp p) "co_core_mass")) as [g2 G2]; [apply Bp, all_in; reflexivity|]. rewrite G1, G2.
    set (z1 := is0 (attr (base p) _)). set (z2 := is0 (attr (comp p) _)). clearbody z1 z2.
    destruct z1, z2; cbn [andb]; destruct g1, g2; cbn [r_and rbind]; destruct d;
      match goal with |- good (Ok _) => exists p; split; [reflexivity|exact Bp] | |- good (r_pure (gamma_nan _) _) => apply gamma_good, mix_good, Bp | |- _ => apply copy_good, Bp end.
  Qed.
  Lemma cores_HeMS_good d p : both p -> good (mix_cores_HeMS fadd fsub fmul fdiv d p).
  Proof using Type.
    intros Bp. unfold mix_cores_HeMS. cbv zeta. destruct (gt0_good (attr (base p) "co_core_mass")) as [g1 G1]; [apply Bp, all_in; reflexivity|].
    destruct (gt0_good (attr (comp p) "co_core_mass")) as [g2 G2]; [apply Bp, all_in; reflexivity|]. rewrite G1, G2.
    set (z1 := is0 (attr (base p) _)). set (z2 := is0 (attr (comp p) _)). clearbody z1 z2.
    destruct (z1 && z2); [apply gamma_good, mix_good, Bp|]. exists p. split; [|exact Bp]. destruct d, g1, z1; reflexivity.
  Qed.
  Lemma cores_WD_good p : both p -> good (mix_cores_WD fadd fsub fmul fdiv p).
  Proof using Type.
    intros Bp. unfold mix_cores_WD. cbv zeta. destruct (gt0_good (attr (base p) "co_core_mass")) as [g1 G1]; [apply Bp, all_in; reflexivity|]. rewrite G1.
    destruct (attr (comp p) "co_core_mass"); [|exists p; split; [reflexivity|exact Bp]]. destruct (is0 _); [apply copy_good, Bp|]. destruct g1; cbn [rbind]; [apply gamma_good, mix_good, Bp|exists p; split; [reflexivity|exact Bp]].
  Qed.
  Lemma add_good d p : both p -> good (add_masses fadd d p).
  Proof using Type.
    apply each_good. intros q k [A B] I. assert (J : In k ALL) by (revert I; apply incl_b; reflexivity). apply op_good; [apply A|apply B]; exact J.
  Qed.
  Lemma state_good s : measured s -> exists s', check_state fsub round10 rel s = Ok s'.
  Proof using Type.
    intros M. assert (V : forall n, mem n ALL = true -> exists v, attr s n = Some v).
    { intros n I. specialize (M n (all_in n I)). destruct (attr s n) as [v|]; [exists v; reflexivity|congruence]. }
    unfold check_state. destruct (V "surface_h1" eq_refl) as [a A], (V "center_h1" eq_refl) as [b B], (V "center_he4" eq_refl) as [c C], (V "center_c12" eq_refl) as [e E],
      (V "log_LH" eq_refl) as [f F], (V "log_LHe" eq_refl) as [g G], (V "log_Lnuc" eq_refl) as [h H]. rewrite A, B, C, E, F, G, H.
    assert (K : exists st, infer_star_state fsub round10 rel (attr s "mass") (Some a) (Some b) (Some c) (Some e) (Some f) (Some g) (Some h) false = Ok st).
    { unfold infer_star_state. destruct (isna _); [eexists; reflexivity|]. unfold rich_in, burning_of, in_core, p_gt, p_lt, p_sub, p_round10. cbn [rbind r_and].
      destruct (nlt THRESHOLD_HE_NAKED_ABUNDANCE a); cbn [rbind]; destruct (nlt LOG10_BURNING_THRESHOLD f), (nlt LOG10_BURNING_THRESHOLD g); cbn [rbind r_and]; eexists; reflexivity. }
    destruct K as [st K]. rewrite K. eexists. reflexivity.
  Qed.
  Lemma nan_measured s extra : measured s -> measured (apply_nan_attributes s extra).
  Proof using Type. intros M n I. rewrite nan_spec. destruct (mem n (filter _ _)); [discriminate|apply M, I]. Qed.
  Lemma finish_good d p : both p -> exists mr, finish fsub round10 rel critical_rot d p = Ok mr.
  Proof using Type.
    intros Bp. unfold finish. cbv zeta. rewrite the_upd. destruct (state_good (apply_nan_attributes (the d p) [])) as [s S]; [apply nan_measured, both_the, Bp|].
    rewrite S. eexists. reflexivity.
  Qed.
  Lemma good_bind {A} x (f : pair -> result A) : good x -> (forall p, both p -> exists a, f p = Ok a) -> exists a, rbind x f = Ok a.
  Proof using Type. intros (p & -> & Bp) F. apply F, Bp. Qed.
  Lemma branch_good k B C : both (Pair B C) -> exists mr, branch fadd fsub fmul fdiv round10 rel critical_rot kept_mass k B C = Ok mr.
  Proof using Type.
    intros Bp.
    assert (PM : forall d w1 w2 p, both p -> exists mr, post_and_MS fadd fsub fmul fdiv round10 rel critical_rot d w1 w2 p = Ok mr).
    { intros d w1 w2 p Bq. unfold post_and_MS. apply good_bind; [apply mix_good, Bq|]. intros q [A0 B0].
      destruct (op_good fadd (attr (base q) "mass") (attr (comp q) "mass")) as [v V]; [apply A0, all_in; reflexivity|apply B0, all_in; reflexivity|]. rewrite V.
      cbv beta iota zeta delta [rbind]. rewrite !the_upd.
      match goal with |- context [check_state _ _ _ ?s] => destruct (state_good s) as [s' S]; [|rewrite S; eexists; reflexivity] end.
      assert (M1 : measured (apply_nan_attributes (setattr (the d q) "mass" (Some v)) [])) by (apply nan_measured, measured_set; [apply both_the; split; assumption|discriminate]).
      apply measured_set; [apply measured_set; [exact M1|apply M1, all_in; reflexivity]|]. rewrite attr_set. cbn [String.eqb Ascii.eqb Bool.eqb]. apply M1, all_in. reflexivity. }
    destruct k; cbn [branch].
    - apply good_bind; [apply mix_good, Bp|]. intros q [A0 B0].
      destruct (op_good fadd (attr (base q) "mass") (attr (comp q) "mass")) as [v V]; [apply A0, all_in; reflexivity|apply B0, all_in; reflexivity|]. rewrite V. cbn [rbind]. eexists. reflexivity.
    - apply PM, Bp.
    - apply PM, Bp.
    - apply good_bind; [apply cores_good, Bp|]. intros p1 B1. apply good_bind; [apply mix_good, B1|]. intros p2 B2. apply good_bind; [apply add_good, B2|]. intros p3 B3. apply finish_good, B3.
    - apply good_bind; [apply cores_HeMS_good, Bp|]. intros p1 B1. apply good_bind; [apply add_good, B1|]. intros p3 B3. apply finish_good, B3.
    - apply good_bind; [apply cores_HeMS_good, Bp|]. intros p1 B1. apply good_bind; [apply add_good, B1|]. intros p3 B3. apply finish_good, B3.
    - apply good_bind; [apply cores_good, Bp|]. intros p1 B1. apply good_bind; [apply add_good, B1|]. intros p3 B3. apply finish_good, B3.
    - apply good_bind; [apply cores_good, Bp|]. intros p1 B1. apply good_bind; [apply add_good, B1|]. intros p3 B3. apply finish_good, B3.
    - apply good_bind; [apply cores_good, Bp|]. intros p1 B1. apply good_bind; [apply add_good, B1|]. intros p2 B2. apply good_bind; [apply mix_good, B2|]. intros p3 B3. apply finish_good, B3.
    - apply good_bind; [apply cores_WD_good, Bp|]. intros p1 B1. apply good_bind; [apply each_good; [|exact B1]|intros p3 B3; apply finish_good, B3].
      intros q k [A0 B0] I. assert (J : In k ALL) by (revert I; apply incl_b; reflexivity). apply op_good; [apply A0, J|apply B0, all_in; reflexivity].
    - eexists. reflexivity.
  Qed.
End Refused.

(** ** C71 *)
Theorem C71_kind_unique : forall s t k k', kind_of s t k -> kind_of s t k' -> k = k'.
Proof. intros s t k k' A B. apply kind_sel in A, B. congruence. Qed.
Print Assumptions C71_kind_unique.
Theorem C71_refused : forall fadd fsub fmul fdiv round10 rel critical_rot kept_mass B C,
  merged_star_properties fadd fsub fmul fdiv round10 rel critical_rot kept_mass B C = Raise ModelError <-> forall k, ~ kind_of (sstate B) (sstate C) k.
Proof.
  intros. rewrite dispatch. split.
  - intros H k K. apply kind_sel in K. rewrite K in H. apply ot_branch in H. discriminate.
  - intros N. destruct (sel (sstate B) (sstate C)) as [k|] eqn:S; [|reflexivity]. apply sel_kind in S. exfalso. exact (N k S).
Qed.
Print Assumptions C71_refused.
Theorem C71_merged : forall fadd fsub fmul fdiv round10 rel critical_rot kept_mass B C k m r,
  kind_of (sstate B) (sstate C) k -> k <> StarCompact ->
  merged_star_properties fadd fsub fmul fdiv round10 rel critical_rot kept_mass B C = Ok (m, r) ->
  remnant_of (swallowed k B C) r /\ masses fadd fmul kept_mass k B C m /\ surfaces fadd fsub fmul fdiv k B C m /\ centers fadd fmul fdiv k B C m /\ rest critical_rot k B C m.
Proof. intros until r. intros K N H. rewrite dispatch, (kind_sel _ _ _ K) in H. apply outcome_spec in H as [O _]; [exact O|exact N]. Qed.
Print Assumptions C71_merged.
Theorem C71_state : forall fadd fsub fmul fdiv round10 rel critical_rot kept_mass B C k m r,
  kind_of (sstate B) (sstate C) k -> k <> StarCompact ->
  merged_star_properties fadd fsub fmul fdiv round10 rel critical_rot kept_mass B C = Ok (m, r) ->
  (k = MainMain -> sstate m = "H-rich_Core_H_burning") /\ (k <> MainMain -> inferred fsub round10 rel m /\ In (sstate m) QUIET).
Proof.
  intros until r. intros K N H. rewrite dispatch, (kind_sel _ _ _ K) in H. apply outcome_spec in H as [_ S]; [|exact N]. split.
  - intros ->. cbn in S. rewrite S. inversion K as [s t [E|[]] J| | | | | | | | | |]. symmetry. exact E.
  - intros NM. destruct k; try exact S. congruence.
Qed.
Print Assumptions C71_state.
Theorem C71_compact : forall fadd fsub fmul fdiv round10 rel critical_rot kept_mass B C, kind_of (sstate B) (sstate C) StarCompact ->
  exists m, merged_star_properties fadd fsub fmul fdiv round10 rel critical_rot kept_mass B C = Ok (m, C) /\ remnant_of B m.
Proof. intros until C. intros K. exists (convert_star_to_massless_remnant B). rewrite dispatch, (kind_sel _ _ _ K). split; [reflexivity|apply remnant_spec]. Qed.
Print Assumptions C71_compact.
Theorem C71_defined : forall fadd fsub fmul fdiv round10 rel critical_rot kept_mass B C k, kind_of (sstate B) (sstate C) k ->
  (forall n, In n (MASS ++ CENTER ++ SURFACE ++ SPIN :: ERASED ++ OTHERS ++ [ "avg_c_in_c_core"; "center_gamma" ]) -> attr B n <> None /\ attr C n <> None) ->
  exists m r, merged_star_properties fadd fsub fmul fdiv round10 rel critical_rot kept_mass B C = Ok (m, r).
Proof.
  intros until k. intros K H. rewrite dispatch, (kind_sel _ _ _ K).
  destruct (branch_good fadd fsub fmul fdiv round10 rel critical_rot kept_mass k B C) as [[m r] E]; [split; intros n I; apply H, I|]. exists m, r. exact E.
Qed.
Print Assumptions C71_defined.
(** With exact arithmetic a mixed abundance lies between the two. *)
Definition exact_ops (fadd fmul fdiv : num -> num -> num) : Prop :=
  (forall a b, fadd (Fin a) (Fin b) = Fin (a + b)) /\ (forall a b, fmul (Fin a) (Fin b) = Fin (a * b)) /\ (forall a b, ~ (b == 0)%Q -> fdiv (Fin a) (Fin b) = Fin (a / b)).
Definition between (a b q : Q) : Prop := (a <= q <= b \/ b <= q <= a)%Q.
Lemma averaged_between fadd fmul fdiv B C wB wC n v a b x y : exact_ops fadd fmul fdiv -> averaged fadd fmul fdiv B C wB wC n v ->
  attr B n = Some (Fin a) -> attr C n = Some (Fin b) -> wB = Some (Fin x) -> wC = Some (Fin y) -> (0 <= x)%Q -> (0 <= y)%Q -> (0 < x + y)%Q ->
  exists q, v = Some (Fin q) /\ between a b q.
Proof.
  intros (EA & EM & ED) A Ba Cb Wx Wy X Y P. assert (NZ : ~ (x + y == 0)%Q) by lra. destruct A as [(a' & b' & x' & y' & (A1 & A2 & A3 & A4 & _) & V)|[N _]].
  - assert (a' = a) by congruence. assert (b' = b) by congruence. assert (x' = x) by congruence. assert (y' = y) by congruence. subst a' b' x' y'.
    rewrite !EA, !EM, EA, ED in V by exact NZ. exists ((a * x + b * y) / (x + y))%Q. split; [congruence|].
    assert (G : forall c d, (c <= d)%Q -> forall z w, (0 <= z)%Q -> (0 <= w)%Q -> (0 < z + w)%Q -> (c <= (c * z + d * w) / (z + w) <= d)%Q).
    { intros c d L z w Z W S. split; [apply Qle_shift_div_l; [exact S|]|apply Qle_shift_div_r; [exact S|]]; nra. }
    destruct (Qlt_le_dec a b) as [L|L]; [left; apply G; lra|right].
    assert (E : ((a * x + b * y) / (x + y) == (b * y + a * x) / (y + x))%Q) by (field; lra). rewrite E. apply G; lra.
  - exfalso. apply N. exists a, b, x, y. unfold weighable. rewrite EA. split; [exact Ba|]. split; [exact Cb|]. split; [exact Wx|]. split; [exact Wy|].
    intros (q & E & Z). injection E as <-. contradiction.
Qed.
Theorem C71_between : forall fadd fsub fmul fdiv round10 rel critical_rot kept_mass B C m r n a b x y, exact_ops fadd fmul fdiv ->
  kind_of (sstate B) (sstate C) MainMain -> merged_star_properties fadd fsub fmul fdiv round10 rel critical_rot kept_mass B C = Ok (m, r) ->
  In n (CENTER ++ SURFACE) -> attr B n = Some (Fin a) -> attr C n = Some (Fin b) -> attr B "mass" = Some (Fin x) -> attr C "mass" = Some (Fin y) ->
  (0 < x)%Q -> (0 < y)%Q -> exists q, attr m n = Some (Fin q) /\ between a b q.
Proof.
  intros until y. intros EX K H I A B' X Y PX PY. destruct (C71_merged _ _ _ _ _ _ _ _ _ _ _ _ _ K ltac:(discriminate) H) as (_ & _ & SU & [CE _] & _).
  assert (V : averaged fadd fmul fdiv B C (attr B "mass") (attr C "mass") n (attr m n)) by (apply in_app_or in I as [I|I]; [apply CE, I|apply SU, I]).
  eapply averaged_between; [exact EX|exact V|exact A|exact B'|exact X|exact Y|lra|lra|lra].
Qed.
Print Assumptions C71_between.

(** ** The step *)
Definition HELIUM := [ "stripped_He_Core_He_burning"; "accreted_He_Core_He_burning"; "stripped_He_Core_He_depleted"; "stripped_He_Core_C_depleted";
  "stripped_He_non_burning"; "H-rich_non_burning"; "accreted_He_non_burning" ].
(** Which star is the base of the merger: [true] for the first. *)
Inductive leads : string -> string -> string -> string -> bool -> Prop :=
| l_1 s t : leads "merged" "oMerging1" s t true
| l_2 s t : leads "merged" "oMerging2" s t false
| l_3 st s t : st <> "merged" -> In s HELIUM -> In t HELIUM -> leads st "oRLO1" s t true
| l_4 st s t : st <> "merged" -> In s HELIUM -> In t HELIUM -> leads st "oRLO2" s t false.
Lemma helium s : mem s HE_RICH = true <-> In s HELIUM.
Proof. rewrite mem_iff. split; apply incl_b; vm_compute; reflexivity. Qed.
Section Step.
  Context (fadd fsub fmul fdiv : num -> num -> num) (round10 : num -> num) (rel : num) (critical_rot kept_mass : num).
  Notation msp := (merged_star_properties fadd fsub fmul fdiv round10 rel critical_rot kept_mass).
  Notation merge := (merge_stars fadd fsub fmul fdiv round10 rel critical_rot kept_mass).
  Definition lead (b : binary) : option bool :=
    if String.eqb (bstate b) "merged" then if is_event b "oMerging1" then Some true else if is_event b "oMerging2" then Some false else None
    else if mem (sstate (star_1 b)) HE_RICH && mem (sstate (star_2 b)) HE_RICH then if is_event b "oRLO1" then Some true else if is_event b "oRLO2" then Some false else None
    else None.
  Definition moved (b : binary) (d : bool) (mr : star * star) : binary :=
    Binary "merged" (bevent b) (if d then fst mr else snd mr) (if d then snd mr else fst mr) (orbital_period b) (eccentricity b) (separation b).
  Lemma merge_lead b : merge b = match lead b with
    | Some d => rbind (msp (if d then star_1 b else star_2 b) (if d then star_2 b else star_1 b)) (fun mr => Ok (moved b d mr)) | None => Raise ValueError end.
  Proof using Type.
    unfold merge_stars, lead, moved, with_stars. destruct (String.eqb_spec (bstate b) "merged") as [E|E].
    - rewrite E. destruct (is_event b "oMerging1"); [reflexivity|]. destruct (is_event b "oMerging2"); reflexivity.
    - destruct (_ && _); [|reflexivity]. unfold is_event. cbn [bevent bstate star_1 star_2 orbital_period eccentricity separation].
      destruct (match bevent b with Some x => String.eqb x "oRLO1" | None => false end); [reflexivity|]. destruct (match bevent b with Some x => String.eqb x "oRLO2" | None => false end); reflexivity.
  Qed.
  Lemma lead_iff b d : lead b = Some d <-> exists e, bevent b = Some e /\ leads (bstate b) e (sstate (star_1 b)) (sstate (star_2 b)) d.
  Proof using Type.
    unfold lead, is_event. split.
    - destruct (String.eqb_spec (bstate b) "merged") as [E|E].
      + destruct (bevent b) as [e|]; [|discriminate]. rewrite E. destruct (String.eqb_spec e "oMerging1") as [-> |_]; [intros H; injection H as <-; exists "oMerging1"; split; [reflexivity|constructor]|].
        destruct (String.eqb_spec e "oMerging2") as [-> |_]; [intros H; injection H as <-; exists "oMerging2"; split; [reflexivity|constructor]|discriminate].
      + destruct (mem _ HE_RICH && mem _ HE_RICH) eqn:M; [|discriminate]. apply andb_true_iff in M as [M1 M2]. apply helium in M1, M2.
        destruct (bevent b) as [e|]; [|discriminate]. destruct (String.eqb_spec e "oRLO1") as [-> |_]; [intros H; injection H as <-; exists "oRLO1"; split; [reflexivity|constructor; assumption]|].
        destruct (String.eqb_spec e "oRLO2") as [-> |_]; [intros H; injection H as <-; exists "oRLO2"; split; [reflexivity|constructor; assumption]|discriminate].
    - intros (e & E & L). rewrite E. inversion L as [s t H1 H2 H3 H4 H5|s t H1 H2 H3 H4 H5|st s t N A B H1 H2 H3 H4 H5|st s t N A B H1 H2 H3 H4 H5]; clear L.
      + rewrite String.eqb_refl. reflexivity.
      + rewrite String.eqb_refl. reflexivity.
      + apply String.eqb_neq in N. rewrite N. apply helium in A, B. rewrite A, B. reflexivity.
      + apply String.eqb_neq in N. rewrite N. apply helium in A, B. rewrite A, B. reflexivity.
  Qed.
End Step.
Theorem C71_step : forall fadd fsub fmul fdiv round10 rel critical_rot kept_mass b b',
  merge_stars fadd fsub fmul fdiv round10 rel critical_rot kept_mass b = Ok b' <->
  exists e d m r, bevent b = Some e /\ leads (bstate b) e (sstate (star_1 b)) (sstate (star_2 b)) d /\
    merged_star_properties fadd fsub fmul fdiv round10 rel critical_rot kept_mass (if d then star_1 b else star_2 b) (if d then star_2 b else star_1 b) = Ok (m, r) /\
    b' = Binary "merged" (bevent b) (if d then m else r) (if d then r else m) (orbital_period b) (eccentricity b) (separation b).
Proof.
  intros. rewrite merge_lead. split.
  - destruct (lead b) as [d|] eqn:L; [|discriminate]. intros H. apply rbind_ok in H as ([m r] & M & H). apply lead_iff in L as (e & E & L). exists e, d, m, r.
    split; [exact E|]. split; [exact L|]. split; [exact M|]. unfold moved in H. cbn [fst snd] in H. congruence.
  - intros (e & d & m & r & E & L & M & ->). assert (K : lead b = Some d) by (apply lead_iff; exists e; split; assumption). rewrite K, M. reflexivity.
Qed.
Print Assumptions C71_step.
Theorem C71_step_refused : forall fadd fsub fmul fdiv round10 rel critical_rot kept_mass b,
  merge_stars fadd fsub fmul fdiv round10 rel critical_rot kept_mass b = Raise ValueError <->
  ~ exists e d, bevent b = Some e /\ leads (bstate b) e (sstate (star_1 b)) (sstate (star_2 b)) d.
Proof.
  intros. rewrite merge_lead. split.
  - intros H (e & d & E & L). assert (K : lead b = Some d) by (apply lead_iff; exists e; split; assumption). rewrite K in H.
    destruct (merged_star_properties _ _ _ _ _ _ _ _ _ _) as [mr|x] eqn:M; [discriminate|]. cbn [rbind] in H. assert (x = ValueError) by congruence. subst x. rewrite dispatch in M.
    destruct (sel _ _); [|discriminate]. apply ot_branch in M. discriminate.
  - intros N. destruct (lead b) as [d|] eqn:L; [|reflexivity]. apply lead_iff in L as (e & E & L). exfalso. apply N. exists e, d. split; assumption.
Qed.
Print Assumptions C71_step_refused.
(** It does not matter which star is called the first. *)
Definition other_event (e : string) : string :=
  if String.eqb e "oMerging1" then "oMerging2" else if String.eqb e "oMerging2" then "oMerging1" else if String.eqb e "oRLO1" then "oRLO2" else if String.eqb e "oRLO2" then "oRLO1" else e.
Definition exchange (b : binary) : binary :=
  Binary (bstate b) (option_map other_event (bevent b)) (star_2 b) (star_1 b) (orbital_period b) (eccentricity b) (separation b).
Lemma leads_exchange st e s t d : leads st e s t d -> leads st (other_event e) t s (negb d).
Proof. destruct 1; constructor; assumption. Qed.
Theorem C71_exchange : forall fadd fsub fmul fdiv round10 rel critical_rot kept_mass b b',
  merge_stars fadd fsub fmul fdiv round10 rel critical_rot kept_mass b = Ok b' ->
  merge_stars fadd fsub fmul fdiv round10 rel critical_rot kept_mass (exchange b) = Ok (exchange b').
Proof.
  intros until b'. rewrite !C71_step. intros (e & d & m & r & E & L & M & ->). exists (other_event e), (negb d), m, r. unfold exchange. cbn [bstate bevent star_1 star_2 orbital_period eccentricity separation].
  rewrite E. split; [reflexivity|]. split; [apply leads_exchange, L|]. split; destruct d; solve [exact M|reflexivity].
Qed.
Print Assumptions C71_exchange.
(** Exactly one of the two stars is a massless remnant afterwards. *)
Theorem C71_one_left : forall fadd fsub fmul fdiv round10 rel critical_rot kept_mass b b',
  merge_stars fadd fsub fmul fdiv round10 rel critical_rot kept_mass b = Ok b' ->
  bstate b' = "merged" /\ exists gone left_, (gone = star_1 b' /\ left_ = star_2 b' \/ gone = star_2 b' /\ left_ = star_1 b') /\
    sstate gone = "massless_remnant" /\ attr gone "mass" = Some (Fin 0) /\ sstate left_ <> "massless_remnant".
Proof.
  intros until b'. rewrite C71_step. intros (e & d & m & r & E & L & M & ->). split; [reflexivity|]. cbn [star_1 star_2].
  set (B := if d then star_1 b else star_2 b) in *. set (C := if d then star_2 b else star_1 b) in *.
  assert (G : (sstate r = "massless_remnant" /\ attr r "mass" = Some (Fin 0) /\ sstate m <> "massless_remnant") \/ (sstate m = "massless_remnant" /\ attr m "mass" = Some (Fin 0) /\ sstate r <> "massless_remnant")).
  { destruct (sel (sstate B) (sstate C)) as [k|] eqn:S; [|rewrite dispatch, S in M; discriminate]. apply sel_kind in S. destruct (kind_eq k StarCompact) as [-> |N].
    - right. destruct (C71_compact fadd fsub fmul fdiv round10 rel critical_rot kept_mass B C S) as (m' & M' & R1 & R2 & _). rewrite M in M'. destruct (ok_pair _ _ _ _ M') as [E1 E2]. subst.
      split; [exact R1|]. split; [exact R2|]. inversion S as [| | | | | | | | | |s t I J]. cbn in J. intros X. rewrite X in J. intuition discriminate.
    - left. destruct (C71_merged _ _ _ _ _ _ _ _ _ _ _ _ _ S N M) as ((R1 & R2 & _) & _). split; [exact R1|]. split; [exact R2|].
      destruct (C71_state _ _ _ _ _ _ _ _ _ _ _ _ _ S N M) as [S1 S2]. destruct (kind_eq k MainMain) as [K|K]; [rewrite (S1 K); discriminate|]. destruct (S2 K) as [_ Q]. intros X. rewrite X in Q. revert Q. apply mem_not. reflexivity. }
  destruct G as [(G1 & G2 & G3)|(G1 & G2 & G3)]; destruct d.
  - exists r, m. auto.
  - exists r, m. auto.
  - exists m, r. auto.
  - exists m, r. auto.
Qed.
Print Assumptions C71_one_left.

(** ** C72: isolated stars *)
Section Isolated.
  Context (separation_of : num -> pnum -> pnum -> result pnum) (detached : binary -> result binary).
  Definition SINGLE := [ "initially_single_star"; "merged"; "disrupted" ].
  Lemma single_iff b : String.eqb b "initially_single_star" || String.eqb b "merged" || String.eqb b "disrupted" = true <-> In b SINGLE.
  Proof using Type. rewrite !orb_true_iff, !String.eqb_eq. cbn. intuition congruence. Qed.
  Definition far (b : binary) (a : pnum) : binary := Binary (bstate b) (bevent b) (star_1 b) (star_2 b) (Some (Fin (inject_Z (10 ^ 99)))) (Some (Fin 0)) a.
  Definition unbound (b : binary) : Prop := orbital_period b = Some NaN /\ eccentricity b = Some NaN /\ separation b = Some NaN.
  (** The orbit is set aside while the detached step runs; apart from the orbit the result is the result of that step. *)
  Theorem C72_isolated : forall b b', isolated_step separation_of detached b = Ok b' <->
    exists a d, separation_of (Fin (inject_Z (10 ^ 99))) (attr (star_1 b) "mass") (attr (star_2 b) "mass") = Ok a /\ In (bstate b) SINGLE /\ detached (far b a) = Ok d /\
      bstate b' = bstate d /\ bevent b' = bevent d /\ star_1 b' = star_1 d /\ star_2 b' = star_2 d /\ unbound b'.
  Proof using Type.
    intros b b'. unfold isolated_step, far. generalize (inject_Z (10 ^ 99)). intros W. split.
    - intros H. apply rbind_ok in H as (a & A & H). cbv zeta in H. unfold with_orbit at 1 2 3 in H. cbn [bstate] in H.
      destruct (_ || _) eqn:S; [|discriminate]. apply single_iff in S. apply rbind_ok in H as (d & D & H). exists a, d. split; [exact A|]. split; [exact S|]. split; [exact D|].
      assert (b' = with_orbit d (Some NaN) (Some NaN) (Some NaN)) by congruence. subst b'. repeat split.
    - intros (a & d & A & S & D & E1 & E2 & E3 & E4 & E5 & E6 & E7). rewrite A. cbn [rbind]. cbv zeta. unfold with_orbit at 1 2 3. cbn [bstate].
      apply single_iff in S. rewrite S. unfold with_orbit at 1. rewrite D. cbn [rbind]. unfold with_orbit. destruct b'. cbn in *. subst. reflexivity.
  Qed.
  Theorem C72_refused : forall b a, separation_of (Fin (inject_Z (10 ^ 99))) (attr (star_1 b) "mass") (attr (star_2 b) "mass") = Ok a -> ~ In (bstate b) SINGLE ->
    isolated_step separation_of detached b = Raise FlowError.
  Proof using Type.
    intros b a. unfold isolated_step. generalize (inject_Z (10 ^ 99)). intros W A S. rewrite A. cbn [rbind]. cbv zeta. cbn [bstate with_orbit]. rewrite <- single_iff in S. apply not_true_is_false in S. rewrite S. reflexivity.
  Qed.
  Theorem C72_single : forall b b', initially_single_step separation_of detached b = Ok b' <-> bstate b = "initially_single_star" /\ isolated_step separation_of detached b = Ok b'.
  Proof using Type.
    intros b b'. unfold initially_single_step. destruct (String.eqb_spec (bstate b) "initially_single_star") as [E|E]; cbn [negb]; [tauto|]. split; [discriminate|]. intros [X _]. contradiction.
  Qed.
  Theorem C72_end : forall update b b', end_step update b = Ok b' ->
    bevent b' = Some "END" /\ exists u, (bstate b = "disrupted" -> update b = Ok u) /\ (bstate b <> "disrupted" -> u = b) /\
      bstate b' = bstate u /\ star_1 b' = star_1 u /\ star_2 b' = star_2 u /\ orbital_period b' = orbital_period u /\ eccentricity b' = eccentricity u /\ separation b' = separation u.
  Proof using Type.
    intros update b b' H. unfold end_step in H. apply rbind_ok in H as (u & U & H). assert (E : b' = Binary (bstate u) (Some "END") (star_1 u) (star_2 u) (orbital_period u) (eccentricity u) (separation u)) by congruence.
    subst b'. split; [reflexivity|]. exists u. destruct (String.eqb_spec (bstate b) "disrupted") as [D|D]; repeat split; intros; congruence.
  Qed.
End Isolated.
Print Assumptions C72_isolated.
Print Assumptions C72_refused.
Print Assumptions C72_single.
Print Assumptions C72_end.
(** The step for initially single stars is meant to clear the event, but line 38 only compares: a detached step that leaves the event alone returns it. *)
Theorem C72_event_refuted : exists (b : binary) sep (detached : binary -> result binary) b', (forall x, detached x = Ok x) /\
  initially_single_step sep detached b = Ok b' /\ bevent b' = Some "ZAMS".
Proof.
  set (s := Star "H-rich_Core_H_burning" (fun _ => Some (Fin 1))).
  exists (Binary "initially_single_star" (Some "ZAMS") s s None None None), (fun _ _ _ => Ok (Some (Fin 1))), (fun x => Ok x). eexists. split; [reflexivity|]. split; reflexivity.
Qed.
Print Assumptions C72_event_refuted.
(** The whole merged step: the detached step gets one star and one massless remnant on a very wide circular orbit, in state merged. *)
Theorem C72_merged : forall fadd fsub fmul fdiv round10 rel critical_rot kept_mass sep detached b b',
  merged_step fadd fsub fmul fdiv round10 rel critical_rot kept_mass sep detached b = Ok b' ->
  unbound b' /\ exists x d, detached x = Ok d /\ bstate x = "merged" /\ bevent x = bevent b /\ orbital_period x = Some (Fin (inject_Z (10 ^ 99))) /\ eccentricity x = Some (Fin 0) /\
    merge_stars fadd fsub fmul fdiv round10 rel critical_rot kept_mass b = Ok (Binary "merged" (bevent b) (star_1 x) (star_2 x) (orbital_period b) (eccentricity b) (separation b)) /\
    bstate b' = bstate d /\ bevent b' = bevent d /\ star_1 b' = star_1 d /\ star_2 b' = star_2 d.
Proof.
  intros until b'. intros H. unfold merged_step in H. apply rbind_ok in H as (c & M & H). apply C72_isolated in H as (a & d & A & S & D & E1 & E2 & E3 & E4 & U). split; [exact U|].
  assert (K := proj1 (C71_step _ _ _ _ _ _ _ _ _ _) M). destruct K as (e & dd & m & r & E & L & N & ->). exists (far (Binary "merged" (bevent b) (if dd then m else r) (if dd then r else m) (orbital_period b) (eccentricity b) (separation b)) a), d.
  split; [exact D|]. do 4 (split; [reflexivity|]). split; [exact M|]. auto.
Qed.
Print Assumptions C72_merged.

(** ** Concrete mergers, with exact arithmetic *)
Definition qop (f : Q -> Q -> Q) (a b : num) : num := match a, b with Fin x, Fin y => Fin (Qred (f x y)) | _, _ => NaN end.
Definition merge_q := merged_star_properties (qop Qplus) (qop Qminus) (qop Qmult) (qop Qdiv) (fun x => x) (Fin (-3 # 2)) (Fin (99 # 100)) (Fin (9 # 10)).
Definition table (d : Q) (l : list (string * Q)) (n : string) : pnum :=
  match find (fun kv => String.eqb (fst kv) n) l with Some kv => Some (Fin (snd kv)) | None => Some (Fin d) end.
Definition ms1 := Star "H-rich_Core_H_burning" (table 0 [ ("mass", 10%Q); ("surface_h1", 7 # 10); ("center_h1", 1 # 2); ("center_he4", 1 # 2) ]).
Definition ms2 := Star "H-rich_Core_H_burning" (table 0 [ ("mass", 5%Q); ("surface_h1", 7 # 10); ("center_h1", 1 # 5); ("center_he4", 4 # 5) ]).
Definition giant := Star "H-rich_Core_He_burning" (table 0 [ ("mass", 20%Q); ("he_core_mass", 5%Q); ("surface_h1", 6 # 10); ("center_he4", 9 # 10); ("log_LHe", 5%Q); ("log_Lnuc", 5%Q) ]).
Definition he1 := Star "stripped_He_Core_He_burning" (table 0 [ ("mass", 4%Q); ("he_core_mass", 4%Q); ("surface_he4", 9 # 10); ("center_he4", 9 # 10) ]).
Definition he2 := Star "stripped_He_Core_He_burning" (table 0 [ ("mass", 4%Q); ("he_core_mass", 4%Q); ("surface_he4", 6 # 10); ("center_he4", 3 # 10) ]).
Definition hole := Star "BH" (table 0 [ ("mass", 8%Q) ]).
Definition seen (x : result (star * star)) (names : list string) : option (string * list pnum * string) :=
  match x with Ok (m, r) => Some (sstate m, map (attr m) names, sstate r) | Raise _ => None end.
Example C71_two_main : seen (merge_q ms1 ms2) [ "mass"; "center_h1"; "surface_h1"; "he_core_mass"; "log_L" ] =
  Some ("H-rich_Core_H_burning", [ Some (Fin (27 # 2)); Some (Fin (2 # 5)); Some (Fin (7 # 10)); Some (Fin 0); Some NaN ], "massless_remnant").
Proof. vm_compute. reflexivity. Qed.
(** The giant's core survives and the hydrogen of the other star is mixed into its envelope: (15 * 0.6 + 5 * 0.7) / 20. *)
Example C71_giant : seen (merge_q ms2 giant) [ "mass"; "he_core_mass"; "center_he4"; "surface_h1" ] =
  Some ("H-rich_non_burning", [ Some (Fin 25); Some (Fin 5); Some (Fin (9 # 10)); Some (Fin (5 # 8)) ], "massless_remnant").
Proof. vm_compute. reflexivity. Qed.
Example C71_kinds : kind_of "H-rich_Core_H_burning" "H-rich_Core_He_burning" MainPost /\ kind_of "H-rich_non_burning" "stripped_He_non_burning" PostHe /\
  (forall k, ~ kind_of "H-rich_Core_H_burning" "stripped_He_Core_He_burning" k) /\ (forall k, ~ kind_of "WD" "WD" k).
Proof.
  split; [constructor; apply mem_iff; reflexivity|]. split; [constructor; apply mem_iff; reflexivity|]. split; intros k K; apply kind_sel in K; vm_compute in K; discriminate.
Qed.
(** Exact operations exist, and they are the ones used here up to the representation of the fractions. *)
Definition xop (f : Q -> Q -> Q) (a b : num) : num := match a, b with Fin x, Fin y => Fin (f x y) | _, _ => NaN end.
Example C71_exact : exact_ops (xop Qplus) (xop Qmult) (xop Qdiv).
Proof. repeat split. Qed.
Lemma seen_ok x m r names s vs t : x = Ok (m, r) -> seen x names = Some (s, vs, t) -> sstate m = s /\ map (attr m) names = vs.
Proof. intros -> H. cbn [seen] in H. split; congruence. Qed.
Lemma merge_q_defined B C k : kind_of (sstate B) (sstate C) k -> (forall n, attr B n <> None /\ attr C n <> None) -> exists m r, merge_q B C = Ok (m, r).
Proof. intros K N. unfold merge_q. apply (C71_defined _ _ _ _ _ _ _ _ B C k K). intros n _. apply N. Qed.
(** The helium luminosity is meant to be kept when a helium burning giant swallows a main-sequence star, but it has just been erased; the merged giant counts as not burning. *)
Theorem C71_burning_refuted : exists B C m r, sstate B = "H-rich_Core_He_burning" /\ sstate C = "H-rich_Core_H_burning" /\ attr B "log_LHe" = Some (Fin 5) /\
  merge_q B C = Ok (m, r) /\ attr m "log_LHe" = Some NaN /\ sstate m = "H-rich_non_burning".
Proof.
  exists giant, ms1. destruct (merge_q_defined giant ms1 PostMain) as (m & r & M).
  - constructor; apply mem_iff; reflexivity.
  - intros n. cbn [giant ms1 attr]. unfold table. split; destruct (find _ _); discriminate.
  - exists m, r. do 3 (split; [reflexivity|]). split; [exact M|].
    destruct (seen_ok _ m r [ "log_LHe" ] "H-rich_non_burning" [ Some NaN ] "massless_remnant" M) as [E1 E2]; [vm_compute; reflexivity|].
    cbn [map] in E2. split; [congruence|exact E1].
Qed.
Print Assumptions C71_burning_refuted.
(** Two helium stars of the same mass: the surface is not the mean of the surfaces, because the base star already counts with the merged mass: 0.8 and not 0.75. *)
Theorem C71_surface_refuted : exists B C m r, attr B "mass" = attr C "mass" /\ attr B "he_core_mass" = attr C "he_core_mass" /\ attr B "co_core_mass" = attr C "co_core_mass" /\
  merge_q B C = Ok (m, r) /\ attr B "surface_he4" = Some (Fin (9 # 10)) /\ attr C "surface_he4" = Some (Fin (6 # 10)) /\
  attr m "surface_he4" = Some (Fin (4 # 5)) /\ attr m "center_he4" = Some (Fin (3 # 5)).
Proof.
  exists he1, he2. destruct (merge_q_defined he1 he2 HeHe) as (m & r & M).
  - constructor; apply mem_iff; reflexivity.
  - intros n. cbn [he1 he2 attr]. unfold table. split; destruct (find _ _); discriminate.
  - exists m, r. do 3 (split; [reflexivity|]). split; [exact M|]. do 2 (split; [reflexivity|]).
    destruct (seen_ok _ m r [ "surface_he4"; "center_he4" ] "stripped_He_non_burning" [ Some (Fin (4 # 5)); Some (Fin (3 # 5)) ] "massless_remnant" M) as [E1 E2]; [vm_compute; reflexivity|].
    cbn [map] in E2. split; congruence.
Qed.
Print Assumptions C71_surface_refuted.
(** A star that merges with a black hole vanishes and the black hole keeps its mass. *)
Example C71_hole : seen (merge_q giant hole) [ "mass" ] = Some ("massless_remnant", [ Some (Fin 0) ], "BH").
Proof. vm_compute. reflexivity. Qed.
Example C71_step_example : match merge_stars (qop Qplus) (qop Qminus) (qop Qmult) (qop Qdiv) (fun x => x) (Fin (-3 # 2)) (Fin (99 # 100)) (Fin (9 # 10))
    (Binary "detached" (Some "oRLO2") he1 he2 (Some (Fin 3)) (Some (Fin 0)) (Some (Fin 10))) with
  | Ok b => (sstate (star_1 b), sstate (star_2 b), bstate b, attr (star_2 b) "mass") = ("massless_remnant", "stripped_He_non_burning", "merged", Some (Fin 8)) | Raise _ => False end.
Proof. vm_compute. reflexivity. Qed.
Example C72_example : exists b', isolated_step (fun _ _ _ => Ok (Some (Fin 5))) (fun b => Ok b) (Binary "disrupted" None giant hole (Some (Fin 3)) (Some (Fin 0)) (Some (Fin 10))) = Ok b' /\
  orbital_period b' = Some NaN /\ star_1 b' = giant.
Proof. eexists. split; [reflexivity|]. split; reflexivity. Qed.
