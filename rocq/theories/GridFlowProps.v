(** The steps for two hydrogen-rich stars, the flow from and to the steps with a grid, and the boundaries of a grid (C116 to C118). *)
From Coq Require Import String List Bool QArith Qminmax Lqa Lia.
From Verif Require Import PyBase FlowChartModel FlowChartSpec FlowChartRules FlowChartProofs GridEntryModel GridEntryProps.
Import ListNotations.
Open Scope string_scope.
Open Scope Q_scope.
Open Scope list_scope.
Opaque POSYDON_FLOW_CHART.

Lemma div_le a b c : 0 < b -> (a / b <= c <-> a <= c * b).
Proof.
  intro B. assert (E : a == a / b * b) by (field; lra). split; intro H.
  - rewrite E. apply Qmult_le_compat_r; lra.
  - destruct (Qlt_le_dec c (a / b)) as [L|L]; [|exact L]. exfalso. assert (c * b < a / b * b) by (apply Qmult_lt_compat_r; assumption). lra.
Qed.
Lemma le_div a b c : 0 < b -> (c <= a / b <-> c * b <= a).
Proof.
  intro B. assert (E : a == a / b * b) by (field; lra). split; intro H.
  - rewrite E. apply Qmult_le_compat_r; lra.
  - destruct (Qlt_le_dec (a / b) c) as [L|L]; [|exact L]. exfalso. assert (a / b * b < c * b) by (apply Qmult_lt_compat_r; assumption). lra.
Qed.

(** ** C116: two stars on the main sequence *)
(** The grid has binaries with a primary of mass [a] and a secondary of mass [b]. *)
Definition pair_covered (g : grid) (least a b : Q) : Prop := m1_min g <= a <= m1_max g /\ q_min g * a <= b /\ least <= b /\ b <= q_max g * a.
Definition zams_pair (x : system) : Prop := st1 x = HR_Core_H_burning /\ st2 x = HR_Core_H_burning /\ ev x = ZAMS.

Lemma pair_iff g least a b : 0 < a ->
  (within (m1_min g) a (m1_max g) && within (qmax (q_min g) (least / a)) (b / a) (q_max g) = true <-> pair_covered g least a b).
Proof.
  intros A. rewrite andb_true_iff, !within_iff, qmax_le. unfold pair_covered.
  assert (E : least / a <= b / a <-> least <= b).
  { rewrite div_le by assumption. assert (F : b / a * a == b) by (field; lra). split; intro; lra. }
  rewrite E, (le_div b a), (div_le b a) by assumption. tauto.
Qed.

Theorem C116_rule : forall g x, 0 < mass1 x -> 0 < mass2 x -> q_max g <= 1 ->
  let primary_first := pair_covered g (1#2) (mass1 x) (mass2 x) in
  let primary_second := pair_covered g (1#2) (mass2 x) (mass1 x) in
  (zams_pair x ->
     (~ period_covered g x -> ms_ms g x = Return (bst x) redirect_from_ZAMS) /\
     (period_covered g x -> primary_first -> ms_ms g x = Evolve false) /\
     (period_covered g x -> ~ primary_first -> primary_second /\ mass2 x <= 2 * mass1 x * mass1 x -> ms_ms g x = Evolve true) /\
     (period_covered g x -> ~ primary_first -> ~ (primary_second /\ mass2 x <= 2 * mass1 x * mass1 x) -> ms_ms g x = Fails GridError)) /\
  (~ zams_pair x ->
     (st1 x = HR_Core_C_depleted -> ms_ms g x = Return (bst x) CC1) /\
     (st1 x <> HR_Core_C_depleted -> st2 x = HR_Core_C_depleted -> ms_ms g x = Return (bst x) CC2) /\
     (st1 x <> HR_Core_C_depleted -> st2 x <> HR_Core_C_depleted -> ms_ms g x = Fails FlowError)).
Proof.
  intros g x M1 M2 Q1 pf ps.
  assert (Z : star_eqb (st1 x) HR_Core_H_burning && star_eqb (st2 x) HR_Core_H_burning && event_eqb (ev x) ZAMS = true <-> zams_pair x).
  { rewrite !andb_true_iff, !star_is, event_is_iff. unfold zams_pair. tauto. }
  assert (PF : within (m1_min g) (mass1 x) (m1_max g) && within (qmax (q_min g) ((1 # 2) / mass1 x)) (mass2 x / mass1 x) (q_max g) = true <-> pf)
    by (apply pair_iff; exact M1).
  assert (PS : within (m1_min g) (mass2 x) (m1_max g) && within (qmax (q_min g) ((1 # 2) / mass1 x)) (1 / (mass2 x / mass1 x)) (q_max g) = true
               <-> ps /\ mass2 x <= 2 * mass1 x * mass1 x).
  { rewrite andb_true_iff, !within_iff, qmax_le. unfold ps, pair_covered.
    assert (I : 1 / (mass2 x / mass1 x) == mass1 x / mass2 x) by (field; split; lra). rewrite !I, (le_div (mass1 x) (mass2 x)), (div_le (mass1 x) (mass2 x)) by assumption.
    assert (H : (1 # 2) / mass1 x <= mass1 x / mass2 x <-> mass2 x <= 2 * mass1 x * mass1 x).
    { rewrite div_le by assumption. assert (F : mass1 x / mass2 x * mass1 x == mass1 x * mass1 x / mass2 x) by (field; lra). rewrite F, le_div by assumption. split; intro; lra. }
    rewrite H. split; [|tauto]. intros (A & (B & C) & D). repeat split; try tauto.
    assert (L : mass1 x <= mass2 x). { assert (q_max g * mass2 x <= 1 * mass2 x) by (apply Qmult_le_compat_r; lra). lra. }
    destruct (Qlt_le_dec (mass1 x) (1#2)) as [S|S]; [|exact S]. exfalso.
    assert (2 * mass1 x * mass1 x < 1 * mass1 x) by (apply Qmult_lt_compat_r; lra). lra. }
  rewrite <- PF, <- PS, <- Z, <- period_iff. rewrite <- !star_is. unfold ms_ms. cbn zeta.
  set (zz := star_eqb (st1 x) HR_Core_H_burning && star_eqb (st2 x) HR_Core_H_burning && event_eqb (ev x) ZAMS).
  rewrite !outside_within.
  assert (P : lt (p_max g) (period x) = negb (le (period x) (p_max g)) /\ lt (period x) (p_min g) = negb (le (p_min g) (period x))) by (split; reflexivity).
  destruct P as [-> ->]. unfold period_in. change (within (p_min g) (period x) (p_max g)) with (le (p_min g) (period x) && le (period x) (p_max g)).
  set (u := within (qmax (q_min g) ((1 # 2) / mass1 x)) (mass2 x / mass1 x) (q_max g)).
  set (v := within (qmax (q_min g) ((1 # 2) / mass1 x)) (1 / (mass2 x / mass1 x)) (q_max g)).
  destruct zz, (within (m1_min g) (mass1 x) (m1_max g)), (within (m1_min g) (mass2 x) (m1_max g)), u, v, (le (p_min g) (period x)), (le (period x) (p_max g));
    cbn [andb negb]; split; intros HZ; try discriminate; try (exfalso; congruence);
    try (repeat split; intros; try reflexivity; try discriminate; exfalso; intuition congruence);
    destruct (star_eqb (st1 x) HR_Core_C_depleted), (star_eqb (st2 x) HR_Core_C_depleted);
    repeat split; intros; try reflexivity; try discriminate; exfalso; intuition congruence.
Qed.
Print Assumptions C116_rule.
Definition hms_grid : grid := Grid 1 300 (1#2) 300 (1#10) 6105 (1#20) 1 (1#2).
Definition unequal : system := System HR_Core_H_burning HR_Core_H_burning ZAMS detached 20 2 100 0.
Example C116_case :
  zams_pair unequal /\ pair_covered hms_grid (1#2) 20 2 /\ ms_ms hms_grid unequal = Evolve false /\
  ms_ms hms_grid (System HR_Core_H_burning HR_Core_H_burning ZAMS detached 15 20 100 0) = Evolve true /\
  ms_ms hms_grid (System HR_Core_H_burning HR_Core_H_burning ZAMS detached 20 2 9000 0) = Return detached redirect_from_ZAMS /\
  ms_ms hms_grid (System HR_Core_H_burning HR_Core_H_burning ZAMS detached 20 (3#4) 100 0) = Fails GridError /\
  ms_ms hms_grid (System HR_Core_C_depleted HR_Core_H_burning oRLO1 RLO1 20 2 100 0) = Return RLO1 CC1.
Proof. split; [repeat split|]. split; [unfold pair_covered; cbn; lra|]. vm_compute. repeat split; reflexivity. Qed.
(** The least mass ratio is computed with the mass of star 1 also when star 2 is the primary, so that the grid is not used for unequal pairs with
    the primary as star 2. *)
Theorem C116_mirror_refuted : ~ (forall g x, ms_ms g (swapped x) = swapped_decision (ms_ms g x)) /\
  ms_ms hms_grid unequal = Evolve false /\ ms_ms hms_grid (swapped unequal) = Fails GridError.
Proof. split; [|split; reflexivity]. intro H. specialize (H hms_grid unequal). vm_compute in H. discriminate. Qed.
Print Assumptions C116_mirror_refuted.
(** The eccentricity plays no role. *)
Theorem C116_eccentricity : forall g x e, ms_ms g (System (st1 x) (st2 x) (ev x) (bst x) (mass1 x) (mass2 x) (period x) e) = ms_ms g x.
Proof. reflexivity. Qed.
Print Assumptions C116_eccentricity.

(** ** C117: overflow between two hydrogen-rich stars *)
Definition rlo_pair (x : system) : Prop := In (st1 x) FOR_RLO_STATES /\ In (st2 x) FOR_RLO_STATES.
Theorem C117_rule : forall g x, 0 < mass1 x -> min_mass g == m2_min g ->
  let covered := pair_covered g (min_mass g) (mass1 x) (mass2 x) in
  let lost := EOther "redirect_from_HMS_HMS_RLO" in
  (forall w, rlo_pair x -> ev x = overflow w ->
     (state_of w x = HR_Core_C_depleted -> hms_hms_rlo g x = Return (bst x) (collapse w)) /\
     (state_of w x <> HR_Core_C_depleted ->
        (~ period_covered g x -> hms_hms_rlo g x = Return detached lost) /\
        (period_covered g x -> ~ covered -> hms_hms_rlo g x = Fails GridError) /\
        (period_covered g x -> covered -> circular x -> hms_hms_rlo g x = Evolve false) /\
        (period_covered g x -> covered -> ~ circular x -> mass2 x <= m2_max g -> hms_hms_rlo g x = Return detached lost) /\
        (period_covered g x -> covered -> ~ circular x -> m2_max g < mass2 x -> hms_hms_rlo g x = Fails GridError))) /\
  (~ (rlo_pair x /\ (ev x = oRLO1 \/ ev x = oRLO2)) -> hms_hms_rlo g x = Fails FlowError).
Proof.
  intros g x M1 MM covered lost.
  assert (PF : within (m1_min g) (mass1 x) (m1_max g) && within (qmax (q_min g) (min_mass g / mass1 x)) (mass2 x / mass1 x) (q_max g) = true <-> covered)
    by (apply pair_iff; exact M1).
  assert (LO : covered -> le (m2_min g) (mass2 x) = true) by (intro C; apply le_iff; destruct C as (_ & _ & C & _); lra).
  split.
  - intros w [I1 I2] E. rewrite <- !lt_iff, <- period_iff. unfold circular. rewrite <- eq_iff.
    assert (HI : mass2 x <= m2_max g <-> lt (m2_max g) (mass2 x) = false) by (rewrite <- not_true_iff_false, lt_iff; split; intro; lra). rewrite HI.
    unfold hms_hms_rlo. cbn zeta. assert (J1 := I1). apply in_iff in J1. assert (J2 := I2). apply in_iff in J2. rewrite J1, J2, E.
    rewrite !outside_within. change (lt (mass2 x / mass1 x) (qmax (q_min g) (min_mass g / mass1 x)) || lt (q_max g) (mass2 x / mass1 x)) with (outside (qmax (q_min g) (min_mass g / mass1 x)) (mass2 x / mass1 x) (q_max g)).
    rewrite outside_within. change (within (m2_min g) (mass2 x) (m2_max g)) with (le (m2_min g) (mass2 x) && le (mass2 x) (m2_max g)).
    assert (LT : lt (m2_max g) (mass2 x) = negb (le (mass2 x) (m2_max g))) by reflexivity. rewrite LT. clear HI LT.
    revert PF LO. generalize covered. intros cov PF LO. destruct w; cbn [overflow state_of collapse];
      change (event_eqb oRLO1 oRLO1) with true; change (event_eqb oRLO2 oRLO1) with false; change (event_eqb oRLO2 oRLO2) with true; cbn [andb].
    + destruct (star_eqb_spec (st1 x) HR_Core_C_depleted) as [D|D]; [split; [reflexivity|congruence]|]. split; [congruence|]. intros _. cbn [negb andb orb].
      destruct (within (m1_min g) (mass1 x) (m1_max g)), (within (qmax (q_min g) (min_mass g / mass1 x)) (mass2 x / mass1 x) (q_max g)), (period_in g x), (Qeq_bool (eccen x) 0), (le (m2_min g) (mass2 x)), (le (mass2 x) (m2_max g));
        cbn [andb negb orb] in *; repeat split; intros; try reflexivity; try discriminate; exfalso; intuition congruence.
    + destruct (star_eqb_spec (st2 x) HR_Core_C_depleted) as [D|D]; [split; [reflexivity|congruence]|]. split; [congruence|]. intros _. cbn [negb andb orb].
      destruct (within (m1_min g) (mass1 x) (m1_max g)), (within (qmax (q_min g) (min_mass g / mass1 x)) (mass2 x / mass1 x) (q_max g)), (period_in g x), (Qeq_bool (eccen x) 0), (le (m2_min g) (mass2 x)), (le (mass2 x) (m2_max g));
        cbn [andb negb orb] in *; repeat split; intros; try reflexivity; try discriminate; exfalso; intuition congruence.
  - intro N. unfold hms_hms_rlo, rlo_pair in *. cbn zeta. rewrite <- !in_iff, <- !event_is_iff in N.
    destruct (star_in (st1 x) FOR_RLO_STATES), (star_in (st2 x) FOR_RLO_STATES), (event_eqb (ev x) oRLO1), (event_eqb (ev x) oRLO2); cbn [andb]; try reflexivity; exfalso; intuition congruence.
Qed.
Print Assumptions C117_rule.
Definition rlo : system := System HR_Core_H_burning HR_Core_H_burning oRLO1 RLO1 20 15 5 0.
Example C117_case : min_mass hms_grid == m2_min hms_grid /\ rlo_pair rlo /\ pair_covered hms_grid (min_mass hms_grid) 20 15 /\ hms_hms_rlo hms_grid rlo = Evolve false.
Proof. split; [reflexivity|]. split; [split; cbn; auto|]. split; [unfold pair_covered; cbn; lra|reflexivity]. Qed.
(** The stars are never exchanged; overflow of a more massive star 2 is refused although the grid has that binary. *)
Theorem C117_mirror_refuted : (forall g x, hms_hms_rlo g x <> Evolve true) /\
  ~ (forall g x, hms_hms_rlo g (swapped x) = swapped_decision (hms_hms_rlo g x)) /\ hms_hms_rlo hms_grid (swapped rlo) = Fails GridError.
Proof.
  split; [|split; [|reflexivity]].
  - intros g x. unfold hms_hms_rlo. repeat (match goal with |- context [if ?c then _ else _] => destruct c end; try discriminate).
  - intro H. specialize (H hms_grid rlo). vm_compute in H. discriminate.
Qed.
Print Assumptions C117_mirror_refuted.

(** ** C118: from the flow chart to the steps and back *)
Definition decide (s : step_name) (g : grid) (x : system) : option decision :=
  match s with
  | step_HMS_HMS => Some (ms_ms g x)
  | step_CO_HMS_RLO => Some (co_hms_rlo g x)
  | step_CO_HeMS_RLO => Some (co_hems_rlo g x)
  | step_CO_HeMS => Some (co_hems g x)
  | step_HMS_HMS_RLO => Some (hms_hms_rlo g x)
  | _ => None
  end.
(** The donors for which the chart and the step disagree. *)
Definition forgotten (s : star_state) : Prop := s = HR_Shell_He_burning \/ s = acc_Shell_H_burning.

Definition forgottenb (s : star_state) : bool := star_in s [HR_Shell_He_burning; acc_Shell_H_burning].
Definition sent (s1 s2 : star_state) (b : bin_state) (e : event) : bool :=
  match spec_step s1 s2 b e with
  | Some step_HMS_HMS => star_eqb s1 HR_Core_H_burning && star_eqb s2 HR_Core_H_burning && event_eqb e ZAMS &&
      match spec_step s1 s2 b redirect_from_ZAMS with Some step_detached => true | _ => false end
  | Some step_CO_HMS_RLO =>
      ((star_in s2 COMPACT && event_eqb e oRLO1 && negb (star_eqb s1 HR_Core_C_depleted) && xorb (star_in s1 FOR_RLO_STATES) (forgottenb s1)) ||
       (star_in s1 COMPACT && event_eqb e oRLO2 && negb (star_eqb s2 HR_Core_C_depleted) && xorb (star_in s2 FOR_RLO_STATES) (forgottenb s2))) &&
      match spec_step s1 s2 detached redirect_from_CO_HMS_RLO with Some step_detached => true | _ => false end
  | Some step_CO_HeMS_RLO =>
      ((star_in s2 COMPACT && event_eqb e oRLO1 && negb (star_eqb s1 str_Core_C_depleted) && star_in s1 CO_He_STATES) ||
       (star_in s1 COMPACT && event_eqb e oRLO2 && negb (star_eqb s2 str_Core_C_depleted) && star_in s2 CO_He_STATES)) &&
      match spec_step s1 s2 detached redirect_from_CO_HeMS_RLO with Some step_detached => true | _ => false end
  | Some step_CO_HeMS =>
      ((star_in s2 COMPACT && event_eqb e EvNone && negb (star_eqb s1 str_Core_C_depleted) && star_in s1 CO_He_STATES) ||
       (star_in s1 COMPACT && event_eqb e EvNone && negb (star_eqb s2 str_Core_C_depleted) && star_in s2 CO_He_STATES)) &&
      match spec_step s1 s2 detached redirect_from_CO_HeMS with Some step_detached => true | _ => false end
  | Some step_HMS_HMS_RLO => false
  | _ => true
  end.
Lemma SentCheck : all_keys_check (fun k => sent (k1 k) (k2 k) (kb k) (ke k)) = true.
Proof. vm_compute. reflexivity. Qed.
Lemma sent_all s1 s2 b e : sent s1 s2 b e = true.
Proof.
  destruct (known_key (Key s1 s2 b e)) eqn:K.
  - apply known_split in K. destruct K as (A & B & C & D). exact (all_keys_lift _ SentCheck s1 s2 b e A B C D).
  - apply spec_unknown in K. unfold spec_key in K. cbn [k1 k2 kb ke] in K. unfold sent. rewrite K. reflexivity.
Qed.

Ltac bools := repeat match goal with
  | H : _ && _ = true |- _ => apply andb_true_iff in H; destruct H
  | H : _ || _ = true |- _ => apply orb_true_iff in H; destruct H
  | H : negb _ = true |- _ => apply negb_true_iff in H
  end.
Theorem C118_sent : forall g x step d,
  chart_get POSYDON_FLOW_CHART (Key (st1 x) (st2 x) (bst x) (ev x)) = Some step -> decide step g x = Some d ->
  (d = Fails FlowError <-> step = step_CO_HMS_RLO /\ (forgotten (st1 x) \/ forgotten (st2 x))) /\
  (forall b e, d = Return b e ->
     chart_get POSYDON_FLOW_CHART (Key (st1 x) (st2 x) b e) = Some step_detached).
Proof.
  intros g x step d C D. rewrite chart_is_spec in C. assert (S := sent_all (st1 x) (st2 x) (bst x) (ev x)). unfold sent in S. rewrite C in S.
  assert (F : forall s, forgottenb s = true <-> forgotten s).
  { intro s. unfold forgottenb. rewrite in_iff. unfold forgotten. cbn. intuition congruence. }
  destruct step; cbn [decide] in D; try discriminate.
  - (* HMS-HMS *)
    assert (D' : d = ms_ms g x) by congruence. clear D. apply andb_true_iff in S. destruct S as [Z T].
    assert (V : d = Evolve false \/ d = Evolve true \/ d = Return (bst x) redirect_from_ZAMS \/ d = Fails GridError).
    { rewrite D'. unfold ms_ms. cbn zeta. rewrite Z. cbn [andb]. rewrite !outside_within. unfold period_in.
      assert (P : lt (p_max g) (period x) = negb (le (period x) (p_max g)) /\ lt (period x) (p_min g) = negb (le (p_min g) (period x))) by (split; reflexivity).
      destruct P as [-> ->]. change (within (p_min g) (period x) (p_max g)) with (le (p_min g) (period x) && le (period x) (p_max g)).
      destruct (within (m1_min g) (mass1 x) (m1_max g)), (within (m1_min g) (mass2 x) (m1_max g)), (within _ (mass2 x / mass1 x) _), (within _ (1 / (mass2 x / mass1 x)) _), (le (p_min g) (period x)), (le (period x) (p_max g)); cbn; auto. }
    split.
    + split; [intros E; exfalso; destruct V as [V|[V|[V|V]]]; rewrite V in E; discriminate E|intros [E _]; congruence].
    + intros b e E. destruct V as [V|[V|[V|V]]]; try congruence. assert (b = bst x /\ e = redirect_from_ZAMS) by (split; congruence). destruct H as [-> ->].
      rewrite chart_is_spec. destruct (spec_step (st1 x) (st2 x) (bst x) redirect_from_ZAMS) as [[]|]; congruence.
  - (* CO-HMS RLO *)
    assert (D' : d = co_hms_rlo g x) by congruence. clear D. apply andb_true_iff in S. destruct S as [Z T].
    assert (V : (d = Fails FlowError /\ (forgotten (st1 x) \/ forgotten (st2 x))) \/ ((d = Evolve false \/ d = Evolve true \/ d = Fails GridError \/ d = Return detached redirect_from_CO_HMS_RLO) /\ ~ (forgotten (st1 x) \/ forgotten (st2 x)))).
    { rewrite D'. unfold co_hms_rlo. rewrite <- !F.
      assert (NC : forall s, star_in s COMPACT = true -> star_in s FOR_RLO_STATES = false /\ forgottenb s = false /\ star_eqb s HR_Core_C_depleted = false).
      { intros s H. apply compact_iff in H. destruct H as [->|[->| ->]]; repeat split; reflexivity. }
      unfold roles. apply orb_true_iff in Z; destruct Z as [Z|Z]; bools.
      - destruct (NC _ H) as (N1 & N2 & N3). rewrite H, H2, H1.
        assert (H2' : event_eqb (ev x) oRLO2 = false) by (apply event_is_iff in H2; rewrite H2; reflexivity). rewrite H2'. rewrite N2.
        destruct (forgottenb (st1 x)) eqn:F1.
        + destruct (star_in (st1 x) FOR_RLO_STATES); [discriminate H0|]. rewrite !andb_false_r. cbn [andb]. left. split; [reflexivity|left; reflexivity].
        + rewrite xorb_false_r in H0. rewrite H0. cbn [andb]. right. split; [|intuition congruence].
          repeat (match goal with |- context [if ?c then _ else _] => destruct c end; auto).
      - destruct (NC _ H) as (N1 & N2 & N3). rewrite H, H2, H1.
        assert (H2' : event_eqb (ev x) oRLO1 = false) by (apply event_is_iff in H2; rewrite H2; reflexivity). rewrite H2'. rewrite N2. rewrite !andb_false_r.
        destruct (forgottenb (st2 x)) eqn:F1.
        + destruct (star_in (st2 x) FOR_RLO_STATES); [discriminate H0|]. cbn [andb]. left. split; [reflexivity|right; reflexivity].
        + rewrite xorb_false_r in H0. rewrite H0. cbn [andb]. right. split; [|intuition congruence].
          repeat (match goal with |- context [if ?c then _ else _] => destruct c end; auto). }
    split.
    + destruct V as [[V W]|[V W]]; [split; [intros _; split; [reflexivity|exact W]|intros _; exact V]|]. split; [intros E; exfalso; destruct V as [V|[V|[V|V]]]; rewrite V in E; discriminate E|intros [_ E]; contradiction].
    + intros b e E. destruct V as [[V W]|[V W]]; [congruence|]. destruct V as [V|[V|[V|V]]]; try congruence. assert (G : b = detached /\ e = redirect_from_CO_HMS_RLO) by (split; congruence). destruct G as [-> ->].
      rewrite chart_is_spec. destruct (spec_step (st1 x) (st2 x) detached redirect_from_CO_HMS_RLO) as [[]|]; congruence.
  - (* CO-HeMS *)
    assert (D' : d = co_hems g x) by congruence. clear D. apply andb_true_iff in S. destruct S as [Z T].
    assert (V : d = Evolve false \/ d = Evolve true \/ d = Fails GridError \/ d = Return detached redirect_from_CO_HeMS).
    { rewrite D'. unfold co_hems, roles.
      assert (NC : forall s, star_in s COMPACT = true -> star_in s CO_He_STATES = false).
      { intros s H. apply compact_iff in H. destruct H as [->|[->| ->]]; reflexivity. }
      apply orb_true_iff in Z; destruct Z as [Z|Z]; bools; assert (N1 := NC _ H); rewrite H, H2, H1, H0, ?N1; rewrite ?andb_false_r; cbn [andb].
      - repeat (match goal with |- context [if ?c then _ else _] => destruct c end; auto).
      - repeat (match goal with |- context [if ?c then _ else _] => destruct c end; auto). }
    split.
    + split; [intros E; exfalso; destruct V as [V|[V|[V|V]]]; rewrite V in E; discriminate E|intros [E _]; congruence].
    + intros b e E. destruct V as [V|[V|[V|V]]]; try congruence. assert (G : b = detached /\ e = redirect_from_CO_HeMS) by (split; congruence). destruct G as [-> ->].
      rewrite chart_is_spec. destruct (spec_step (st1 x) (st2 x) detached redirect_from_CO_HeMS) as [[]|]; congruence.
  - (* CO-HeMS RLO *)
    assert (D' : d = co_hems_rlo g x) by congruence. clear D. apply andb_true_iff in S. destruct S as [Z T].
    assert (V : d = Evolve false \/ d = Evolve true \/ d = Fails GridError \/ d = Return detached redirect_from_CO_HeMS_RLO).
    { rewrite D'. unfold co_hems_rlo, roles.
      assert (NC : forall s, star_in s COMPACT = true -> star_in s CO_He_STATES = false).
      { intros s H. apply compact_iff in H. destruct H as [->|[->| ->]]; reflexivity. }
      apply orb_true_iff in Z; destruct Z as [Z|Z]; bools; assert (N1 := NC _ H); rewrite H, H2, H1, H0, ?N1; rewrite ?andb_false_r; cbn [andb].
      - repeat (match goal with |- context [if ?c then _ else _] => destruct c end; auto).
      - repeat (match goal with |- context [if ?c then _ else _] => destruct c end; auto). }
    split.
    + split; [intros E; exfalso; destruct V as [V|[V|[V|V]]]; rewrite V in E; discriminate E|intros [E _]; congruence].
    + intros b e E. destruct V as [V|[V|[V|V]]]; try congruence. assert (G : b = detached /\ e = redirect_from_CO_HeMS_RLO) by (split; congruence). destruct G as [-> ->].
      rewrite chart_is_spec. destruct (spec_step (st1 x) (st2 x) detached redirect_from_CO_HeMS_RLO) as [[]|]; congruence.
Qed.
Print Assumptions C118_sent.
Example C118_case :
  chart_get POSYDON_FLOW_CHART (Key (st1 xrb) (st2 xrb) (bst xrb) (ev xrb)) = Some step_CO_HMS_RLO /\ decide step_CO_HMS_RLO co_grid xrb = Some (Evolve false).
Proof. split; [rewrite chart_is_spec|]; reflexivity. Qed.
(** A star that accreted helium and burns hydrogen in a shell is sent to the step and refused there. *)
Theorem C118_forgotten_refuted :
  let x := System acc_Shell_H_burning NS oRLO1 RLO1 10 (14#10) 10 0 in
  ~ (forall g y step, chart_get POSYDON_FLOW_CHART (Key (st1 y) (st2 y) (bst y) (ev y)) = Some step -> decide step g y <> Some (Fails FlowError)) /\
  chart_get POSYDON_FLOW_CHART (Key (st1 x) (st2 x) (bst x) (ev x)) = Some step_CO_HMS_RLO /\ co_hms_rlo co_grid x = Fails FlowError.
Proof.
  cbn zeta. assert (C : chart_get POSYDON_FLOW_CHART (Key acc_Shell_H_burning NS RLO1 oRLO1) = Some step_CO_HMS_RLO) by (rewrite chart_is_spec; reflexivity).
  split; [|split; [exact C|reflexivity]]. intro H. apply (H co_grid (System acc_Shell_H_burning NS oRLO1 RLO1 10 (14#10) 10 0) _ C). reflexivity.
Qed.
Print Assumptions C118_forgotten_refuted.
(** What HMS_HMS_RLO_step passes on has no next step in any chart made from the default one, even with the user's changes. *)
Theorem C118_lost : forall chg h' l' s1 s2 b, match chg with Some d => NoDup (dkeys d) | None => True end ->
  initial_eccentricity_flow_chart [POSYDON_FLOW_CHART] None chg = (h', l') ->
  chart_get (hget h' l') (Key s1 s2 b (EOther "redirect_from_HMS_HMS_RLO")) = None.
Proof.
  intros chg h' l' s1 s2 b ND E. assert (V : valid_fc [POSYDON_FLOW_CHART] None) by (cbn; auto).
  destruct (ecc_result [POSYDON_FLOW_CHART] None chg h' l' V ND E) as [H _]. rewrite H. unfold ecc_expected. cbn [k1 k2 kb ke].
  assert (R : requested (chart_get (base_of [POSYDON_FLOW_CHART] None)) (chg_get chg) (Key s1 s2 b (EOther "redirect_from_HMS_HMS_RLO")) = None).
  { unfold requested. cbn [base_of]. change (hget [POSYDON_FLOW_CHART] default_loc) with POSYDON_FLOW_CHART. rewrite chart_is_spec.
    unfold spec_step. cbn [known_event]. rewrite !andb_false_r. reflexivity. }
  rewrite R. destruct (evolvable s1), (evolvable s2), b; reflexivity.
Qed.
Print Assumptions C118_lost.
(** And of the pairs sent to that step those with a stripped star, or the donors above, are refused. *)
Theorem C118_eccentric : forall g x, evolvable (st1 x) = true -> evolvable (st2 x) = true -> (ev x = oRLO1 \/ ev x = oRLO2) ->
  (hms_hms_rlo g x = Fails FlowError <->
   exists s, (s = st1 x \/ s = st2 x) /\ In s [HR_Shell_He_burning; acc_Shell_H_burning; acc_Core_He_burning; str_Core_He_burning; str_Core_He_depleted; str_non_burning]).
Proof.
  intros g x E1 E2 EV.
  assert (A : forall s, evolvable s = true -> star_in s FOR_RLO_STATES = negb (star_in s [HR_Shell_He_burning; acc_Shell_H_burning; acc_Core_He_burning; str_Core_He_burning; str_Core_He_depleted; str_non_burning]))
    by (intros [] H; try reflexivity; discriminate H).
  unfold hms_hms_rlo. cbn zeta. rewrite (A _ E1), (A _ E2).
  assert (X : (exists s, (s = st1 x \/ s = st2 x) /\ In s [HR_Shell_He_burning; acc_Shell_H_burning; acc_Core_He_burning; str_Core_He_burning; str_Core_He_depleted; str_non_burning]) <->
    star_in (st1 x) [HR_Shell_He_burning; acc_Shell_H_burning; acc_Core_He_burning; str_Core_He_burning; str_Core_He_depleted; str_non_burning] = true \/
    star_in (st2 x) [HR_Shell_He_burning; acc_Shell_H_burning; acc_Core_He_burning; str_Core_He_burning; str_Core_He_depleted; str_non_burning] = true).
  { rewrite !in_iff. split.
    - intros (s & [->| ->] & H); auto.
    - intros [H|H]; eexists; (split; [|exact H]); auto. }
  rewrite X. clear X. set (a := star_in (st1 x) _). set (b := star_in (st2 x) _).
  destruct EV as [->| ->]; change (event_eqb oRLO1 oRLO1) with true; change (event_eqb oRLO2 oRLO1) with false; change (event_eqb oRLO2 oRLO2) with true;
    destruct a, b; cbn [negb andb]; try (split; intros; auto; fail);
    (split; [|intros [H|H]; discriminate]); intro H; exfalso; revert H;
    match goal with |- context [star_eqb ?s ?t] => destruct (star_eqb s t) end; try discriminate;
    repeat (match goal with |- context [if ?c then _ else _] => destruct c end; try discriminate).
Qed.
Print Assumptions C118_eccentric.

(** ** C119: the boundaries of a grid *)
(** They are attained, by a run with finite values, and enclose all such runs; without such a run there is ValueError. *)
Definition good_run (runs : list (option Q * option Q)) (v : Q) : Prop := exists f, In (Some v, Some f) runs.
Lemma usable_iff runs v : In v (usable runs) <-> good_run runs v.
Proof.
  unfold usable, good_run. rewrite in_flat_map. split.
  - intros ([[i|] [f|]] & H & K); cbn in K; try contradiction. destruct K as [->|[]]. exists f. exact H.
  - intros [f H]. exists (Some v, Some f). split; [exact H|left; reflexivity].
Qed.
Lemma fold_least l : forall a, let r := fold_left (fun a y => if lt y a then y else a) l a in (r = a \/ In r l) /\ r <= a /\ forall y, In y l -> r <= y.
Proof.
  induction l as [|y l IH]; intro a; cbn [fold_left]; [cbn; repeat split; [auto|lra|tauto]|].
  destruct (lt y a) eqn:E.
  - apply lt_iff in E. destruct (IH y) as (A & B & C). cbn zeta in *. split; [destruct A as [->|A]; [right; left; reflexivity|right; right; exact A]|]. split; [lra|].
    intros z [->|H]; [lra|auto].
  - apply not_true_iff_false in E. rewrite lt_iff in E. destruct (IH a) as (A & B & C). cbn zeta in *. split; [destruct A as [->|A]; [left; reflexivity|right; right; exact A]|]. split; [lra|].
    intros z [->|H]; [lra|auto].
Qed.
Lemma fold_greatest l : forall a, let r := fold_left (fun a y => if lt a y then y else a) l a in (r = a \/ In r l) /\ a <= r /\ forall y, In y l -> y <= r.
Proof.
  induction l as [|y l IH]; intro a; cbn [fold_left]; [cbn; repeat split; [auto|lra|tauto]|].
  destruct (lt a y) eqn:E.
  - apply lt_iff in E. destruct (IH y) as (A & B & C). cbn zeta in *. split; [destruct A as [->|A]; [right; left; reflexivity|right; right; exact A]|]. split; [lra|].
    intros z [->|H]; [lra|auto].
  - apply not_true_iff_false in E. rewrite lt_iff in E. destruct (IH a) as (A & B & C). cbn zeta in *. split; [destruct A as [->|A]; [left; reflexivity|right; right; exact A]|]. split; [lra|].
    intros z [->|H]; [lra|auto].
Qed.
Theorem C119_boundaries : forall runs,
  (forall lo hi, boundaries runs = Ok (lo, hi) -> good_run runs lo /\ good_run runs hi /\ forall v, good_run runs v -> lo <= v <= hi) /\
  (boundaries runs = Raise ValueError <-> forall v, ~ good_run runs v) /\
  ((exists lo hi, boundaries runs = Ok (lo, hi)) <-> exists v, good_run runs v).
Proof.
  intro runs. unfold boundaries. assert (U := usable_iff runs). destruct (usable runs) as [|x l]; cbn [least_of greatest_of].
  - split; [discriminate|]. split; [split; [intros _ v H; apply U in H; exact H|reflexivity]|]. split; [intros (lo & hi & H); discriminate|intros [v H]; apply U in H; destruct H].
  - destruct (fold_least l x) as (A & B & C), (fold_greatest l x) as (A' & B' & C'). cbn zeta in *.
    set (lo := fold_left (fun a y => if lt y a then y else a) l x) in *. set (hi := fold_left (fun a y => if lt a y then y else a) l x) in *. split.
    + intros lo' hi' H. assert (H1 : lo' = lo) by congruence. assert (H2 : hi' = hi) by congruence. subst lo' hi'. split; [apply U; destruct A as [->|A]; [left; reflexivity|right; exact A]|].
      split; [apply U; destruct A' as [->|A']; [left; reflexivity|right; exact A']|]. intros v V. apply U in V. destruct V as [->|V]; [lra|]. split; auto.
    + split; [split; [discriminate|intro N; exfalso; apply (N x); apply U; left; reflexivity]|]. split; [intros _; exists x; apply U; left; reflexivity|]. intros _. exists lo, hi. reflexivity.
Qed.
Print Assumptions C119_boundaries.
Example C119_case : boundaries [(Some 3, Some 3); (Some 1, None); (Some 7, Some 2); (Some 2, Some 2)] = Ok (2, 7).
Proof. reflexivity. Qed.
