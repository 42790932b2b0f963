(** Which binaries the steps with a grid of MESA models take, which they pass on and which they refuse (C113 to C118). *)
From Coq Require Import String List Bool QArith Lqa Lia.
From Verif Require Import PyBase FlowChartModel FlowChartSpec FlowChartRules FlowChartProofs GridEntryModel.
Import ListNotations.
Open Scope string_scope.
Open Scope Q_scope.
Open Scope list_scope.
Opaque POSYDON_FLOW_CHART.

(** ** Vocabulary of the specification *)
Inductive which := First | Second.
Definition state_of (w : which) (x : system) := match w with First => st1 x | Second => st2 x end.
Definition mass_of (w : which) (x : system) := match w with First => mass1 x | Second => mass2 x end.
Definition other (w : which) := match w with First => Second | Second => First end.
Definition is_second (w : which) : bool := match w with First => false | Second => true end.
Definition collapse (w : which) := match w with First => CC1 | Second => CC2 end.
Definition overflow (w : which) := match w with First => oRLO1 | Second => oRLO2 end.
Definition compact_star (s : star_state) : Prop := s = WD \/ s = NS \/ s = BH.

Definition period_covered (g : grid) (x : system) : Prop := p_min g <= period x <= p_max g.
(** The donor (star 1 of the grid) and the compact object (star 2 of the grid) have masses of the grid. *)
Definition masses_covered (g : grid) (donor accretor : Q) : Prop := m1_min g <= donor <= m1_max g /\ m2_min g <= accretor <= m2_max g.
Definition circular (x : system) : Prop := eccen x == 0.

(** The same binary with the stars exchanged. *)
Definition swap_event (e : event) : event :=
  match e with oRLO1 => oRLO2 | oRLO2 => oRLO1 | CC1 => CC2 | CC2 => CC1 | _ => e end.
Definition swap_state (b : bin_state) : bin_state := match b with RLO1 => RLO2 | RLO2 => RLO1 | _ => b end.
Definition swapped (x : system) : system :=
  System (st2 x) (st1 x) (swap_event (ev x)) (swap_state (bst x)) (mass2 x) (mass1 x) (period x) (eccen x).
Definition swapped_decision (d : decision) : decision :=
  match d with Evolve f => Evolve (negb f) | Return b e => Return (swap_state b) (swap_event e) | Fails x => Fails x end.

(** ** Lemmas *)
Lemma le_iff x y : le x y = true <-> x <= y.
Proof. apply Qle_bool_iff. Qed.
Lemma lt_iff x y : lt x y = true <-> x < y.
Proof. unfold lt. rewrite negb_true_iff, <- not_true_iff_false, Qle_bool_iff. split; intro; lra. Qed.
Lemma within_iff lo x hi : within lo x hi = true <-> lo <= x <= hi.
Proof. unfold within. rewrite andb_true_iff, !le_iff. reflexivity. Qed.
Lemma outside_within lo x hi : outside lo x hi = negb (within lo x hi).
Proof. unfold outside, within, lt, le. rewrite negb_andb. reflexivity. Qed.
Lemma eq_iff x : Qeq_bool x 0 = true <-> x == 0.
Proof. apply Qeq_bool_iff. Qed.
Lemma qmax_le a b c : qmax a b <= c <-> a <= c /\ b <= c.
Proof. unfold qmax. destruct (le a b) eqn:E; [apply le_iff in E|apply not_true_iff_false in E; rewrite le_iff in E]; split; intros; try split; lra. Qed.
Lemma in_iff s l : star_in s l = true <-> In s l.
Proof. unfold star_in. destruct (inb_spec star_eqb_spec s l); split; auto; discriminate. Qed.
Lemma star_is a b : star_eqb a b = true <-> a = b.
Proof. destruct (star_eqb_spec a b); split; auto; discriminate. Qed.
Lemma event_is_iff a b : event_eqb a b = true <-> a = b.
Proof. destruct (event_eqb_spec a b); split; auto; discriminate. Qed.
Lemma compact_iff s : star_in s COMPACT = true <-> compact_star s.
Proof. rewrite in_iff. unfold compact_star. cbn. intuition congruence. Qed.
Lemma swap_event_iff e a : event_eqb (swap_event e) (swap_event a) = event_eqb e a.
Proof.
  assert (I : forall z, swap_event (swap_event z) = z) by (intros []; reflexivity).
  destruct (event_eqb_spec e a) as [->|N]; [apply event_is_iff; reflexivity|]. apply not_true_iff_false. rewrite event_is_iff. intro E.
  apply N. rewrite <- (I e), E, I. reflexivity.
Qed.

(** A binary in which star [w] is a donor of the list and its companion compact, at the beginning of overflow. *)
Definition role (donors : list star_state) (e : which -> event) (x : system) (w : which) : Prop :=
  In (state_of w x) donors /\ compact_star (state_of (other w) x) /\ ev x = e w.
Definition apart (donors : list star_state) : Prop := forall s, In s donors -> ~ compact_star s.
Lemma apart_H : apart FOR_RLO_STATES.
Proof. intros s H [->|[->| ->]]; revert H; cbn; intuition congruence. Qed.
Lemma apart_He : apart CO_He_STATES.
Proof. intros s H [->|[->| ->]]; revert H; cbn; intuition congruence. Qed.

Lemma roles_spec donors dep (e : which -> event) x : apart donors ->
  (forall w, role donors e x w -> roles donors dep (e First) (e Second) x
     = if star_eqb (state_of w x) dep then inr (Return (bst x) (collapse w)) else inl (is_second w)) /\
  ((forall w, ~ role donors e x w) -> roles donors dep (e First) (e Second) x = inr (Fails FlowError)).
Proof.
  intro A. unfold roles, role. split.
  - intros [|] (D & C & E); cbn [state_of other] in *.
    + assert (H1 := C). apply compact_iff in H1. assert (H2 := D). apply in_iff in H2. assert (H3 := E). apply event_is_iff in H3. rewrite H1, H2, H3. reflexivity.
    + assert (H0 : star_in (st2 x) COMPACT = false) by (apply not_true_iff_false; rewrite compact_iff; exact (A _ D)).
      apply compact_iff in C. apply in_iff in D. apply event_is_iff in E. rewrite H0, C, D, E. reflexivity.
  - intro N.
    assert (N1 := N First). assert (N2 := N Second). cbn [state_of other] in N1, N2.
    destruct (star_in (st2 x) COMPACT && star_in (st1 x) donors && event_eqb (ev x) (e First)) eqn:E1.
    { apply andb_true_iff in E1. destruct E1 as [E1 V1]. apply andb_true_iff in E1. destruct E1 as [C1 D1]. apply compact_iff in C1. apply in_iff in D1. apply event_is_iff in V1. tauto. }
    destruct (star_in (st1 x) COMPACT && star_in (st2 x) donors && event_eqb (ev x) (e Second)) eqn:E2; [|reflexivity].
    apply andb_true_iff in E2. destruct E2 as [E2 V2]. apply andb_true_iff in E2. destruct E2 as [C2 D2]. apply compact_iff in C2. apply in_iff in D2. apply event_is_iff in V2. tauto.
Qed.

(** The conditions in terms of the roles. *)
Definition mass_in (g : grid) (w : which) (x : system) : bool :=
  within (m1_min g) (mass_of w x) (m1_max g) && within (m2_min g) (mass_of (other w) x) (m2_max g).
Lemma mass_in_iff g w x : mass_in g w x = true <-> masses_covered g (mass_of w x) (mass_of (other w) x).
Proof. unfold mass_in, masses_covered. rewrite andb_true_iff, !within_iff. reflexivity. Qed.
Lemma period_iff g x : period_in g x = true <-> period_covered g x.
Proof. unfold period_in. apply within_iff. Qed.
Lemma in_grid_role g w x : in_grid g (is_second w) x = mass_in g w x && period_in g x && Qeq_bool (eccen x) 0.
Proof. unfold in_grid, mass_in. destruct w; cbn [is_second negb andb orb mass_of other]; rewrite ?orb_false_r; reflexivity. Qed.

(** ** C113: overflow of a hydrogen-rich star onto a compact object *)
(** The rule for a binary with given roles, as a table. *)
Definition rule (g : grid) (w : which) (x : system) (depleted : star_state) (redirect : event) (d : decision) : Prop :=
  (state_of w x = depleted -> d = Return (bst x) (collapse w)) /\
  (state_of w x <> depleted ->
    (masses_covered g (mass_of w x) (mass_of (other w) x) -> period_covered g x -> circular x -> d = Evolve (is_second w)) /\
    (~ masses_covered g (mass_of w x) (mass_of (other w) x) -> period_covered g x -> d = Fails GridError) /\
    (~ period_covered g x \/ (masses_covered g (mass_of w x) (mass_of (other w) x) /\ ~ circular x) -> d = Return detached redirect)).

Theorem C113_rule : forall g x,
  (forall w, role FOR_RLO_STATES overflow x w -> rule g w x HR_Core_C_depleted redirect_from_CO_HMS_RLO (co_hms_rlo g x)) /\
  ((forall w, ~ role FOR_RLO_STATES overflow x w) -> co_hms_rlo g x = Fails FlowError).
Proof.
  intros g x. destruct (roles_spec FOR_RLO_STATES HR_Core_C_depleted overflow x apart_H) as [R N]. split.
  2: { intro H. unfold co_hms_rlo. change oRLO1 with (overflow First). change oRLO2 with (overflow Second). rewrite (N H). reflexivity. }
  intros w P. specialize (R w P). unfold co_hms_rlo. change oRLO1 with (overflow First). change oRLO2 with (overflow Second). rewrite R.
  unfold rule. rewrite <- mass_in_iff, <- period_iff. unfold circular. rewrite <- eq_iff.
  destruct (star_eqb_spec (state_of w x) HR_Core_C_depleted) as [E|E]; [split; [reflexivity|congruence]|].
  split; [congruence|]. intros _. rewrite in_grid_role, !outside_within. unfold mass_in.
  destruct w; cbn [is_second negb andb mass_of other];
    destruct (within (m1_min g) _ _), (within (m2_min g) _ _), (period_in g x), (Qeq_bool (eccen x) 0); cbn [andb negb];
    (split; [|split]); intros; try reflexivity; try discriminate; exfalso; intuition congruence.
Qed.
Print Assumptions C113_rule.

Theorem C113_mirror : forall g x, co_hms_rlo g (swapped x) = swapped_decision (co_hms_rlo g x).
Proof.
  intros g x. unfold co_hms_rlo, roles, in_grid, period_in, swapped. cbn [st1 st2 ev bst mass1 mass2 period eccen].
  change (event_eqb (swap_event (ev x)) oRLO1) with (event_eqb (swap_event (ev x)) (swap_event oRLO2)).
  change (event_eqb (swap_event (ev x)) oRLO2) with (event_eqb (swap_event (ev x)) (swap_event oRLO1)). rewrite !swap_event_iff.
  destruct (event_eqb_spec (ev x) oRLO1) as [E1|E1], (event_eqb_spec (ev x) oRLO2) as [E2|E2]; [congruence| | |]; rewrite ?andb_false_r, ?andb_true_r.
  - destruct (star_in (st2 x) COMPACT && star_in (st1 x) FOR_RLO_STATES); [|reflexivity]. destruct (star_eqb (st1 x) HR_Core_C_depleted); [reflexivity|].
    cbn [negb andb orb]. rewrite !orb_false_r. repeat (match goal with |- context [if ?c then _ else _] => destruct c end; try reflexivity).
  - destruct (star_in (st1 x) COMPACT && star_in (st2 x) FOR_RLO_STATES); [|reflexivity]. destruct (star_eqb (st2 x) HR_Core_C_depleted); [reflexivity|].
    cbn [negb andb orb]. rewrite !orb_false_r. repeat (match goal with |- context [if ?c then _ else _] => destruct c end; try reflexivity).
  - reflexivity.
Qed.
Print Assumptions C113_mirror.

(** The grids published have about these boundaries. *)
Definition co_grid : grid := Grid (1#2) 120 1 36 (1#2) 3000 (1#20) 1 (1#2).
Definition xrb : system := System HR_Core_H_burning BH oRLO1 RLO1 20 10 5 0.
Example C113_case :
  role FOR_RLO_STATES overflow xrb First /\ co_hms_rlo co_grid xrb = Evolve false /\ co_hms_rlo co_grid (swapped xrb) = Evolve true /\
  co_hms_rlo co_grid (System HR_Core_H_burning BH oRLO1 RLO1 20 10 5 (1#10)) = Return detached redirect_from_CO_HMS_RLO /\
  co_hms_rlo co_grid (System HR_Core_H_burning BH oRLO1 RLO1 20 10 5000 0) = Return detached redirect_from_CO_HMS_RLO /\
  co_hms_rlo co_grid (System HR_Core_H_burning BH oRLO1 RLO1 20 50 5 (1#10)) = Fails GridError /\
  co_hms_rlo co_grid (System HR_Core_H_burning BH oRLO2 RLO2 20 10 5 0) = Fails FlowError.
Proof. split; [|vm_compute; repeat split; reflexivity]. repeat split; cbn; auto. unfold compact_star. auto. Qed.

(** ** C114: overflow of a helium star onto a compact object *)
(** As for hydrogen-rich stars, except that a binary to be passed on is refused if star 1 is more massive than the compact objects of the grid
    or star 2 more massive than its donors, whatever they are. *)
Definition too_heavy (g : grid) (x : system) : Prop := m2_max g < mass1 x \/ m1_max g < mass2 x.
Theorem C114_rule : forall g x,
  (forall w, role CO_He_STATES overflow x w ->
     (~ too_heavy g x -> rule g w x str_Core_C_depleted redirect_from_CO_HeMS_RLO (co_hems_rlo g x)) /\
     (too_heavy g x ->
        (state_of w x = str_Core_C_depleted -> co_hems_rlo g x = Return (bst x) (collapse w)) /\
        (state_of w x <> str_Core_C_depleted ->
           (masses_covered g (mass_of w x) (mass_of (other w) x) /\ period_covered g x /\ circular x -> co_hems_rlo g x = Evolve (is_second w)) /\
           (~ (masses_covered g (mass_of w x) (mass_of (other w) x) /\ period_covered g x /\ circular x) -> co_hems_rlo g x = Fails GridError)))) /\
  ((forall w, ~ role CO_He_STATES overflow x w) -> co_hems_rlo g x = Fails FlowError).
Proof.
  intros g x. destruct (roles_spec CO_He_STATES str_Core_C_depleted overflow x apart_He) as [R N]. split.
  2: { intro H. unfold co_hems_rlo. change oRLO1 with (overflow First). change oRLO2 with (overflow Second). rewrite (N H). reflexivity. }
  intros w P. specialize (R w P). unfold co_hems_rlo. change oRLO1 with (overflow First). change oRLO2 with (overflow Second). rewrite R. clear R N P.
  unfold rule, too_heavy. rewrite <- mass_in_iff, <- period_iff, <- !lt_iff. unfold circular. rewrite <- eq_iff.
  destruct (star_eqb_spec (state_of w x) str_Core_C_depleted) as [E|E]; [split; intros; (split; [reflexivity|congruence])|].
  rewrite in_grid_role, !outside_within. unfold mass_in.
  assert (B : forall lo y hi, within lo y hi = negb (lt y lo) && negb (lt hi y)) by (intros; unfold within, lt, le; rewrite !negb_involutive; reflexivity).
  rewrite !B. clear B.
  destruct w; cbn [is_second negb andb mass_of other].
  - destruct (lt (m2_max g) (mass1 x)), (lt (m1_max g) (mass2 x)), (lt (mass1 x) (m1_min g)), (lt (m1_max g) (mass1 x)), (lt (mass2 x) (m2_min g)), (lt (m2_max g) (mass2 x)), (period_in g x), (Qeq_bool (eccen x) 0); cbn [andb negb orb];
    split; intros H; (split; [intros; congruence|]); intros; repeat split; intros; try reflexivity; try discriminate; exfalso; intuition congruence.
  - destruct (lt (m2_max g) (mass1 x)), (lt (m1_max g) (mass2 x)), (lt (mass1 x) (m2_min g)), (lt (mass2 x) (m1_min g)), (period_in g x), (Qeq_bool (eccen x) 0); cbn [andb negb orb];
    split; intros H; (split; [intros; congruence|]); intros; repeat split; intros; try reflexivity; try discriminate; exfalso; intuition congruence.
Qed.
Print Assumptions C114_rule.

Definition he_grid : grid := Grid (1#2) 80 1 36 (1#50) 1100 (1#20) 1 (1#2).
Definition wide_he : system := System str_Core_He_burning BH oRLO1 RLO1 40 10 2000 0.
Definition light_he : system := System str_Core_He_burning BH oRLO1 RLO1 20 10 2000 0.
(** A helium star of 40 Msun on an orbit wider than the grid is refused; one of 20 Msun is passed on as intended. *)
Theorem C114_wide_refuted :
  ~ (forall g x w, role CO_He_STATES overflow x w -> rule g w x str_Core_C_depleted redirect_from_CO_HeMS_RLO (co_hems_rlo g x)) /\
  masses_covered he_grid (mass1 wide_he) (mass2 wide_he) /\ ~ period_covered he_grid wide_he /\
  co_hems_rlo he_grid wide_he = Fails GridError /\
  co_hems_rlo he_grid light_he = Return detached redirect_from_CO_HeMS_RLO.
Proof.
  assert (M : masses_covered he_grid (mass1 wide_he) (mass2 wide_he)) by (unfold masses_covered; cbn; lra).
  assert (P : ~ period_covered he_grid wide_he) by (unfold period_covered; cbn; lra).
  split; [|repeat split; try apply M; try exact P; try apply P; reflexivity].
  intro H. assert (L : role CO_He_STATES overflow wide_he First) by (unfold role, compact_star; cbn; auto).
  destruct (H he_grid _ _ L) as [_ H2].
  destruct H2 as [_ [_ H2]]; [discriminate|]. assert (C := H2 (or_introl P)). vm_compute in C. discriminate.
Qed.
Print Assumptions C114_wide_refuted.
Example C114_case :
  role CO_He_STATES overflow light_he First /\ ~ too_heavy he_grid light_he /\ too_heavy he_grid wide_he /\
  co_hems_rlo he_grid (System str_Core_He_burning BH oRLO1 RLO1 40 10 5 0) = Evolve false /\
  co_hems_rlo he_grid (System BH str_Core_He_burning oRLO2 RLO2 10 40 5 0) = Evolve true /\
  co_hems_rlo he_grid (System BH str_Core_He_burning oRLO2 RLO2 10 40 2000 0) = Return detached redirect_from_CO_HeMS_RLO.
Proof.
  split; [unfold role, compact_star; cbn; auto|]. split; [unfold too_heavy; cbn; lra|]. split; [unfold too_heavy; cbn; lra|]. vm_compute. repeat split; reflexivity.
Qed.
(** So the fate depends on which star is called star 1. *)
Theorem C114_mirror_refuted : ~ (forall g x, co_hems_rlo g (swapped x) = swapped_decision (co_hems_rlo g x)) /\
  co_hems_rlo he_grid wide_he = Fails GridError /\ co_hems_rlo he_grid (swapped wide_he) = Return detached redirect_from_CO_HeMS_RLO.
Proof.
  split; [|split; reflexivity]. intro H. specialize (H he_grid wide_he). vm_compute in H. discriminate.
Qed.
Print Assumptions C114_mirror_refuted.

(** ** C115: a detached helium star with a compact object *)
Definition nothing (w : which) : event := EvNone.
Theorem C115_rule : forall g x,
  (forall w, role CO_He_STATES nothing x w ->
     (state_of w x = str_Core_C_depleted -> co_hems g x = Return (bst x) (collapse w)) /\
     (state_of w x <> str_Core_C_depleted ->
        (masses_covered g (mass_of w x) (mass_of (other w) x) -> period_covered g x -> circular x -> co_hems g x = Evolve (is_second w)) /\
        (~ (masses_covered g (mass_of w x) (mass_of (other w) x) /\ period_covered g x /\ circular x) ->
           (~ masses_covered g (mass1 x) (mass2 x) -> period_covered g x -> co_hems g x = Fails GridError) /\
           (~ period_covered g x \/ masses_covered g (mass1 x) (mass2 x) -> co_hems g x = Return detached redirect_from_CO_HeMS)))) /\
  (role CO_He_STATES nothing x First -> rule g First x str_Core_C_depleted redirect_from_CO_HeMS (co_hems g x)) /\
  ((forall w, ~ role CO_He_STATES nothing x w) -> co_hems g x = Fails FlowError).
Proof.
  intros g x. destruct (roles_spec CO_He_STATES str_Core_C_depleted nothing x apart_He) as [R N].
  assert (A : forall w, role CO_He_STATES nothing x w ->
     (state_of w x = str_Core_C_depleted -> co_hems g x = Return (bst x) (collapse w)) /\
     (state_of w x <> str_Core_C_depleted ->
        (masses_covered g (mass_of w x) (mass_of (other w) x) -> period_covered g x -> circular x -> co_hems g x = Evolve (is_second w)) /\
        (~ (masses_covered g (mass_of w x) (mass_of (other w) x) /\ period_covered g x /\ circular x) ->
           (~ masses_covered g (mass1 x) (mass2 x) -> period_covered g x -> co_hems g x = Fails GridError) /\
           (~ period_covered g x \/ masses_covered g (mass1 x) (mass2 x) -> co_hems g x = Return detached redirect_from_CO_HeMS)))).
  { intros w P. specialize (R w P). unfold co_hems. change (roles CO_He_STATES str_Core_C_depleted EvNone EvNone x) with (roles CO_He_STATES str_Core_C_depleted (nothing First) (nothing Second) x). rewrite R. clear R N P.
    change (masses_covered g (mass1 x) (mass2 x)) with (masses_covered g (mass_of First x) (mass_of (other First) x)). rewrite <- !mass_in_iff, <- period_iff. unfold circular. rewrite <- eq_iff.
    destruct (star_eqb_spec (state_of w x) str_Core_C_depleted) as [E|E]; [split; [reflexivity|congruence]|]. split; [congruence|]. intros _. rewrite in_grid_role, !outside_within.
    unfold mass_in. destruct w; cbn [is_second negb andb mass_of other].
    - destruct (within (m1_min g) (mass1 x) _), (within (m2_min g) (mass2 x) _), (period_in g x), (Qeq_bool (eccen x) 0); cbn [andb negb];
      (split; [intros; try reflexivity; try discriminate; exfalso; intuition congruence|]); intros H; split; intros; try reflexivity; try discriminate; exfalso; intuition congruence.
    - destruct (within (m1_min g) (mass1 x) _), (within (m2_min g) (mass2 x) _), (within (m1_min g) (mass2 x) _), (within (m2_min g) (mass1 x) _), (period_in g x), (Qeq_bool (eccen x) 0); cbn [andb negb];
      (split; [intros; try reflexivity; try discriminate; exfalso; intuition congruence|]); intros H; split; intros; try reflexivity; try discriminate; exfalso; intuition congruence. }
  split; [exact A|]. split.
  - intro P. destruct (A First P) as [A1 A2]. split; [exact A1|]. intro D. destruct (A2 D) as [B1 B2]. cbn [mass_of other] in *. split; [exact B1|]. split.
    + intros M. apply B2; tauto.
    + intros M. apply B2; tauto.
  - intro H. unfold co_hems. change (roles CO_He_STATES str_Core_C_depleted EvNone EvNone x) with (roles CO_He_STATES str_Core_C_depleted (nothing First) (nothing Second) x). rewrite (N H). reflexivity.
Qed.
Print Assumptions C115_rule.
(** With the compact object as star 1, masses of the grid are refused when the orbit is eccentric, and masses outside of it passed on. *)
Definition eccentric_he : system := System str_Core_He_burning BH EvNone detached 40 10 5 (1#10).
Definition heavy_hole : system := System str_Core_He_burning BH EvNone detached 20 50 5 0.
Theorem C115_mirror_refuted : ~ (forall g x, co_hems g (swapped x) = swapped_decision (co_hems g x)) /\
  co_hems he_grid eccentric_he = Return detached redirect_from_CO_HeMS /\ co_hems he_grid (swapped eccentric_he) = Fails GridError /\
  co_hems he_grid heavy_hole = Fails GridError /\ co_hems he_grid (swapped heavy_hole) = Return detached redirect_from_CO_HeMS.
Proof.
  split; [|repeat split; reflexivity]. intro H. specialize (H he_grid heavy_hole). vm_compute in H. discriminate.
Qed.
Print Assumptions C115_mirror_refuted.
Example C115_case :
  let x := System str_Core_He_burning BH EvNone detached 20 10 5 0 in
  role CO_He_STATES nothing x First /\ co_hems he_grid x = Evolve false /\ co_hems he_grid (swapped x) = Evolve true /\
  co_hems he_grid (System str_Core_C_depleted BH EvNone detached 20 10 5 0) = Return detached CC1.
Proof. cbn zeta. split; [unfold role, compact_star; cbn; auto|]. vm_compute. repeat split; reflexivity. Qed.
