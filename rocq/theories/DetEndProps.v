(** Theorems about how the detached step begins and ends, and about spins at the match to single stars. *)
From Coq Require Import Reals String Bool List Lra.
From Verif Require Import PyBase FlowChartModel FlowChartSpec FlowChartProofs RealLemmas OrbitModel OrbitProofs OrbitProps InspiralModel DetachedModel DetachedProps DetStepModel.
Import ListNotations.
Open Scope string_scope.
Open Scope R_scope.
Open Scope list_scope.

(** ** Specification *)
(** Orbits that follow Kepler's law as the code has it. *)
Definition keplerian (o : orbit) (m1 m2 : R) : Prop := 0 < o_sep o /\ (o_period o / 365.25) ^ 2 * (m1 + m2) = (o_sep o / 214.95) ^ 3 /\ 0 < o_period o.
(** Hydrogen-rich and helium-rich stars that can still evolve; two states are both. *)
Definition young_H (s : star_state) : Prop :=
  In s [HR_Core_H_burning; HR_Core_He_burning; HR_Shell_H_burning; HR_Core_He_depleted; HR_Shell_He_burning; HR_Core_C_burning; HR_non_burning;
        acc_Core_H_burning; acc_Shell_H_burning; acc_non_burning].
Definition young_He (s : star_state) : Prop :=
  In s [str_Core_He_burning; str_Core_He_depleted; str_non_burning; acc_Core_He_burning; acc_non_burning; HR_non_burning].
Definition collapsing (s : star_state) : Prop :=
  In s [HR_Core_C_depleted; HR_Core_He_depleted; str_Core_He_depleted; str_Core_C_depleted; str_non_burning; HR_non_burning; HR_Shell_H_burning;
        acc_Shell_H_burning; acc_non_burning].
Definition overflowing (w : who) : bin_state * event := match w with Star1 => (RLO1, oRLO1) | Star2 => (RLO2, oRLO2) end.
Definition collapse (w : who) : event := match w with Star1 => CC1 | Star2 => CC2 end.
Definition flip (w : who) : who := match w with Star1 => Star2 | Star2 => Star1 end.
(** No event at time 0. *)
Definition later (f : found) : Prop := forall t, In (Some t) [at_sec_RLO f; at_pri_RLO f; at_sec_end f; at_pri_end f] -> 0 < t.

(** ** Helper lemmas *)
Lemma inb_In (s : star_state) l : star_in s l = true <-> In s l.
Proof.
  unfold star_in. induction l as [|x l IH]; cbn [inb In]; [split; [discriminate|tauto]|].
  destruct (star_eqb_spec s x) as [E|N]; cbn [orb].
  - split; [intros _; left; symmetry; exact E|reflexivity].
  - rewrite IH. split; [tauto|intros [E|H]; [destruct (N (eq_sym E))|exact H]].
Qed.
Lemma young_H_iff s : evolvable_H s = true <-> young_H s.
Proof. unfold evolvable_H, young_H. rewrite inb_In. vm_compute. tauto. Qed.
Lemma young_He_iff s : evolvable_He s = true <-> young_He s.
Proof. unfold evolvable_He, young_He. rewrite inb_In. vm_compute. tauto. Qed.
Lemma collapsing_iff s : star_in s STAR_STATES_CC = true <-> collapsing s.
Proof. apply inb_In. Qed.
Lemma period_unique P a m1 m2 : 0 < a -> 0 < P -> 0 < m1 + m2 -> (P / 365.25) ^ 2 * (m1 + m2) = (a / 214.95) ^ 3 -> P = orbital_period_from_separation a m1 m2.
Proof.
  intros HA HP HM E. assert (L := period_law a m1 m2 HA HM). assert (Q := period_pos a m1 m2). unfold dayyer, aursun in L.
  set (P' := orbital_period_from_separation a m1 m2) in *. clearbody P'. rewrite <- E in L.
  apply Rmult_eq_reg_r in L; [|lra]. assert (P' / 365.25 = P / 365.25) by (apply square_inj; [apply Rlt_le, Rdiv_lt_0_compat; lra|apply Rlt_le, Rdiv_lt_0_compat; lra|exact L]). lra.
Qed.
Lemma Rpower_15_sq f : 0 < f -> Rpower f 1.5 ^ 2 = f ^ 3.
Proof.
  intro F. cbn [pow]. rewrite !Rmult_1_r, <- Rpower_plus. replace (1.5 + 1.5) with (INR 3) by (cbn; lra). rewrite Rpower_pow by exact F. cbn [pow]. ring.
Qed.
Lemma happened_later t : (forall x, t = Some x -> 0 < x) -> happened t = match t with Some _ => true | None => false end.
Proof. intro H. destruct t as [x|]; [|reflexivity]. cbn. destruct (Req_EM_T x 0) as [->|]; [|reflexivity]. specialize (H 0 eq_refl). lra. Qed.

(** ** C100: the orbit at the onset of overflow *)
(** The circular orbit obeys Kepler's law, so the assertion never fails; it is the one at periastron, or the one with the same angular momentum. *)
Theorem C100_orbit : forall same_am e o m1 m2, 0 <= e < 1 -> 0 < m1 -> 0 < m2 -> keplerian o m1 m2 ->
  let o' := circularized same_am e o in
  keplerian o' m1 m2 /\ abs_diff_porb o' m1 m2 = 0 /\ o_ecc o' = 0 /\
  (same_am = false -> o_sep o' = o_sep o * (1 - e)) /\
  (same_am = true -> o_sep o' * (1 - 0 ^ 2) = o_sep o * (1 - e ^ 2)).
Proof.
  intros sa e o m1 m2 E H1 H2 (A & K & P) o'.
  set (f := if sa then 1 - e ^ 2 else 1 - e). assert (F : 0 < f) by (destruct E; unfold f; destruct sa; [replace (1 - e ^ 2) with ((1 - e) * (1 + e)) by ring; apply Rmult_lt_0_compat; lra|lra]).
  assert (K' : keplerian o' m1 m2).
  { unfold o', circularized, keplerian. cbn [o_sep o_period]. fold f. split; [apply Rmult_lt_0_compat; assumption|]. split; [|apply Rmult_lt_0_compat; [assumption|apply Rpower_pos]].
    replace ((o_period o * Rpower f 1.5 / 365.25) ^ 2 * (m1 + m2)) with ((o_period o / 365.25) ^ 2 * (m1 + m2) * Rpower f 1.5 ^ 2) by (unfold Rdiv; ring).
    rewrite K, Rpower_15_sq by exact F. unfold Rdiv. ring. }
  split; [exact K'|]. split; [|split; [reflexivity|]].
  - destruct K' as (A' & K' & P'). unfold abs_diff_porb. rewrite <- (period_unique _ _ m1 m2 A' P' ltac:(lra) K').
    replace (o_period o' - o_period o') with 0 by ring. rewrite Rabs_R0. unfold Rdiv. ring.
  - split; intros ->; unfold o', circularized; cbn [o_sep]; [reflexivity|ring].
Qed.
Print Assumptions C100_orbit.
(** At periastron the star that has just reached 95 per cent of its Roche lobe still does so in the circular orbit; keeping the angular momentum
    it falls below, by the factor 1 + e. *)
Theorem C100_filling : forall s c e o, 0 < mass s -> 0 < mass c -> 0 <= e < 1 -> 0 < o_sep o -> ev_rlo s c (o_sep o) e = Some 0 ->
  ev_rlo s c (o_sep (circularized false e o)) 0 = Some 0 /\
  exists v RL, ev_rlo s c (o_sep (circularized true e o)) 0 = Some v /\ roche_of (Some (mass s)) (Some (mass c)) (Some (o_sep (circularized true e o))) = Some RL /\
    radius s = 0.95 * RL / (1 + e) /\ (0 < e -> v < 0).
Proof.
  intros s c e o Hs Hc E A R0. unfold ev_rlo in *.
  rewrite roche_value in R0 by (try assumption; nra). set (k := lobe (Rpower (mass s / mass c) (1 / 3))) in *.
  assert (R : radius s = 0.95 * ((1 - e) * o_sep o * k)) by (apply (f_equal (fun x => match x with Some y => y | None => 0 end)) in R0; lra).
  destruct (C18_numbers (mass s) (mass c) 1 Hs Hc ltac:(lra)) as (r & r' & Q & _ & B & _).
  assert (V := roche_value (mass s) (mass c) 1 Hs Hc ltac:(lra)). rewrite Q in V. apply (f_equal (fun x => match x with Some y => y | None => 0 end)) in V. fold k in V.
  assert (KP : 0 < k) by lra.
  assert (S1 : 0 < o_sep o * (1 - e)) by (apply Rmult_lt_0_compat; lra).
  assert (S2 : 0 < o_sep o * (1 - e ^ 2)) by (replace (1 - e ^ 2) with ((1 - e) * (1 + e)) by ring; apply Rmult_lt_0_compat; [lra|apply Rmult_lt_0_compat; lra]).
  unfold circularized. cbn [o_sep]. split.
  - rewrite roche_value by (try assumption; lra). fold k. f_equal. rewrite R. ring.
  - eexists. eexists. rewrite !roche_value by (try assumption; lra). fold k. split; [reflexivity|]. split; [reflexivity|]. split.
    + rewrite R. field. lra.
    + intro EP. rewrite R. assert (0 < o_sep o * k) by (apply Rmult_lt_0_compat; assumption).
      replace (0.95 * ((1 - e) * o_sep o * k) - 0.95 * ((1 - 0) * (o_sep o * (1 - e ^ 2)) * k)) with (- (0.95 * (e * (1 - e)) * (o_sep o * k))) by ring.
      apply Ropp_lt_gt_0_contravar. apply Rmult_lt_0_compat; [nra|assumption].
Qed.
Print Assumptions C100_filling.

(** ** C100: the end *)
Section End_.
  Variable x : setup.
  Variable f : found.
  Let sec := flip (primary x).
  Let pri := primary x.
  Let m (w : who) := match w with Star1 => mass1 x | Star2 => mass2 x end.
  Let st (w : who) := match w with Star1 => state1 x | Star2 => state2 x end.
  Hypothesis LATER : later f.
  Hypothesis M1 : 0 < mass1 x.
  Hypothesis M2 : 0 < mass2 x.
  Hypothesis ECC : 0 <= e_end f < 1.
  Hypothesis KEPLER : keplerian (borbit x) (m sec) (m pri).
  Lemma hap t : In t [at_sec_RLO f; at_pri_RLO f; at_sec_end f; at_pri_end f] -> happened t = match t with Some _ => true | None => false end.
  Proof using LATER. intro I. apply happened_later. intros y ->. apply LATER. exact I. Qed.
  Lemma no_assert : Rlt (abs_diff_porb (circularized (same_am x) (e_end f) (borbit x)) (of_star (other (primary x)) (mass1 x) (mass2 x)) (of_star (primary x) (mass1 x) (mass2 x))) 0.01.
  Proof using M1 M2 ECC KEPLER.
    assert (P : forall w, 0 < m w) by (intros []; assumption).
    destruct (C100_orbit (same_am x) (e_end f) (borbit x) _ _ ECC (P sec) (P pri) KEPLER) as (_ & Z & _).
    unfold m, sec, pri in Z. destruct (primary x); cbn in Z |- *; rewrite Z; lra.
  Qed.
  Theorem C100_compact : pri_co x = true -> sec_co x = true -> finish x f = Ending (bstate x) (bevent x) (borbit x) false false None.
  Proof using. intros A B. unfold finish. rewrite A, B. reflexivity. Qed.
  (** Overflow of star w, the secondary if both: the circular orbit, state and event of that star; two young stars of which one at least is
      hydrogen-rich cannot go on, unless the step for them exists. *)
  Theorem C100_overflow : forall w, (pri_co x = false \/ sec_co x = false) ->
    (at_sec_RLO f <> None /\ w = sec) \/ (at_sec_RLO f = None /\ at_pri_RLO f <> None /\ w = pri) ->
    let o' := circularized (same_am x) (e_end f) (borbit x) in
    let mixed := (young_He (state1 x) /\ young_H (state2 x)) \/ (young_H (state1 x) /\ young_He (state2 x)) in
    let both := young_H (state1 x) /\ young_H (state2 x) in
    let e := finish x f in
    d_orbit e = o' /\ d_final1 e = false /\ d_final2 e = false /\
    (with_HMS_HMS_RLO x = true \/ (~ mixed /\ ~ both) -> (d_state e, d_event e) = overflowing w /\ d_error e = None) /\
    (with_HMS_HMS_RLO x = false -> mixed -> d_state e = BOther "ERR" /\ d_event e = EvFAILED /\ d_error e = Some FlowError) /\
    (with_HMS_HMS_RLO x = false -> ~ mixed -> both -> d_state e = BOther "ERR" /\ d_event e = EvFAILED /\ d_error e = Some (OtherError "ClassificationError")).
  Proof using LATER M1 M2 ECC KEPLER.
    intros w CO W o' mixed both. unfold finish. assert (C : pri_co x && sec_co x = false) by (destruct CO as [-> | ->]; [reflexivity|apply andb_false_r]). rewrite C.
    rewrite (hap (at_sec_RLO f)) by (left; reflexivity). rewrite (hap (at_pri_RLO f)) by (right; left; reflexivity).
    set (o1 := match at_sec_RLO f with Some _ => true | None => false end). set (o2 := match at_pri_RLO f with Some _ => true | None => false end).
    assert (T : o1 || o2 = true /\ (if o1 then other (primary x) else primary x) = w).
    { unfold o1, o2. destruct W as [[N ->]|[N [N' ->]]].
      - destruct (at_sec_RLO f); [|destruct (N eq_refl)]. split; [reflexivity|]. unfold sec. destruct (primary x); reflexivity.
      - rewrite N. destruct (at_pri_RLO f); [|destruct (N' eq_refl)]. split; reflexivity. }
    destruct T as [T1 T2]. rewrite T1. destruct (Rlt_dec _ 0.01) as [_|N]; [|destruct (N no_assert)]. rewrite T2. fold o'.
    unfold overflow.
    assert (MX : (evolvable_He (state1 x) && evolvable_H (state2 x)) || (evolvable_H (state1 x) && evolvable_He (state2 x)) = true <-> mixed).
    { unfold mixed. rewrite orb_true_iff, !andb_true_iff, !young_H_iff, !young_He_iff. reflexivity. }
    assert (BX : evolvable_H (state1 x) && evolvable_H (state2 x) = true <-> both) by (unfold both; rewrite andb_true_iff, !young_H_iff; reflexivity).
    destruct (_ || _) eqn:EM in |- *; destruct (evolvable_H (state1 x) && evolvable_H (state2 x)) eqn:EB; destruct (with_HMS_HMS_RLO x); cbn [negb andb];
      destruct w; cbn; repeat split; try reflexivity; intros; try discriminate; try (exfalso; intuition congruence).
    all: repeat match goal with H : ?b = true <-> ?P |- _ => first [assert P by (apply H; reflexivity) | assert (~ P) by (intro Z; apply H in Z; congruence)]; clear H end; exfalso; intuition congruence.
  Qed.
  (** The end of the track of the secondary, without overflow. *)
  Theorem C100_collapse : (pri_co x = false \/ sec_co x = false) -> at_sec_RLO f = None -> at_pri_RLO f = None ->
    let e := finish x f in
    (at_sec_end f <> None ->
       d_state e = bstate x /\ d_event e = collapse sec /\ d_orbit e = borbit x /\
       (match sec with Star1 => d_final1 e | Star2 => d_final2 e end) = true /\
       (d_error e = Some (OtherError "POSYDONError") <-> pri_co x = false /\ collapsing (st pri) /\ m pri <> m sec) /\
       (d_error e = None <-> ~ (pri_co x = false /\ collapsing (st pri) /\ m pri <> m sec))) /\
    (at_sec_end f = None -> at_pri_end f <> None ->
       d_state e = bstate x /\ d_event e = collapse pri /\ d_orbit e = borbit x /\ d_error e = None /\
       (d_final1 e, d_final2 e) = match pri with Star1 => (true, false) | Star2 => (false, true) end) /\
    (at_sec_end f = None -> at_pri_end f = None ->
       e = Ending (bstate x) (if Rlt_dec (max_simulation_time x) (time_end x) then MaxTime_exceeded else maxtime) (borbit x) false false None).
  Proof using LATER.
    clear KEPLER ECC M1 M2. intros CO N1 N2. unfold finish. assert (C : pri_co x && sec_co x = false) by (destruct CO as [-> | ->]; [reflexivity|apply andb_false_r]). rewrite C.
    rewrite N1, N2. cbn [happened orb]. rewrite (hap (at_sec_end f)) by (right; right; left; reflexivity). rewrite (hap (at_pri_end f)) by (right; right; right; left; reflexivity).
    split; [|split].
    - destruct (at_sec_end f) as [t|]; [intros _|intro Z; destruct (Z eq_refl)].
      assert (S : sec = other (primary x)) by (unfold sec; destruct (primary x); reflexivity).
      assert (MM : of_star (primary x) (mass1 x) (mass2 x) = m pri /\ of_star (other (primary x)) (mass1 x) (mass2 x) = m sec /\ of_star (primary x) (state1 x) (state2 x) = st pri)
        by (unfold m, pri, sec, st; destruct (primary x); repeat split; reflexivity).
      destruct MM as (-> & -> & ->). rewrite <- S.
      cbn [d_state d_event d_orbit d_error d_final1 d_final2]. split; [reflexivity|]. split; [destruct sec; reflexivity|]. split; [reflexivity|].
      split; [destruct sec; reflexivity|].
      assert (CC := collapsing_iff (st pri)).
      destruct (pri_co x); cbn [negb andb]; [split; split; intros; try discriminate; try reflexivity; intuition congruence|].
      destruct (star_in (st pri) STAR_STATES_CC); cbn [andb].
      + assert (K : collapsing (st pri)) by (apply CC; reflexivity). destruct (Req_EM_T (m pri) (m sec)) as [Q|Q]; split; split; intros; try discriminate; try reflexivity; tauto.
      + assert (K : ~ collapsing (st pri)) by (intro Z; apply CC in Z; discriminate). split; split; intros; try discriminate; try reflexivity; tauto.
    - intros -> P. destruct (at_pri_end f) as [t|]; [|destruct (P eq_refl)]. unfold pri. destruct (primary x); repeat split; reflexivity.
    - intros -> ->. f_equal. destruct (Rlt_dec (max_simulation_time x - time_end x) 0), (Rlt_dec (max_simulation_time x) (time_end x)); try reflexivity; exfalso; lra.
  Qed.
End End_.
Print Assumptions C100_compact.
Print Assumptions C100_overflow.
Print Assumptions C100_collapse.

(** The final values of the other star are stored as well exactly if it would end at the same time. *)
Theorem C100_simultaneous : forall x f t, at_sec_RLO f = None -> at_pri_RLO f = None -> at_sec_end f = Some t -> 0 < t -> pri_co x = false ->
  (match primary x with Star1 => d_final1 (finish x f) | Star2 => d_final2 (finish x f) end = true <->
   collapsing (match primary x with Star1 => state1 x | Star2 => state2 x end) /\ m_time1 x = m_time2 x).
Proof.
  intros x f t N1 N2 E T CO. unfold finish. rewrite CO, N1, N2, E. cbn [andb happened orb].
  destruct (Req_EM_T t 0); [lra|]. rewrite <- collapsing_iff.
  destruct (primary x); cbn [of_star other negb andb d_final1 d_final2];
    (destruct (star_in _ STAR_STATES_CC); destruct (Req_EM_T (m_time1 x) (m_time2 x)); cbn [andb]; intuition congruence).
Qed.
Print Assumptions C100_simultaneous.

(** The error that both stars are ready for collapse is not confined to stars at the end of their tracks, nor symmetric: if star 2 collapses while
    star 1 burns hydrogen in a shell, it is raised; if star 1 collapses while star 2 does, it is not. *)
Definition giant_and_collapsing : setup :=
  Setup Star1 false false HR_Shell_H_burning HR_Core_C_depleted 15 16 2e7 1.2e7 detached EvNone (Orbit 5000 1 0) 1.2e7 1e10 false false.
Definition mirror_image : setup :=
  Setup Star1 false false HR_Core_C_depleted HR_Shell_H_burning 16 15 1.2e7 2e7 detached EvNone (Orbit 5000 1 0) 1.2e7 1e10 false false.
Theorem C100_collapse_refuted :
  ~ (forall x f, d_error (finish x f) = Some (OtherError "POSYDONError") -> m_time1 x = m_time2 x) /\
  determine_star_states HR_Shell_H_burning HR_Core_C_depleted = Ok (Roles Star1 false true false true false) /\
  determine_star_states HR_Core_C_depleted HR_Shell_H_burning = Ok (Roles Star1 false true false true false) /\
  d_error (finish giant_and_collapsing (Found None None (Some 1.2e7) None 0)) = Some (OtherError "POSYDONError") /\
  d_error (finish mirror_image (Found None None None (Some 1.2e7) 0)) = None.
Proof.
  assert (E : d_error (finish giant_and_collapsing (Found None None (Some 1.2e7) None 0)) = Some (OtherError "POSYDONError")).
  { unfold finish, giant_and_collapsing. cbn [pri_co sec_co andb at_sec_RLO at_pri_RLO at_sec_end at_pri_end happened orb]. destruct (Req_EM_T 1.2e7 0); [exfalso; lra|].
    cbn [d_error primary pri_co negb of_star state1 state2 mass1 mass2 other]. change (star_in HR_Shell_H_burning STAR_STATES_CC) with true. cbn [andb].
    destruct (Req_EM_T 15 16); [exfalso; lra|]. reflexivity. }
  split; [|split; [reflexivity|split; [reflexivity|split; [exact E|]]]].
  - intro H. assert (X := H _ _ E). cbn in X. lra.
  - unfold finish, mirror_image. cbn [pri_co sec_co andb at_sec_RLO at_pri_RLO at_sec_end at_pri_end happened orb]. destruct (Req_EM_T 1.2e7 0); [exfalso; lra|]. reflexivity.
Qed.
Print Assumptions C100_collapse_refuted.

(** ** C100: the next step *)
(** With the default flow chart, overflow is followed by a step exactly if the donor is not depleted in carbon and the other star is a compact
    object, or both are helium-rich. *)
Definition helium_rich (s : star_state) : Prop :=
  In s [str_Core_He_burning; str_Core_He_depleted; str_Core_C_depleted; str_non_burning; acc_Core_He_burning; acc_non_burning; HR_non_burning].
Definition compact_object (s : star_state) : Prop := In s [WD; NS; BH].
Definition normal (s : star_state) : Prop := young_H s \/ young_He s \/ In s [HR_Core_C_depleted; str_Core_C_depleted].
Lemma incl_In (l l' : list star_state) : (forall y, In y l -> In y l') -> forall y, In y l -> In y l'.
Proof. auto. Qed.
Definition normals : list star_state :=
  [HR_Core_H_burning; HR_Core_He_burning; HR_Shell_H_burning; HR_Core_He_depleted; HR_Shell_He_burning; HR_Core_C_burning; HR_non_burning;
   acc_Core_H_burning; acc_Shell_H_burning; acc_non_burning; str_Core_He_burning; str_Core_He_depleted; str_non_burning; acc_Core_He_burning;
   HR_Core_C_depleted; str_Core_C_depleted].
Definition next_rule (donor acc : star_state) : bool :=
  (star_in acc [WD; NS; BH] && negb (star_in donor [HR_Core_C_depleted; str_Core_C_depleted])) ||
  (star_in donor [str_Core_He_burning; str_Core_He_depleted; str_Core_C_depleted; str_non_burning; acc_Core_He_burning; acc_non_burning; HR_non_burning] &&
   star_in acc [str_Core_He_burning; str_Core_He_depleted; str_Core_C_depleted; str_non_burning; acc_Core_He_burning; acc_non_burning; HR_non_burning]).
Definition some {A} (x : option A) : bool := match x with Some _ => true | None => false end.
Definition next_check : bool :=
  forallb (fun d => forallb (fun a => negb (star_in d normals && star_in a (normals ++ [WD; NS; BH])) ||
    (Bool.eqb (some (spec_step d a RLO1 oRLO1)) (next_rule d a) && Bool.eqb (some (spec_step a d RLO2 oRLO2)) (next_rule d a))) STAR_STATES_ALL) STAR_STATES_ALL.
Lemma NextCheck : next_check = true.
Proof. vm_compute. reflexivity. Qed.
Theorem C100_next : forall w s1 s2, let donor := match w with Star1 => s1 | Star2 => s2 end in let acc := match w with Star1 => s2 | Star2 => s1 end in
  normal donor -> normal acc \/ compact_object acc ->
  (chart_get POSYDON_FLOW_CHART (Key s1 s2 (fst (overflowing w)) (snd (overflowing w))) <> None <->
   (compact_object acc /\ ~ In donor [HR_Core_C_depleted; str_Core_C_depleted]) \/ (helium_rich donor /\ helium_rich acc)).
Proof.
  intros w s1 s2 donor acc D A. rewrite chart_is_spec.
  assert (KD : In donor STAR_STATES_ALL) by (destruct D as [D|[D|D]]; revert D; apply incl_In; vm_compute; tauto).
  assert (KA : In acc STAR_STATES_ALL) by (destruct A as [[A|[A|A]]|A]; revert A; apply incl_In; vm_compute; tauto).
  assert (G := NextCheck). unfold next_check in G. rewrite forallb_forall in G. specialize (G donor KD). rewrite forallb_forall in G. specialize (G acc KA).
  assert (ND : star_in donor normals = true) by (apply inb_In; revert D; unfold normal, young_H, young_He; cbn; clear; tauto).
  assert (NA : star_in acc (normals ++ [WD; NS; BH]) = true) by (apply inb_In; apply in_or_app; destruct A as [A|A]; [left; revert A; unfold normal, young_H, young_He; cbn; clear; tauto|right; exact A]).
  rewrite ND, NA in G. cbn [andb negb orb] in G. apply andb_true_iff in G. destruct G as [G1 G2].
  assert (R : (compact_object acc /\ ~ In donor [HR_Core_C_depleted; str_Core_C_depleted]) \/ (helium_rich donor /\ helium_rich acc) <-> next_rule donor acc = true).
  { unfold next_rule. rewrite orb_true_iff, !andb_true_iff, negb_true_iff, <- not_true_iff_false, !inb_In. reflexivity. }
  rewrite R. unfold donor, acc in *. destruct w; cbn [overflowing fst snd]; [set (r := spec_step _ _ _ _) in G1 |- *; apply eqb_prop in G1; rewrite <- G1|set (r := spec_step _ _ _ _) in G2 |- *; apply eqb_prop in G2; rewrite <- G2];
    destruct r; cbn; split; congruence.
Qed.
Print Assumptions C100_next.

(** ** C100: the beginning *)
(** Overflow at the start is found if a star fills 95 per cent of its lobe at periastron, except for a lone compact object. *)
Theorem C100_begin : forall pri sec sep ecc only max_time time, 0 < mass pri -> 0 < mass sec -> 0 < sep -> 0 <= ecc < 1 ->
  let fills := 0.95 * (sep * (1 - ecc) * eggleton (mass pri / mass sec)) <= radius pri \/ 0.95 * (sep * (1 - ecc) * eggleton (mass sec / mass pri)) <= radius sec in
  (begin pri sec sep ecc only max_time time = InitialRLOF <-> fills /\ only = false) /\
  (begin pri sec sep ecc only max_time time = Stops ValueError <-> ~ (fills /\ only = false) /\ max_time <= time) /\
  (begin pri sec sep ecc only max_time time = Integrates <-> ~ (fills /\ only = false) /\ time < max_time).
Proof.
  intros pri sec sep ecc only mt t H1 H2 HS HE fills. destruct (C98_overflow pri sec sep ecc H1 H2 HS HE) as (r1 & r2 & v1 & v2 & E1 & E2 & _ & _ & A & B & _).
  unfold begin. rewrite E1, E2. cbn [ge0].
  assert (F : (if Rle_dec 0 r2 then true else false) || (if Rle_dec 0 r1 then true else false) = true <-> fills).
  { unfold fills. rewrite <- A, <- B. destruct (Rle_dec 0 r2), (Rle_dec 0 r1); cbn; split; intros; try tauto; try reflexivity; try discriminate. }
  destruct (_ || _); destruct only; cbn [andb negb]; destruct (Rlt_dec 0 (mt - t)); repeat split; intros; try discriminate; try reflexivity; try lra; intuition (try congruence; try lra).
Qed.
Print Assumptions C100_begin.

Example C100_case :
  keplerian (Orbit 214.95 365.25 0) (1 / 2) (1 / 2) /\ later (Found (Some 1) None None None (1 / 2)) /\
  normal HR_Core_H_burning /\ compact_object BH /\ young_H HR_non_burning /\ young_He HR_non_burning.
Proof.
  unfold keplerian, later, normal, compact_object, young_H, young_He. cbn. repeat split; try lra; try tauto.
  intros t [H|H]; [injection H as <-; lra|]. intuition discriminate.
Qed.
