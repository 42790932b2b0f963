(** What the common envelope step does to the binary (C90) and how much mass a merger loses (C91). *)
From Coq Require Import Reals String Bool List Lra.
From Verif Require Import PyBase RealLemmas KickModel OrbitModel OrbitProofs OrbitProps CEEModel CEEOrbitProps.
From Verif Require FlowChartModel FlowChartSpec FlowChartProofs MergeModel BinaryModel.
Import ListNotations.
Open Scope string_scope.
Open Scope R_scope.
Open Scope list_scope.

(** ** C90 *)
Definition star_no (d : bool) (one two : string) : string := if d then one else two.
(** The event of a common envelope: which star is the donor, and whether both lose their envelopes. *)
Definition ce_event (d double : bool) : string :=
  match d, double with true, false => "oCE1" | true, true => "oDoubleCE1" | false, false => "oCE2" | false, true => "oDoubleCE2" end.
Definition merges_at_once (c : config) (s : val) : Prop :=
  s = VText "H-rich_Core_H_burning" \/ s = VText "stripped_He_Core_He_burning" \/ s = VText "accreted_He_Core_He_burning" \/
  (s = VText "H-rich_Shell_H_burning" /\ option_for_HG c = "pessimistic").
(** Donors with a helium core or a CO core. *)
Definition hydrogen_giant (s : val) : Prop := exists t, s = VText t /\ In t ["H-rich_Core_H_burning"; "H-rich_Shell_H_burning";
  "H-rich_Core_He_burning"; "H-rich_Core_He_depleted"; "H-rich_Core_C_depleted"; "H-rich_non_burning"; "accreted_He_non_burning"].
Definition helium_giant (s : val) : Prop := exists t, s = VText t /\ In t ["accreted_He_Core_He_burning"; "stripped_He_Core_He_burning";
  "stripped_He_Core_He_depleted"; "stripped_He_Core_C_depleted"; "stripped_He_non_burning"].

Lemma mem_in k l : mem k l = true <-> In k l.
Proof.
  unfold mem. rewrite existsb_exists. split.
  - intros (x & I & E). apply String.eqb_eq in E. now subst.
  - intros I. exists k. split; [easy|apply String.eqb_refl].
Qed.
Lemma is_in_spec v l : is_in v l = true <-> exists t, v = VText t /\ In t l.
Proof.
  unfold is_in. destruct v; try (split; [discriminate|intros (t & E & _); discriminate]).
  rewrite mem_in. split; [intros I; now exists s|intros (t & E & I); congruence].
Qed.
Lemma is_in_false v l : is_in v l = false <-> ~ exists t, v = VText t /\ In t l.
Proof. rewrite <- is_in_spec. destruct (is_in v l); intuition congruence. Qed.
Lemma event_cases v :
  (exists d double, v = VText (ce_event d double) /\ is_in v ["oCE1"; "oDoubleCE1"] = d /\ is_in v ["oCE2"; "oDoubleCE2"] = negb d /\
     is_in v ["oDoubleCE1"; "oDoubleCE2"] = double) \/
  ((forall d double, v <> VText (ce_event d double)) /\ is_in v ["oCE1"; "oDoubleCE1"] = false /\ is_in v ["oCE2"; "oDoubleCE2"] = false).
Proof.
  destruct v as [| | |t|]; try (right; split; [intros d db; discriminate|split; reflexivity]).
  destruct (String.eqb_spec t "oCE1") as [->|N1]; [left; exists true, false; repeat split|].
  destruct (String.eqb_spec t "oDoubleCE1") as [->|N2]; [left; exists true, true; repeat split|].
  destruct (String.eqb_spec t "oCE2") as [->|N3]; [left; exists false, false; repeat split|].
  destruct (String.eqb_spec t "oDoubleCE2") as [->|N4]; [left; exists false, true; repeat split|].
  right. split; [intros [] [] E; cbn in E; congruence|]. split; apply is_in_false; intros (u & E & I); injection E as <-; cbn in I; intuition congruence.
Qed.
Lemma at_once_spec c (v : val) : is_in v MERGEABLE || (String.eqb (option_for_HG c) "pessimistic" && is_in v ["H-rich_Shell_H_burning"]) = true <-> merges_at_once c v.
Proof.
  rewrite orb_true_iff, andb_true_iff, !is_in_spec, String.eqb_eq. unfold merges_at_once, MERGEABLE. cbn [In]. split.
  - intros [(t & -> & H)|(P & t & -> & H)]; intuition (subst; auto).
  - intros [->|[->|[->|[-> P]]]]; [left; eexists; split; [reflexivity|auto]..|right; split; [exact P|eexists; split; [reflexivity|auto]]].
Qed.

(** Only the four events of a common envelope are accepted. *)
Theorem C90_event :
  forall c e b, (forall d double, attr b "event" <> VText (ce_event d double)) -> call c e b = Raise ValueError.
Proof.
  intros c e b H. unfold call. destruct (event_cases (attr b "event")) as [(d & db & E & _)|(_ & E1 & E2)].
  - now destruct (H d db).
  - now rewrite E1, E2.
Qed.
Print Assumptions C90_event.

Lemma call_donor b d db : attr b "event" = VText (ce_event d db) ->
  (if is_in (attr b "event") ["oCE1"; "oDoubleCE1"] then Ok true
   else if is_in (attr b "event") ["oCE2"; "oDoubleCE2"] then Ok false else Raise ValueError) = Ok d /\
  is_in (attr b "event") ["oDoubleCE1"; "oDoubleCE2"] = db.
Proof. intros ->. destruct d, db; split; reflexivity. Qed.

(** Donors without a core of their own merge at once; nothing else is touched. *)
Theorem C90_at_once :
  forall c e b d double, attr b "event" = VText (ce_event d double) -> merges_at_once c (donor_of d b "state") ->
  exists b', call c e b = Ok b' /\ star_1 b' = star_1 b /\ star_2 b' = star_2 b /\
    attr b' "state" = VText "merged" /\ attr b' "event" = VText (star_no d "oMerging1" "oMerging2") /\
    forall k, k <> "state" -> k <> "event" -> attr b' k = attr b k.
Proof.
  intros c e b d db E H. destruct (call_donor b d db E) as [E1 E2]. apply at_once_spec in H.
  eexists. split; [unfold call; rewrite E1; cbn [rbind]; rewrite H; reflexivity|]. cbn.
  repeat split. intros k K1 K2. unfold merged_attrs, put.
  destruct (String.eqb_spec k "event"); [easy|]. destruct (String.eqb_spec k "state"); easy.
Qed.
Print Assumptions C90_at_once.

(** Which attributes the core comes from, and what is refused. *)
Theorem C90_core :
  forall c e donor,
  (forall k, calculate_lambda_CE c e donor = Ok k ->
     (hydrogen_giant (donor "state") /\ c_type k = "He_core" /\ (H_fraction c = 0.01 \/ H_fraction c = 0.1 \/ H_fraction c = 0.3)) \/
     (helium_giant (donor "state") /\ c_type k = "CO_core" /\ He_fraction c = 0.1)) /\
  (~ hydrogen_giant (donor "state") -> ~ helium_giant (donor "state") -> calculate_lambda_CE c e donor = Raise ValueError) /\
  (forall k, calculate_lambda_CE c e donor = Ok k ->
     option_for_lambda c = "default_lambda" \/
     (option_for_lambda c <> "lambda_from_grid_final_values" /\ donor "profile" = VNone) ->
     c_lambda k = Some (lambda_default c) /\
     donor (if String.eqb (c_type k) "He_core" then "he_core_mass" else "co_core_mass") = VNum (c_mass k) /\
     donor (if String.eqb (c_type k) "He_core" then "he_core_radius" else "co_core_radius") = VNum (c_radius k)) /\
  (forall k, calculate_lambda_CE c e donor = Ok k -> option_for_lambda c = "lambda_from_grid_final_values" ->
     exists l m r,
       (match donor l with VNum x => c_lambda k = Some x | VNaN | VNone => c_lambda k = None | _ => False end) /\
       donor m = VNum (c_mass k) /\ donor r = VNum (c_radius k) /\
       ((c_type k = "CO_core" /\ l = "lambda_CE_pure_He_star_10cent" /\ m = "m_core_CE_pure_He_star_10cent" /\ r = "r_core_CE_pure_He_star_10cent") \/
        (c_type k = "He_core" /\ H_fraction c = 0.01 /\ l = "lambda_CE_1cent" /\ m = "m_core_CE_1cent" /\ r = "r_core_CE_1cent") \/
        (c_type k = "He_core" /\ H_fraction c = 0.1 /\ l = "lambda_CE_10cent" /\ m = "m_core_CE_10cent" /\ r = "r_core_CE_10cent") \/
        (c_type k = "He_core" /\ H_fraction c = 0.3 /\ l = "lambda_CE_30cent" /\ m = "m_core_CE_30cent" /\ r = "r_core_CE_30cent"))).
Proof.
  intros c e donor.
  assert (Q : forall x y, Reqb x y = true <-> x = y) by (intros x y; unfold Reqb; destruct (Req_EM_T x y); intuition congruence).
  assert (T : (exists f, core_type c donor = Ok ("He_core", f) /\ f = H_fraction c /\ hydrogen_giant (donor "state") /\
                 (H_fraction c = 0.01 \/ H_fraction c = 0.1 \/ H_fraction c = 0.3)) \/
              (exists f, core_type c donor = Ok ("CO_core", f) /\ helium_giant (donor "state") /\ He_fraction c = 0.1) \/
              core_type c donor = Raise ValueError).
  { unfold core_type. destruct (is_in (donor "state") POST_MS) eqn:E1.
    - destruct (Reqb (H_fraction c) 0.01 || Reqb (H_fraction c) 0.1 || Reqb (H_fraction c) 0.3) eqn:E; [|now right; right].
      left. eexists. split; [reflexivity|]. split; [reflexivity|]. split; [now apply is_in_spec|].
      rewrite !orb_true_iff, !Q in E. tauto.
    - destruct (is_in (donor "state") POST_HeMS) eqn:E2; [|now right; right].
      destruct (Reqb (He_fraction c) 0.1) eqn:E; [|now right; right].
      right; left. eexists. split; [reflexivity|]. split; [now apply is_in_spec|]. now apply Q. }
  assert (TY : forall ty f k, core_type c donor = Ok (ty, f) -> calculate_lambda_CE c e donor = Ok k -> c_type k = ty).
  { intros ty f k E K. unfold calculate_lambda_CE in K. rewrite E in K. cbn [rbind fst snd] in K.
    assert (D : default_core c donor ty = Ok k -> c_type k = ty).
    { unfold default_core. cbv zeta. intros D. apply rb in D. destruct D as (m & _ & D). apply rb in D. destruct D as (r & _ & D). now injection D as <-. }
    destruct (String.eqb (option_for_lambda c) "default_lambda"); [now apply D|].
    destruct (String.eqb (option_for_lambda c) "lambda_from_grid_final_values").
    - unfold grid_core in K. cbv zeta in K. apply rb in K. destruct K as (l & _ & K). apply rb in K. destruct K as (m & _ & K).
      apply rb in K. destruct K as (r & _ & K). now injection K as <-.
    - destruct (no_profile donor); [now apply D|]. destruct (negb (mem (option_for_lambda c) PROFILE_OPTIONS)); [discriminate|].
      apply rb in K. destruct K as (x & _ & K). now injection K as <-. }
  split; [|split; [|split]].
  - intros k K. destruct T as [(f & E & -> & G & F)|[(f & E & G & F)|E]].
    + left. repeat split; auto. eapply TY; eauto.
    + right. repeat split; auto. eapply TY; eauto.
    + unfold calculate_lambda_CE in K. rewrite E in K. discriminate.
  - intros N1 N2. destruct T as [(f & E & -> & G & F)|[(f & E & G & F)|E]]; [easy|easy|]. unfold calculate_lambda_CE. now rewrite E.
  - intros k K O.
    assert (D : exists ty f, core_type c donor = Ok (ty, f) /\ default_core c donor ty = Ok k).
    { unfold calculate_lambda_CE in K. apply rb in K. destruct K as ([ty f] & E & K). cbn [fst snd] in K. exists ty, f. split; [exact E|].
      destruct (String.eqb_spec (option_for_lambda c) "default_lambda") as [_|N]; [exact K|]. destruct O as [O|[O O']]; [easy|].
      destruct (String.eqb_spec (option_for_lambda c) "lambda_from_grid_final_values") as [O2|_]; [easy|].
      unfold no_profile in K. rewrite O' in K. exact K. }
    destruct D as (ty & f & E & D). rewrite (TY ty f k E K). unfold default_core in D. cbv zeta in D.
    apply rb in D. destruct D as (m & Dm & D). apply rb in D. destruct D as (r & Dr & D). injection D as <-. cbn.
    split; [reflexivity|]. unfold rd in Dm, Dr. destruct (String.eqb ty "He_core"); cbn [fst snd] in Dm, Dr; split;
      repeat match goal with H : match ?v with _ => _ end = Ok _ |- _ => destruct v; try discriminate; injection H as <- end; reflexivity.
  - intros k K O.
    assert (D : exists ty f, core_type c donor = Ok (ty, f) /\ grid_core donor ty f = Ok k).
    { unfold calculate_lambda_CE in K. apply rb in K. destruct K as ([ty f] & E & K). cbn [fst snd] in K. exists ty, f. split; [exact E|].
      rewrite O in K. exact K. }
    destruct D as (ty & f & E & D). pose proof (TY ty f k E K) as TK. unfold grid_core in D. cbv zeta in D.
    apply rb in D. destruct D as (l & Dl & D). apply rb in D. destruct D as (m & Dm & D). apply rb in D. destruct D as (r & Dr & D).
    assert (RD : forall n x, rd donor n = Ok x -> donor n = VNum x).
    { intros n x R0. unfold rd in R0. destruct (donor n); try discriminate. now injection R0 as <-. }
    apply RD in Dm. apply RD in Dr. injection D as <-. cbn [c_lambda c_mass c_radius c_type] in *.
    assert (LL : forall v, lambda_of v = Ok l -> match v with VNum x => l = Some x | VNaN | VNone => l = None | _ => False end).
    { intros v V. destruct v; cbn in V; try discriminate; now injection V as <-. }
    apply LL in Dl. clear LL RD.
    do 3 eexists. split; [exact Dl|]. split; [exact Dm|]. split; [exact Dr|].
    destruct T as [(f' & E' & -> & _ & F)|[(f' & E' & _ & F)|E']]; [| |congruence].
    + assert (Z : ty = "He_core" /\ f = H_fraction c) by (rewrite E in E'; injection E' as <- <-; auto). destruct Z as [-> ->].
      cbn [String.eqb Ascii.eqb Bool.eqb]. right.
      destruct (Reqb (H_fraction c) 0.01) eqn:R1; [left; apply Q in R1; repeat split; easy|right].
      destruct (Reqb (H_fraction c) 0.1) eqn:R2; [left; apply Q in R2; repeat split; easy|right].
      assert (N1 : H_fraction c <> 0.01) by (intros Z; apply Q in Z; congruence). assert (N2 : H_fraction c <> 0.1) by (intros Z; apply Q in Z; congruence).
      repeat split. tauto.
    + assert (Z : ty = "CO_core") by (rewrite E in E'; now injection E' as <- <-). subst ty. left. repeat split.
Qed.
Print Assumptions C90_core.

(** The chart sends donors to this step that it does not know: every such call fails. *)
Theorem C90_refused_donors_refuted :
  forall c e b double s comp,
  In s [FlowChartModel.HR_Shell_He_burning; FlowChartModel.HR_Core_C_burning; FlowChartModel.acc_Core_H_burning; FlowChartModel.acc_Shell_H_burning] ->
  In comp FlowChartModel.STAR_STATES_ALL ->
  FlowChartModel.chart_get FlowChartModel.POSYDON_FLOW_CHART (FlowChartModel.Key s comp FlowChartModel.RLO1 (if double : bool then FlowChartModel.oDoubleCE1 else FlowChartModel.oCE1))
    = Some FlowChartModel.step_CE /\
  (attr b "event" = VText (ce_event true double) -> star_1 b "state" = VText (BinaryModel.star_name s) -> call c e b = Raise ValueError).
Proof.
  intros c e b db s comp H HC. split.
  - rewrite FlowChartProofs.chart_is_spec. assert (A : forallb (fun s => forallb (fun k => forallb (fun ev =>
        match FlowChartSpec.spec_step s k FlowChartModel.RLO1 ev with Some FlowChartModel.step_CE => true | _ => false end)
        [FlowChartModel.oCE1; FlowChartModel.oDoubleCE1]) FlowChartModel.STAR_STATES_ALL)
        [FlowChartModel.HR_Shell_He_burning; FlowChartModel.HR_Core_C_burning; FlowChartModel.acc_Core_H_burning; FlowChartModel.acc_Shell_H_burning] = true)
      by (vm_compute; reflexivity).
    rewrite forallb_forall in A. specialize (A s H). rewrite forallb_forall in A. specialize (A comp HC). rewrite forallb_forall in A.
    specialize (A (if db then FlowChartModel.oDoubleCE1 else FlowChartModel.oCE1)).
    destruct (FlowChartSpec.spec_step _ _ _ _) as [[]|]; try reflexivity; exfalso; discriminate A; destruct db; cbn; auto.
  - intros E S. destruct (call_donor b true db E) as [E1 E2].
    assert (N : forall t, In t (map BinaryModel.star_name [FlowChartModel.HR_Shell_He_burning; FlowChartModel.HR_Core_C_burning; FlowChartModel.acc_Core_H_burning; FlowChartModel.acc_Shell_H_burning]) ->
      mem t MERGEABLE = false /\ mem t ["H-rich_Shell_H_burning"] = false /\ mem t POST_MS = false /\ mem t POST_HeMS = false).
    { intros t T. cbn in T. destruct T as [<-|[<-|[<-|[<-|[]]]]]; repeat split. }
    destruct (N (BinaryModel.star_name s)) as (N1 & N2 & N3 & N4); [now apply in_map|].
    unfold call. rewrite E1. cbn [rbind]. cbn [donor_of]. rewrite S. unfold is_in. rewrite N1, N2. rewrite andb_false_r. cbn [orb].
    destruct (String.eqb (prescription c) "alpha-lambda"); [|reflexivity].
    unfold calculate_lambda_CE, core_type. rewrite S. unfold is_in. rewrite N3, N4. reflexivity.
Qed.
Print Assumptions C90_refused_donors_refuted.

(** In a contact binary the chart also sends compact objects here as donors. *)
Theorem C90_compact_donor_refuted :
  forall c e b double s t, In s [FlowChartModel.BH; FlowChartModel.NS; FlowChartModel.WD] -> In t FlowChartModel.STAR_STATES_NORMALSTAR ->
  FlowChartModel.chart_get FlowChartModel.POSYDON_FLOW_CHART (FlowChartModel.Key s t FlowChartModel.contact (if double : bool then FlowChartModel.oDoubleCE1 else FlowChartModel.oCE1))
    = Some FlowChartModel.step_CE /\
  (attr b "event" = VText (ce_event true double) -> star_1 b "state" = VText (BinaryModel.star_name s) -> call c e b = Raise ValueError).
Proof.
  intros c e b db s comp H HC. split.
  - rewrite FlowChartProofs.chart_is_spec. assert (A : forallb (fun s => forallb (fun k => forallb (fun ev =>
        match FlowChartSpec.spec_step s k FlowChartModel.contact ev with Some FlowChartModel.step_CE => true | _ => false end)
        [FlowChartModel.oCE1; FlowChartModel.oDoubleCE1]) FlowChartModel.STAR_STATES_NORMALSTAR)
        [FlowChartModel.BH; FlowChartModel.NS; FlowChartModel.WD] = true)
      by (vm_compute; reflexivity).
    rewrite forallb_forall in A. specialize (A s H). rewrite forallb_forall in A. specialize (A comp HC). rewrite forallb_forall in A.
    specialize (A (if db then FlowChartModel.oDoubleCE1 else FlowChartModel.oCE1)).
    destruct (FlowChartSpec.spec_step _ _ _ _) as [[]|]; try reflexivity; exfalso; discriminate A; destruct db; cbn; auto.
  - intros E S. destruct (call_donor b true db E) as [E1 E2].
    assert (N : forall t, In t (map BinaryModel.star_name [FlowChartModel.BH; FlowChartModel.NS; FlowChartModel.WD]) ->
      mem t MERGEABLE = false /\ mem t ["H-rich_Shell_H_burning"] = false /\ mem t POST_MS = false /\ mem t POST_HeMS = false).
    { intros t T. cbn in T. destruct T as [<-|[<-|[<-|[]]]]; repeat split. }
    destruct (N (BinaryModel.star_name s)) as (N1 & N2 & N3 & N4); [now apply in_map|].
    unfold call. rewrite E1. cbn [rbind]. cbn [donor_of]. rewrite S. unfold is_in. rewrite N1, N2. rewrite andb_false_r. cbn [orb].
    destruct (String.eqb (prescription c) "alpha-lambda"); [|reflexivity].
    unfold calculate_lambda_CE, core_type. rewrite S. unfold is_in. rewrite N3, N4. reflexivity.
Qed.
Print Assumptions C90_compact_donor_refuted.

(** The radius of a companion that is not a compact object is replaced by that of a matched single star only if the donor's core fits in its
    lobe and the companion does not. *)
Theorem C90_radius :
  forall c e b comp k1 k2 a r, adjust_secondary_radius c e b comp k1 k2 a = Ok r ->
  let A := Some (a / 6.9598e10) in
  r = c_radius k2 \/
  (rematch e b = Ok (Some r) /\
   exists L1 L2, roche_of (Some (c_mass k1)) (Some (c_mass k2)) A = Some L1 /\ roche_of (Some (c_mass k2)) (Some (c_mass k1)) A = Some L2 /\
     c_radius k1 < L1 + tolerance c /\ L2 + tolerance c < c_radius k2).
Proof.
  intros c e b comp k1 k2 a r H A. unfold adjust_secondary_radius in H. cbv zeta in H. change (Some (a / Rsun)) with A in H.
  destruct (roche_of (Some (c_mass k1)) (Some (c_mass k2)) A) as [L1|] eqn:E1; [|cbn in H; injection H as <-; now left].
  destruct (roche_of (Some (c_mass k2)) (Some (c_mass k1)) A) as [L2|] eqn:E2;
    [|rewrite andb_false_r in H; injection H as <-; now left].
  cbn [lift2 flt] in H. unfold Rltb in H.
  destruct (Rlt_dec (c_radius k1 - L1) (tolerance c)); [|injection H as <-; now left].
  destruct (Rlt_dec (tolerance c) (c_radius k2 - L2)); [|injection H as <-; now left]. cbn [andb] in H.
  destruct (is_in (comp "state") H_RICH || is_in (comp "state") HE_RICH); [|discriminate].
  apply rb in H. destruct H as ([r'|] & R & H); injection H as <-; [|now left].
  right. split; [exact R|]. exists L1, L2. repeat split; lra.
Qed.
Print Assumptions C90_radius.

(** What a star is after it has lost its envelope: [m] and [r] are the mass and radius of what is left. *)
Definition STAR_NAN := ["log_L"; "lg_mdot"; "lg_system_mdot"; "lg_wind_mdot"; "c_core_mass"; "c_core_radius"; "o_core_mass"; "o_core_radius";
  "surface_c12"; "surface_n14"; "surface_o16"; "surf_avg_omega"; "surf_avg_omega_div_omega_crit"; "total_moment_of_inertia";
  "log_total_angular_momentum"; "spin"; "conv_env_top_mass"; "conv_env_bot_mass"; "conv_env_top_radius"; "conv_env_bot_radius";
  "conv_env_turnover_time_g"; "conv_env_turnover_time_l_b"; "conv_env_turnover_time_l_t"; "envelope_binding_energy"; "mass_conv_reg_fortides";
  "thickness_conv_reg_fortides"; "radius_conv_reg_fortides"; "lambda_CE_1cent"; "lambda_CE_10cent"; "lambda_CE_30cent";
  "lambda_CE_pure_He_star_10cent"; "profile"; "total_mass_h1"; "total_mass_he4"].
Definition bare_core (c : config) (s s' : star) (type : string) (m r : R) : Prop :=
  let one := option_after c = "one_phase_variable_core_definition" in
  s' "mass" = VNum m /\ s' "log_R" = VNum (ln r / ln 10) /\ (exists t, s' "state" = VText t) /\
  s' "he_core_mass" = VNum m /\ s' "he_core_radius" = VNum r /\ s' "log_LH" = VNum (- 1e99) /\
  (exists h1, s' "surface_h1" = VNum h1 /\
     ((type = "He_core" /\ (one -> h1 = H_fraction c) /\ (~ one -> h1 = 0.01) /\
       s' "co_core_mass" = s "co_core_mass" /\ s' "co_core_radius" = s "co_core_radius" /\ s' "log_LHe" = s "log_LHe" /\
       (s "metallicity" = VNone -> s' "surface_he4" = VNum (1 - h1 - 0.0142)) /\
       (forall z, s "metallicity" = VNum z -> s' "surface_he4" = VNum (1 - h1 - z * 0.0142)) /\
       (s "metallicity" = VNaN -> s' "surface_he4" = VNaN)) \/
      (type = "CO_core" /\ h1 = 0 /\ s' "co_core_mass" = VNum m /\ s' "co_core_radius" = VNum r /\ s' "log_LHe" = VNum (- 1e99) /\
       (one -> s' "surface_he4" = VNum (He_fraction c)) /\ (~ one -> s' "surface_he4" = VNum 0.1)))) /\
  (forall k, In k STAR_NAN -> s' k = VNaN) /\
  (forall k, ~ In k STAR_NAN -> ~ In k ["mass"; "log_R"; "state"; "he_core_mass"; "he_core_radius"; "log_LH"; "log_LHe"; "surface_h1"; "surface_he4";
     "co_core_mass"; "co_core_radius"] -> s' k = s k).

Lemma put_eq f k v k' : put f k v k' = if String.eqb k' k then v else f k'. Proof. reflexivity. Qed.
Lemma nan_other keep props f k : mem k props && negb (mem k keep) = false -> nan_except keep props f k = f k.
Proof. intros H. unfold nan_except. now rewrite H. Qed.
Lemma nan_in keep props f k : mem k props && negb (mem k keep) = true -> nan_except keep props f k = VNaN.
Proof. intros H. unfold nan_except. now rewrite H. Qed.
Lemma star_nan_list k : In k STAR_NAN <-> mem k MergeModel.STARPROPERTIES && negb (mem k (["mass"; "log_R"; "state"] ++ STAR_KEPT)) = true.
Proof.
  assert (E : STAR_NAN = filter (fun k => negb (mem k (["mass"; "log_R"; "state"] ++ STAR_KEPT))) MergeModel.STARPROPERTIES) by (vm_compute; reflexivity).
  rewrite E, filter_In, andb_true_iff, mem_in. reflexivity.
Qed.
Lemma star_other k : ~ In k STAR_NAN -> mem k MergeModel.STARPROPERTIES && negb (mem k (["mass"; "log_R"; "state"] ++ STAR_KEPT)) = false.
Proof. intros N. rewrite star_nan_list in N. now apply not_true_is_false. Qed.
Ltac fixed := unfold nan_except; match goal with |- context [if ?b then _ else _] => let v := eval vm_compute in b in change b with v end; cbv iota.
Lemma bare c e s s' type m r : eject_star c e s type m r = Ok s' -> bare_core c s s' type m r.
Proof.
  unfold eject_star. cbv zeta. intros H. apply rb in H. destruct H as (s1 & H1 & H). apply rb in H. destruct H as (st & Hs & H).
  assert (E : s' = nan_except (["mass"; "log_R"; "state"] ++ STAR_KEPT) MergeModel.STARPROPERTIES (put s1 "state" (VText st))) by congruence.
  clear H. subst s'.
  assert (K : forall k, ~ In k STAR_NAN -> k <> "state" -> nan_except (["mass"; "log_R"; "state"] ++ STAR_KEPT) MergeModel.STARPROPERTIES (put s1 "state" (VText st)) k = s1 k).
  { intros k N NS. rewrite nan_other by now apply star_other. rewrite put_eq. destruct (String.eqb_spec k "state"); easy. }
  assert (NM : forall k, mem k STAR_NAN = false -> ~ In k STAR_NAN) by (intros k F I; apply mem_in in I; congruence).
  unfold bare_core. cbv zeta.
  assert (ST : nan_except (["mass"; "log_R"; "state"] ++ STAR_KEPT) MergeModel.STARPROPERTIES (put s1 "state" (VText st)) "state" = VText st).
  { rewrite nan_other by reflexivity. reflexivity. }
  assert (NN : forall k, In k STAR_NAN -> nan_except (["mass"; "log_R"; "state"] ++ STAR_KEPT) MergeModel.STARPROPERTIES (put s1 "state" (VText st)) k = VNaN).
  { intros k I. apply nan_in. now apply star_nan_list. }
  set (s' := nan_except (["mass"; "log_R"; "state"] ++ STAR_KEPT) MergeModel.STARPROPERTIES (put s1 "state" (VText st))) in *. clearbody s'.
  destruct (String.eqb_spec type "He_core") as [->|N1].
  - apply rb in H1. destruct H1 as (he4 & M & H1). injection H1 as <-.
    rewrite !(K "mass"), !(K "log_R"), !(K "he_core_mass"), !(K "he_core_radius"), !(K "log_LH"), !(K "surface_h1"), !(K "co_core_mass"),
      !(K "co_core_radius"), !(K "log_LHe"), !(K "surface_he4") by (discriminate || now apply NM).
    assert (MZ : put (put (put (put (put s "mass" (VNum m)) "log_R" (VNum (log10 r))) "surface_h1"
        (VNum (if String.eqb (option_after c) "one_phase_variable_core_definition" then H_fraction c else 0.01))) "he_core_mass" (VNum m)) "he_core_radius" (VNum r) "metallicity" = s "metallicity") by reflexivity.
    rewrite MZ in M. clear MZ.
    split; [reflexivity|]. split; [reflexivity|]. split; [now exists st|]. split; [reflexivity|]. split; [reflexivity|]. split; [reflexivity|].
    split; [|split; [exact NN|]].
    + eexists. split; [reflexivity|]. left. split; [reflexivity|].
      split; [intros O; rewrite O; reflexivity|].
      split; [intros O; destruct (String.eqb_spec (option_after c) "one_phase_variable_core_definition"); [easy|reflexivity]|].
      split; [reflexivity|]. split; [reflexivity|]. split; [reflexivity|].
      change (0.0142) with Zsun. cbn [put String.eqb Ascii.eqb Bool.eqb] in *.
      split; [|split]; [intros Z|intros z Z|intros Z]; rewrite Z in M; congruence.
    + intros k I N. rewrite K; [|exact I|intros ->; apply N; cbn; tauto].
      assert (D : forall k', In k' ["mass"; "log_R"; "state"; "he_core_mass"; "he_core_radius"; "log_LH"; "log_LHe"; "surface_h1"; "surface_he4";
        "co_core_mass"; "co_core_radius"] -> String.eqb k k' = false).
      { intros k' I'. destruct (String.eqb_spec k k') as [->|]; [now destruct N|reflexivity]. }
      rewrite !put_eq. rewrite !D by (cbn; tauto). reflexivity.
  - destruct (String.eqb_spec type "CO_core") as [->|N2]; [|discriminate H1]. injection H1 as <-.
    rewrite !(K "mass"), !(K "log_R"), !(K "he_core_mass"), !(K "he_core_radius"), !(K "log_LH"), !(K "surface_h1"), !(K "co_core_mass"),
      !(K "co_core_radius"), !(K "log_LHe"), !(K "surface_he4") by (discriminate || now apply NM).
    split; [reflexivity|]. split; [reflexivity|]. split; [now exists st|]. split; [reflexivity|]. split; [reflexivity|]. split; [reflexivity|].
    split; [|split; [exact NN|]].
    + eexists. split; [reflexivity|]. right. split; [reflexivity|]. split; [reflexivity|]. split; [reflexivity|]. split; [reflexivity|].
      split; [reflexivity|].
      split; [intros O; rewrite O; reflexivity|].
      intros O. destruct (String.eqb_spec (option_after c) "one_phase_variable_core_definition"); [easy|reflexivity].
    + intros k I N. rewrite K; [|exact I|intros ->; apply N; cbn; tauto].
      assert (D : forall k', In k' ["mass"; "log_R"; "state"; "he_core_mass"; "he_core_radius"; "log_LH"; "log_LHe"; "surface_h1"; "surface_he4";
        "co_core_mass"; "co_core_radius"] -> String.eqb k k' = false).
      { intros k' I'. destruct (String.eqb_spec k k') as [->|]; [now destruct N|reflexivity]. }
      rewrite !put_eq. rewrite !D by (cbn; tauto). reflexivity.
Qed.

(** The binary after the envelope has gone. *)
Definition BINARY_NAN := ["rl_relative_overflow_1"; "rl_relative_overflow_2"; "lg_mtransfer_rate"; "trap_radius"; "acc_radius"; "t_sync_rad_1";
  "t_sync_conv_1"; "t_sync_rad_2"; "t_sync_conv_2"].
Definition released (d : bool) (old_donor_state : val) (a a' : string -> val) (separation period : R) : Prop :=
  a' "state" = VText "detached" /\ a' "separation" = VNum separation /\ a' "orbital_period" = VNum period /\ a' "eccentricity" = VNum 0 /\
  (old_donor_state = VText "stripped_He_Core_He_depleted" -> a' "event" = VText (star_no d "CC1" "CC2")) /\
  (old_donor_state <> VText "stripped_He_Core_He_depleted" -> a' "event" = VNone) /\
  (forall k, In k BINARY_NAN -> a' k = VNaN) /\
  (forall k, ~ In k BINARY_NAN -> ~ In k ["state"; "separation"; "orbital_period"; "eccentricity"; "event"] -> a' k = a k).
Lemma binary_nan_list k : In k BINARY_NAN <-> mem k BINARYPROPERTIES && negb (mem k (BINARY_SET ++ BINARY_KEPT)) = true.
Proof.
  assert (E : BINARY_NAN = filter (fun k => negb (mem k (BINARY_SET ++ BINARY_KEPT))) BINARYPROPERTIES) by (vm_compute; reflexivity).
  rewrite E, filter_In, andb_true_iff, mem_in. reflexivity.
Qed.
Lemma released_ok d donor a sep P : released d (donor "state") a (ejection_attrs d donor sep P a) sep P.
Proof.
  unfold ejection_attrs. cbv zeta. unfold released.
  assert (I : is_in (donor "state") ["stripped_He_Core_He_depleted"] = true <-> donor "state" = VText "stripped_He_Core_He_depleted").
  { rewrite is_in_spec. cbn. split; [intros (t & -> & [<-|[]]); reflexivity|intros ->; eexists; split; [reflexivity|now left]]. }
  rewrite !nan_other by reflexivity.
  destruct (is_in (donor "state") ["stripped_He_Core_He_depleted"]).
  all: split; [reflexivity|]; split; [reflexivity|]; split; [reflexivity|]; split; [reflexivity|].
  all: split; [intros Z|]; [|split; [intros Z|split]].
  all: try (intros k K; apply nan_in; now apply binary_nan_list).
  all: try reflexivity; try (now destruct Z; apply I); try (now apply I in Z).
  all: intros k N1 N2; rewrite nan_other by (apply not_true_is_false; now rewrite <- binary_nan_list).
  all: assert (D : forall k', In k' ["state"; "separation"; "orbital_period"; "eccentricity"; "event"] -> String.eqb k k' = false)
    by (intros k' I'; destruct (String.eqb_spec k k') as [->|]; [now destruct N2|reflexivity]).
  all: rewrite !put_eq, !D by (cbn; tauto); reflexivity.
Qed.

(** Stars that merged inside the envelope. *)
Definition swallowed (s s' : star) (type : string) (m : R) : Prop :=
  s' "mass" = VNum m /\ s' "log_R" = VNaN /\
  (type = "CO_core" -> s' "he_core_mass" = VNum m /\ s' "he_core_radius" = VNaN) /\
  (forall k, k <> "mass" -> k <> "log_R" -> (type = "CO_core" -> k <> "he_core_mass" /\ k <> "he_core_radius") -> s' k = s k).
Lemma swallowed_ok s type m : swallowed s (merge_star s type m) type m.
Proof.
  unfold swallowed, merge_star. cbv zeta. destruct (String.eqb_spec type "CO_core") as [->|N].
  - repeat split. intros k A B C. destruct (C eq_refl) as [C1 C2]. rewrite !put_eq.
    destruct (String.eqb_spec k "he_core_radius"); [easy|]. destruct (String.eqb_spec k "he_core_mass"); [easy|].
    destruct (String.eqb_spec k "log_R"); [easy|]. destruct (String.eqb_spec k "mass"); easy.
  - split; [reflexivity|]. split; [reflexivity|]. split; [easy|]. intros k A B _. rewrite !put_eq.
    destruct (String.eqb_spec k "log_R"); [easy|]. destruct (String.eqb_spec k "mass"); easy.
Qed.
Lemma donor_make d a x y : donor_of d (make d a x y) = x /\ comp_of d (make d a x y) = y /\ attr (make d a x y) = a.
Proof. destruct d; repeat split. Qed.

(** Every call that succeeds on a donor that does not merge at once. *)
Theorem C90_outcome :
  forall c e b b' d double, attr b "event" = VText (ce_event d double) -> ~ merges_at_once c (donor_of d b "state") -> call c e b = Ok b' ->
  let donor := donor_of d b in let comp := comp_of d b in
  exists k1 k2 m1 lr1 m2 lr2 P rc2 l,
    prescription c = "alpha-lambda" /\ calculate_lambda_CE c e donor = Ok k1 /\
    donor "mass" = VNum m1 /\ donor "log_R" = VNum lr1 /\ comp "mass" = VNum m2 /\ comp "log_R" = VNum lr2 /\ attr b "orbital_period" = VNum P /\
    (double = true -> calculate_lambda_CE c e comp = Ok k2 /\ rc2 = c_radius k2) /\
    (double = false -> k2 = Core None m2 (Rpower 10 lr2) "not_giant_companion") /\
    let a := separation_after (efficiency c) P m1 (Rpower 10 lr1) k1 m2 (Rpower 10 lr2) k2 double in
    - tolerance c <= a /\
    (double = false -> In (comp "state") [VText "BH"; VText "NS"; VText "WD"] -> rc2 = Rpower 10 lr2) /\
    (double = false -> ~ In (comp "state") [VText "BH"; VText "NS"; VText "WD"] -> adjust_secondary_radius c e b comp k1 k2 a = Ok rc2) /\
    phase c donor k1 comp (Core (c_lambda k2) (c_mass k2) rc2 (c_type k2)) double a = Ok l /\
    (l_merger l = false ->
       released d (donor "state") (attr b) (attr b') (l_sep l) (l_period l) /\
       bare_core c donor (donor_of d b') (c_type k1) (l_m1 l) (l_r1 l) /\
       (double = false -> comp_of d b' = comp) /\
       (double = true -> bare_core c comp (comp_of d b') (c_type k2) (l_m2 l) (l_r2 l))) /\
    (l_merger l = true ->
       exists x1 x2,
       (loss_when_merged c = false -> x1 = 0 /\ x2 = 0) /\
       (loss_when_merged c = true ->
          mass_loss c e donor comp m1 (Rpower 10 lr1) k1 m2 (Rpower 10 lr2) (Core (c_lambda k2) (c_mass k2) rc2 (c_type k2))
            (6.9598e10 * orbital_separation_from_period P m1 m2) double = Ok (x1, x2)) /\
       attr b' "state" = VText "merged" /\ attr b' "event" = VText (star_no d "oMerging1" "oMerging2") /\
       (forall k, k <> "state" -> k <> "event" -> attr b' k = attr b k) /\
       swallowed donor (donor_of d b') (c_type k1) (m1 - x1) /\ swallowed comp (comp_of d b') (c_type k2) (m2 - x2)).
Proof.
  intros c e b b' d db E N H donor comp. destruct (call_donor b d db E) as [E1 E2]. unfold call in H. rewrite E1, E2 in H. cbn [rbind] in H.
  fold donor in H. fold comp in H. change (donor_of d b) with donor in N. rewrite <- at_once_spec in N. apply not_true_is_false in N. rewrite N in H. clear N.
  destruct (String.eqb_spec (prescription c) "alpha-lambda") as [HP|]; [|discriminate].
  apply rb in H. destruct H as (k1 & K1 & H). apply rb in H. destruct H as (k2 & K2 & H).
  unfold simple_alpha_prescription in H. cbv zeta in H. fold donor in H. fold comp in H.
  assert (RD : forall f n x, rd f n = Ok x -> f n = VNum x).
  { intros f n x R0. unfold rd in R0. destruct (f n); try discriminate. now injection R0 as <-. }
  apply rb in H. destruct H as (m1 & M1 & H). apply rb in H. destruct H as (lr1 & L1 & H). apply rb in H. destruct H as (m2 & M2 & H).
  apply rb in H. destruct H as (lr2 & L2 & H). apply rb in H. destruct H as (P & PP & H).
  destruct (Rltb (separation_after (efficiency c) P m1 (Rpower 10 lr1) k1 m2 (Rpower 10 lr2) k2 db) (- tolerance c)) eqn:NEG; [discriminate|].
  assert (NEG' : - tolerance c <= separation_after (efficiency c) P m1 (Rpower 10 lr1) k1 m2 (Rpower 10 lr2) k2 db).
  { unfold Rltb in NEG. destruct (Rlt_dec _ _); [discriminate|lra]. }
  clear NEG. apply rb in H. destruct H as (rc2 & R2 & H). apply rb in H. destruct H as (l & L & H).
  assert (K2' : db = false -> k2 = Core None m2 (Rpower 10 lr2) "not_giant_companion").
  { intros ->. rewrite M2, L2 in K2. cbn [rbind] in K2. now injection K2 as <-. }
  exists k1, k2, m1, lr1, m2, lr2, P, rc2, l.
  split; [exact HP|]. split; [exact K1|]. split; [now apply RD|]. split; [now apply RD|]. split; [now apply RD|]. split; [now apply RD|].
  split; [now apply RD|]. split; [intros ->; split; [exact K2|cbn [negb andb] in R2; now injection R2 as <-]|]. split; [exact K2'|].
  cbv zeta. split; [exact NEG'|].
  assert (CO : is_in (comp "state") STATES_CO = true <-> In (comp "state") [VText "BH"; VText "NS"; VText "WD"]).
  { rewrite is_in_spec. unfold STATES_CO. cbn. split.
    - intros (t & -> & I). intuition (subst; auto).
    - intros [<-|[<-|[<-|[]]]]; eexists; (split; [reflexivity|auto]). }
  split; [intros D I; rewrite D in *; apply CO in I; rewrite I in R2; cbn [negb andb] in R2; injection R2 as <-; now rewrite K2'|].
  split; [intros D I; rewrite D in *; rewrite <- CO in I; apply not_true_is_false in I; rewrite I in R2; exact R2|].
  split; [exact L|]. destruct (l_merger l).
  - split; [discriminate|intros _]. apply rb in H. destruct H as ([x1 x2] & X & H). exists x1, x2.
    split; [intros F; rewrite F in X; injection X as <- <-; auto|]. split; [intros F; rewrite F in X; exact X|].
    cbn [fst snd] in H. assert (B : b' = upon_merger d b m1 m2 k1 (Core (c_lambda k2) (c_mass k2) rc2 (c_type k2)) x1 x2) by congruence. subst b'. unfold upon_merger.
    destruct (donor_make d (merged_attrs d (attr b)) (merge_star (donor_of d b) (c_type k1) (m1 - x1)) (merge_star (comp_of d b) (c_type (Core (c_lambda k2) (c_mass k2) rc2 (c_type k2))) (m2 - x2))) as (D1 & D2 & D3).
    rewrite D1, D2, D3. split; [reflexivity|]. split; [reflexivity|]. split.
    { intros k A B. unfold merged_attrs. rewrite !put_eq. destruct (String.eqb_spec k "event"); [easy|]. destruct (String.eqb_spec k "state"); easy. }
    split; apply swallowed_ok.
  - split; [intros _|discriminate]. unfold upon_ejection in H. cbv zeta in H. fold donor in H. fold comp in H.
    apply rb in H. destruct H as (donor' & D & H). apply rb in H. destruct H as (comp' & C & H).
    assert (B : b' = make d (ejection_attrs d donor (l_sep l) (l_period l) (attr b)) donor' comp') by congruence. subst b'.
    destruct (donor_make d (ejection_attrs d donor (l_sep l) (l_period l) (attr b)) donor' comp') as (D1 & D2 & D3). rewrite D1, D2, D3.
    split; [apply released_ok|]. split; [eapply bare; exact D|].
    split; [intros ->; now injection C as <-|intros ->; eapply bare; exact C].
Qed.
Print Assumptions C90_outcome.

(** The state of a bare core is decided with the new mass, radius and surface but before the other properties are lost. *)
Theorem C90_state :
  forall c e s s' type m r, eject_star c e s type m r = Ok s' ->
  exists s1 t, check_state e s1 = Ok t /\ s' "state" = VText t /\ s1 "state" = s "state" /\
    (forall k, In k STAR_NAN -> s1 k = s k) /\ (forall k, ~ In k STAR_NAN -> k <> "state" -> s1 k = s' k).
Proof.
  intros c e s s' type m r H. unfold eject_star in H. cbv zeta in H. apply rb in H. destruct H as (s1 & H1 & H). apply rb in H.
  destruct H as (st & Hs & H).
  assert (E : s' = nan_except (["mass"; "log_R"; "state"] ++ STAR_KEPT) MergeModel.STARPROPERTIES (put s1 "state" (VText st))) by congruence.
  clear H. subst s'.
  exists s1, st. split; [exact Hs|]. split; [rewrite nan_other by reflexivity; reflexivity|].
  assert (O : forall k, ~ In k ["mass"; "log_R"; "he_core_mass"; "he_core_radius"; "log_LH"; "log_LHe"; "surface_h1"; "surface_he4";
     "co_core_mass"; "co_core_radius"] -> s1 k = s k).
  { intros k N. assert (D : forall k', In k' ["mass"; "log_R"; "he_core_mass"; "he_core_radius"; "log_LH"; "log_LHe"; "surface_h1"; "surface_he4";
        "co_core_mass"; "co_core_radius"] -> String.eqb k k' = false).
    { intros k' I'. destruct (String.eqb_spec k k') as [->|]; [now destruct N|reflexivity]. }
    destruct (String.eqb type "He_core").
    - apply rb in H1. destruct H1 as (he4 & _ & H1). injection H1 as <-. rewrite !put_eq, !D by (cbn; tauto). reflexivity.
    - destruct (String.eqb type "CO_core"); [|discriminate]. injection H1 as <-. rewrite !put_eq, !D by (cbn; tauto). reflexivity. }
  split; [apply O; cbn; intuition discriminate|]. split.
  - intros k I. apply O. unfold STAR_NAN in I. cbn in I. cbn. intuition (subst; discriminate).
  - intros k N NS. rewrite nan_other by now apply star_other. rewrite put_eq. destruct (String.eqb_spec k "state"); easy.
Qed.
Print Assumptions C90_state.

(** Stars never come out heavier than their cores went in; the companion of a single common envelope keeps its mass. *)
Theorem C90_masses :
  forall c donor k1 comp k2 double a l, phase c donor k1 comp k2 double a = Ok l ->
  l_m1 l <= c_mass k1 /\ l_m2 l <= c_mass k2 /\ (double = false -> l_m2 l = c_mass k2 /\ l_r2 l = c_radius k2).
Proof.
  intros c donor k1 comp k2 db a l H.
  assert (PM : forall m1 r1 m2 r2, post_CE_core_masses donor k1 comp k2 db = Ok (m1, r1, (m2, r2)) -> m1 <= c_mass k1 /\ m2 <= c_mass k2 /\ (db = false -> m2 = c_mass k2 /\ r2 = c_radius k2)).
  { intros m1 r1 m2 r2 E. unfold post_CE_core_masses in E. cbv zeta in E. apply rb in E. destruct E as (x1 & _ & E). apply rb in E.
    destruct E as (y1 & _ & E). assert (L : forall x k, (if Rltb k x then k else x) <= k) by (intros x k; unfold Rltb; destruct (Rlt_dec k x); lra).
    destruct db; cbn [negb] in E.
    - apply rb in E. destruct E as (x2 & _ & E). apply rb in E. destruct E as (y2 & _ & E). injection E as <- <- <- <-.
      split; [apply L|]. split; [apply L|discriminate].
    - injection E as <- <- <- <-. split; [apply L|]. split; [lra|auto]. }
  assert (W : windloss c donor k1 comp k2 db a = Ok l -> l_m1 l <= c_mass k1 /\ l_m2 l <= c_mass k2 /\ (db = false -> l_m2 l = c_mass k2 /\ l_r2 l = c_radius k2)).
  { intros E. unfold windloss in E. apply rb in E. destruct E as (x & X & E). destruct (post_surj x) as (m1 & r1 & m2 & r2 & ->). cbv zeta in E. cbn [fst snd] in E.
    apply PM in X. destruct (overflow _ _ _ _ _ _).
    - assert (Z := eq_sym E). injection Z as ->. cbn. split; [lra|]. split; [lra|]. intros D. split; [reflexivity|tauto].
    - apply rb in E. destruct E as (p1 & _ & E). apply rb in E. destruct E as (p2 & _ & E). assert (Z := eq_sym E). injection Z as ->. cbn. exact X. }
  unfold phase in H. destruct (String.eqb (option_after c) "one_phase_variable_core_definition").
  { assert (Z := eq_sym H). injection Z as ->. cbn. split; [lra|]. split; [lra|auto]. }
  destruct (String.eqb (option_after c) "two_phases_stableMT").
  - unfold stableMT in H. destruct db; [now apply W|]. apply rb in H. destruct H as (x & X & E). destruct (post_surj x) as (m1 & r1 & m2 & r2 & ->).
    cbv zeta in E. cbn [fst snd] in E. apply PM in X. destruct (overflow _ _ _ _ _ _).
    + assert (Z := eq_sym E). injection Z as ->. cbn. split; [lra|]. split; [lra|]. intros D. split; [reflexivity|tauto].
    + apply rb in E. destruct E as (p1 & _ & E). assert (Z := eq_sym E). injection Z as ->. cbn. exact X.
  - destruct (String.eqb (option_after c) "two_phases_windloss"); [now apply W|discriminate].
Qed.
Print Assumptions C90_masses.

(** Unknown options are found only when the step runs, unknown keywords when it is made. *)
Theorem C90_options :
  forall c e b d double, attr b "event" = VText (ce_event d double) -> ~ merges_at_once c (donor_of d b "state") ->
  (prescription c <> "alpha-lambda" -> call c e b = Raise ValueError) /\
  (~ In (option_after c) ["one_phase_variable_core_definition"; "two_phases_stableMT"; "two_phases_windloss"] -> forall b', call c e b <> Ok b') /\
  forall kwargs, init_ok kwargs = true <->
    forall k, In k kwargs -> In k ["prescription"; "common_envelope_efficiency"; "common_envelope_lambda_default"; "common_envelope_option_for_lambda";
      "common_envelope_option_for_HG_star"; "common_envelope_alpha_thermal"; "core_definition_H_fraction"; "core_definition_He_fraction";
      "CEE_tolerance_err"; "verbose"; "common_envelope_option_after_succ_CEE"; "mass_loss_during_CEE_merged"; "metallicity"; "track_matcher"].
Proof.
  intros c e b d db E N. split; [|split].
  - intros P. destruct (call_donor b d db E) as [E1 E2]. unfold call. rewrite E1. cbn [rbind]. rewrite <- at_once_spec in N.
    apply not_true_is_false in N. rewrite N. destruct (String.eqb_spec (prescription c) "alpha-lambda"); easy.
  - intros O b' H. destruct (C90_outcome c e b b' d db E N H) as (k1 & k2 & m1 & lr1 & m2 & lr2 & P & rc2 & l & _ & _ & _ & _ & _ & _ & _ & _ & _ & _ & _ & _ & PH & _).
    unfold phase in PH. destruct (String.eqb_spec (option_after c) "one_phase_variable_core_definition"); [apply O; cbn; auto|].
    destruct (String.eqb_spec (option_after c) "two_phases_stableMT"); [apply O; cbn; auto|].
    destruct (String.eqb_spec (option_after c) "two_phases_windloss"); [apply O; cbn; auto|discriminate].
  - intros kwargs. unfold init_ok. rewrite forallb_forall. split; intros H k K; specialize (H k K); now apply mem_in.
Qed.
Print Assumptions C90_options.

(** ** A double common envelope in two phases gives the companion the radius of the donor's core. *)
Theorem C90_companion_radius_refuted :
  forall c e b b' d, attr b "event" = VText (ce_event d true) -> ~ merges_at_once c (donor_of d b "state") -> call c e b = Ok b' ->
  option_after c <> "one_phase_variable_core_definition" -> attr b' "state" = VText "detached" ->
  exists r, comp_of d b' "he_core_radius" = VNum r /\
    (donor_of d b "he_core_radius" = VNum r \/ donor_of d b "co_core_radius" = VNum r).
Proof.
  intros c e b b' d E N H O S0.
  destruct (C90_outcome c e b b' d true E N H) as (k1 & k2 & m1 & lr1 & m2 & lr2 & P & rc2 & l & HP & K1 & M1 & L1 & M2 & L2 & PP & KD & _ & _ & _ & _ & PH & EJ & MG).
  destruct (l_merger l) eqn:ML.
  { destruct (MG eq_refl) as (x1 & x2 & _ & _ & S1 & _). rewrite S1 in S0. discriminate. }
  destruct (EJ eq_refl) as (_ & _ & _ & BC). destruct (BC eq_refl) as (_ & _ & _ & _ & HR & _). exists (l_r2 l). split; [exact HR|].
  assert (W : exists k2', windloss c (donor_of d b) k1 (comp_of d b) k2' true (separation_after (efficiency c) P m1 (Rpower 10 lr1) k1 m2 (Rpower 10 lr2) k2 true) = Ok l).
  { eexists. unfold phase in PH. destruct (String.eqb_spec (option_after c) "one_phase_variable_core_definition"); [easy|].
    destruct (String.eqb (option_after c) "two_phases_stableMT"); [exact PH|]. destruct (String.eqb (option_after c) "two_phases_windloss"); [exact PH|discriminate]. }
  destruct W as (k2' & W). unfold windloss in W. apply rb in W. destruct W as (x & X & W). destruct (post_surj x) as (a & r1 & b2 & r2 & ->).
  assert (RR : donor_of d b "he_core_radius" = VNum r2 \/ donor_of d b "co_core_radius" = VNum r2).
  { unfold post_CE_core_masses in X. cbv zeta in X. apply rb in X. destruct X as (y1 & _ & X). apply rb in X. destruct X as (y2 & _ & X). cbn [negb] in X.
    apply rb in X. destruct X as (y3 & _ & X). apply rb in X. destruct X as (y4 & Y & X). injection X as _ _ _ <-.
    assert (RD : forall f n x, rd f n = Ok x -> f n = VNum x).
    { intros f n x R0. unfold rd in R0. destruct (f n); try discriminate. now injection R0 as <-. }
    apply RD in Y. destruct (String.eqb (c_type k2') "He_core"); cbn [snd] in Y; [left|right]; exact Y. }
  cbv zeta in W. cbn [fst snd] in W. destruct (overflow _ _ _ _ _ _).
  - assert (Z := eq_sym W). injection Z as ->. exact RR.
  - apply rb in W. destruct W as (p1 & _ & W). apply rb in W. destruct W as (p2 & _ & W). assert (Z := eq_sym W). injection Z as ->. exact RR.
Qed.
Print Assumptions C90_companion_radius_refuted.

(** ** C91: mass lost by stars that merge inside the envelope *)
Lemma roche_some m1 m2 : 0 < m1 -> 0 < m2 -> exists f, 0 < f /\ forall a, 0 < a -> roche_of (Some m1) (Some m2) (Some a) = Some (a * f).
Proof.
  intros H1 H2. destruct (C18_numbers m1 m2 1 H1 H2 ltac:(lra)) as (r & s & R & _ & B & _ & K & _). exists r. split; [lra|].
  intros a A. specialize (K a A). rewrite Rmult_1_r in K. exact K.
Qed.
(** Without the profile of every star that has an envelope nothing is lost. *)
Theorem C91_no_profile :
  forall c e donor comp m1 r1 k1 m2 r2 k2 a double,
  donor "profile" = VNone \/ (double = true /\ comp "profile" = VNone) -> mass_loss c e donor comp m1 r1 k1 m2 r2 k2 a double = Ok (0, 0).
Proof.
  intros c e donor comp m1 r1 k1 m2 r2 k2 a db H. unfold mass_loss, no_profile. destruct H as [->|[-> ->]].
  - now destruct db.
  - cbn [negb andb orb]. now rewrite orb_true_r.
Qed.
Print Assumptions C91_no_profile.

(** With its profile, the donor of a single common envelope can never merge: the step fails. *)
Theorem C91_single_refuted :
  forall c e donor comp m1 r1 k1 m2 r2 k2 a, donor "profile" <> VNone ->
  (forall x, mass_loss c e donor comp m1 r1 k1 m2 r2 k2 a false <> Ok x) /\
  (forall b b' d, attr b "event" = VText (ce_event d false) -> ~ merges_at_once c (donor_of d b "state") -> donor_of d b "profile" <> VNone ->
     loss_when_merged c = true -> call c e b = Ok b' -> attr b' "state" = VText "detached").
Proof.
  assert (A : forall c e donor comp m1 r1 k1 m2 r2 k2 a, donor "profile" <> VNone -> forall x, mass_loss c e donor comp m1 r1 k1 m2 r2 k2 a false <> Ok x).
  { intros c e donor comp m1 r1 k1 m2 r2 k2 a H x E. unfold mass_loss in E. cbn [negb andb orb] in E.
    assert (N : no_profile donor = false) by (unfold no_profile; destruct (donor "profile"); easy). rewrite N in E. cbn [andb orb] in E.
    destruct (roche_of _ _ _); [|discriminate]. destruct (roche_of _ _ _); [|discriminate]. cbv zeta in E. apply rb in E. destruct E as (y & _ & E). discriminate. }
  intros c e donor comp m1 r1 k1 m2 r2 k2 a H. split; [now apply A|].
  intros b b' d E N P L C.
  destruct (C90_outcome c e b b' d false E N C) as (k & k' & n1 & lr1 & n2 & lr2 & Q & rc2 & l & _ & _ & _ & _ & _ & _ & _ & _ & _ & _ & _ & _ & _ & EJ & MG).
  destruct (l_merger l).
  - destruct (MG eq_refl) as (x1 & x2 & _ & ML & _). exfalso. eapply A; [exact P|exact (ML L)].
  - destruct (EJ eq_refl) as (RL & _). apply RL.
Qed.
Print Assumptions C91_single_refuted.

(** In a double common envelope: the orbit shrinks to where the first core fills its lobe; the energy it frees is shared by the masses of the
    envelopes; no star loses its core. *)
Theorem C91_double :
  forall c e donor comp m1 r1 k1 m2 r2 k2 a x1 x2, mass_loss c e donor comp m1 r1 k1 m2 r2 k2 a true = Ok (x1, x2) ->
  donor "profile" <> VNone -> comp "profile" <> VNone -> 0 < c_mass k1 < m1 -> 0 < c_mass k2 < m2 -> 0 < c_radius k1 -> 0 < c_radius k2 ->
  exists A L1 L2 e1 e2 y1 y2,
    0 < A /\ roche_of (Some (c_mass k1)) (Some (c_mass k2)) (Some A) = Some L1 /\ roche_of (Some (c_mass k2)) (Some (c_mass k1)) (Some A) = Some L2 /\
    c_radius k1 <= L1 /\ c_radius k2 <= L2 /\ (c_radius k1 = L1 \/ c_radius k2 = L2) /\
    e1 + e2 = efficiency c * (orbital_energy m1 m2 a - orbital_energy (c_mass k1) (c_mass k2) (A * 6.9598e10)) /\
    e1 * (m2 - c_mass k2) = e2 * (m1 - c_mass k1) /\
    ejected e donor e1 (c_mass k1) (c_radius k1) m1 r1 = Ok y1 /\ ejected e comp e2 (c_mass k2) (c_radius k2) m2 r2 = Ok y2 /\
    (y1 <= m1 - c_mass k1 -> x1 = y1) /\ (m1 - c_mass k1 < y1 -> m1 - x1 = c_mass k1 + 0.01) /\ c_mass k1 <= m1 - x1 /\
    (y2 <= m2 - c_mass k2 -> x2 = y2) /\ (m2 - c_mass k2 < y2 -> m2 - x2 = c_mass k2 + 0.01) /\ c_mass k2 <= m2 - x2.
Proof.
  intros c e donor comp m1 r1 k1 m2 r2 k2 a x1 x2 E PD PC C1 C2 R1 R2.
  assert (N1 : no_profile donor = false) by (unfold no_profile; destruct (donor "profile"); easy).
  assert (N2 : no_profile comp = false) by (unfold no_profile; destruct (comp "profile"); easy).
  unfold mass_loss in E. rewrite N1, N2 in E. cbn [negb andb orb] in E. cbv zeta in E.
  destruct (roche_some (c_mass k1) (c_mass k2)) as (f1 & F1 & S1); [lra|lra|]. destruct (roche_some (c_mass k2) (c_mass k1)) as (f2 & F2 & S2); [lra|lra|].
  rewrite (S1 1), (S2 1), !Rmult_1_l in E by lra. apply rb in E. destruct E as (y1 & Y1 & E). apply rb in E. destruct E as (y2 & Y2 & E).
  set (A := Rmax (c_radius k1 / f1) (c_radius k2 / f2)) in *.
  assert (Q1 : 0 < c_radius k1 / f1) by now apply Rdiv_lt_0_compat. assert (Q2 : 0 < c_radius k2 / f2) by now apply Rdiv_lt_0_compat.
  assert (A1 : c_radius k1 / f1 <= A) by apply Rmax_l. assert (A2 : c_radius k2 / f2 <= A) by apply Rmax_r.
  assert (B1 : c_radius k1 / f1 * f1 = c_radius k1) by (field; lra). assert (B2 : c_radius k2 / f2 * f2 = c_radius k2) by (field; lra).
  exists A, (A * f1), (A * f2). do 2 eexists. exists y1, y2. split; [lra|]. split; [apply S1; lra|]. split; [apply S2; lra|].
  split; [rewrite <- B1 at 1; apply Rmult_le_compat_r; lra|]. split; [rewrite <- B2 at 1; apply Rmult_le_compat_r; lra|].
  split; [unfold A, Rmax; destruct (Rle_dec _ _); [right|left]; congruence|].
  change 0.01 with (1 / 100) in *.
  split; [|split; [|split; [exact Y1|split; [exact Y2|]]]].
  - unfold orbital_energy. change 6.9598e10 with Rsun. change 6.67428e-8 with standard_cgrav. change 1.9892e33 with Msun.
    match goal with |- ?w * ?v + ?w * (1 - ?v) = _ => replace (w * v + w * (1 - v)) with w by ring end. apply f_equal.
    unfold Rdiv. ring.
  - cbv beta. match goal with |- ?w * ?v * _ = _ => generalize w end. intros w. field. apply Rgt_not_eq. lra.
  - unfold Rltb in E. destruct (Rlt_dec (m1 - c_mass k1) y1), (Rlt_dec (m2 - c_mass k2) y2); injection E as <- <-; repeat split; intros; lra.
Qed.
Print Assumptions C91_double.

(** The reserve of 0.01 Msun is kept even by an envelope of less: the star then gains mass by losing its envelope. *)
Theorem C91_gain_refuted :
  forall c e donor comp m1 r1 k1 m2 r2 k2 a x1 x2, mass_loss c e donor comp m1 r1 k1 m2 r2 k2 a true = Ok (x1, x2) ->
  donor "profile" <> VNone -> comp "profile" <> VNone ->
  (forall e1 mc rc m r y, ejected e donor e1 mc rc m r = Ok y -> 0.01 <= y) -> m1 - c_mass k1 < 0.01 ->
  m1 < m1 - x1.
Proof.
  intros c e donor comp m1 r1 k1 m2 r2 k2 a x1 x2 E PD PC J L.
  assert (N1 : no_profile donor = false) by (unfold no_profile; destruct (donor "profile"); easy).
  assert (N2 : no_profile comp = false) by (unfold no_profile; destruct (comp "profile"); easy).
  unfold mass_loss in E. rewrite N1, N2 in E. cbn [negb andb orb] in E. cbv zeta in E.
  destruct (roche_of _ _ _); [|discriminate]. destruct (roche_of _ _ _); [|discriminate].
  apply rb in E. destruct E as (y1 & Y1 & E). apply rb in E. destruct E as (y2 & Y2 & E). apply J in Y1.
  unfold Rltb in E. destruct (Rlt_dec (m1 - c_mass k1) y1); [|lra]. destruct (Rlt_dec (m2 - c_mass k2) y2); injection E as <- <-; lra.
Qed.
Print Assumptions C91_gain_refuted.

(** ** Runs *)
Lemma no_overflow m1 r1 m2 r2 a tol : 0 < m1 -> 0 < m2 -> 0 < a -> r1 < tol -> r2 < tol -> check_for_RLO (Some m1) (Some r1) (Some m2) (Some r2) (Some a) tol = false.
Proof.
  intros H1 H2 HA R1 R2. apply C18_check. destruct (roche_some m1 m2 H1 H2) as (f & F & E). destruct (roche_some m2 m1 H2 H1) as (g & G & E').
  exists m1, r1, m2, r2, a, (a * f), (a * g). repeat split; try easy; try lra; try (now apply E); try (now apply E'); nra.
Qed.
Lemma sure_overflow m1 r1 m2 r2 a tol : 0 < m1 -> 0 < m2 -> 0 < a -> 0 < tol -> a + tol <= r1 -> check_for_RLO (Some m1) (Some r1) (Some m2) (Some r2) (Some a) tol = true.
Proof.
  intros H1 H2 HA T R1. destruct (check_for_RLO _ _ _ _ _ _) eqn:E; [reflexivity|]. exfalso. apply C18_check in E.
  destruct E as (x & rx & y & ry & s & lx & ly & X & RX & Y & RY & SS & _ & _ & _ & L & _ & B & _).
  injection X as <-. injection RX as <-. injection Y as <-. injection RY as <-. injection SS as <-.
  destruct (C18_numbers m1 m2 a H1 H2 HA) as (r & q & E1 & _ & B1 & _). rewrite E1 in L. injection L as <-. lra.
Qed.
Definition giant (m mc rc : R) : star := fun k =>
  if String.eqb k "state" then VText "H-rich_Core_He_burning" else if String.eqb k "mass" then VNum m else if String.eqb k "log_R" then VNum 2
  else if String.eqb k "he_core_mass" then VNum mc else if String.eqb k "he_core_radius" then VNum rc
  else if String.eqb k "profile" then VProfile else VNone.
Definition orbit (event : string) : string -> val := fun k =>
  if String.eqb k "event" then VText event else if String.eqb k "orbital_period" then VNum 1000 else if String.eqb k "time" then VNum 0 else VNone.
Definition alike : config := Config "alpha-lambda" 1 0.5 "default_lambda" "optimistic" 0.3 0.1 100 "two_phases_windloss" true.
Definition world : env := Env (fun _ _ => Raise ValueError) (fun _ _ _ _ _ _ => Ok 2) (fun _ => Ok None) (fun _ => Ok "stripped_He_Core_He_burning").
Lemma not_at_once m mc rc : ~ merges_at_once alike (giant m mc rc "state").
Proof. unfold merges_at_once. cbn. intuition discriminate. Qed.

Example C90_example :
  let b := Bin (orbit "oDoubleCE1") (giant 10 4 1) (giant 9 3 0.5) in
  exists b', call alike world b = Ok b' /\ attr b' "state" = VText "detached" /\ star_2 b' "he_core_radius" = VNum 1 /\ star_2 b' "mass" = VNum 3.
Proof.
  intros b.
  set (k1 := Core (Some 0.5) 4 1 "He_core"). set (k2 := Core (Some 0.5) 3 0.5 "He_core").
  assert (C1 : forall m mc rc, calculate_lambda_CE alike world (giant m mc rc) = Ok (Core (Some 0.5) mc rc "He_core")).
  { intros m mc rc. unfold calculate_lambda_CE, core_type. change (is_in (giant m mc rc "state") POST_MS) with true. cbv iota.
    change (H_fraction alike) with 0.3. assert (Z : Reqb 0.3 0.3 = true) by (unfold Reqb; destruct (Req_EM_T 0.3 0.3); easy).
    rewrite Z, orb_true_r. reflexivity. }
  set (a := separation_after 1 1000 10 (Rpower 10 2) k1 9 (Rpower 10 2) k2 true).
  assert (A : 0 < a).
  { apply (C88_energy 1 1000 10 (Rpower 10 2) k1 9 (Rpower 10 2) k2 true). unfold meaningful, positive, k1, k2. cbn.
    repeat split; try lra; apply Rpower_pos. }
  assert (RS : 0 < Rsun) by (unfold Rsun; lra).
  assert (A' : 0 < a / Rsun) by (now apply Rdiv_lt_0_compat).
  assert (PC : forall P m M, period_change_stable_MT P m m M 1 0 = Ok (P * Rpower (m / m) (3 * (1 - 1)) * Rpower ((M + (1 - 0) * (1 - 1) * (m - m)) / M) (3 / (0 - 1)) * ((m + M) / (m + (M + (1 - 0) * (1 - 1) * (m - m)))) ^ 2)).
  { intros P m M. unfold period_change_stable_MT. cbv zeta. assert (F : forall x y, ~ x < y -> Rltb x y = false) by (intros x y N; unfold Rltb; destruct (Rlt_dec x y); easy).
    rewrite !F by lra. cbn [orb]. unfold Reqb. destruct (Req_EM_T 0 1); [lra|]. reflexivity. }
  assert (PH : exists P, phase alike (giant 10 4 1) k1 (giant 9 3 0.5) k2 true a = Ok (Left 4 1 3 1 (orbital_separation_from_period P 4 3) P false)).
  { unfold phase. cbn [option_after alike String.eqb Ascii.eqb Bool.eqb]. unfold windloss, post_CE_core_masses.
    cbn -[period_change_stable_MT orbital_period_from_separation orbital_separation_from_period overflow Rltb].
    assert (F : forall x, Rltb x x = false) by (intros x; unfold Rltb; destruct (Rlt_dec x x); [lra|easy]). rewrite !F.
    unfold overflow at 1. change (tolerance alike) with 100. rewrite no_overflow by (lra || exact A').
    rewrite PC. cbn [rbind]. rewrite PC. cbn [rbind]. eexists. unfold overflow. change (tolerance alike) with 100. rewrite no_overflow; [reflexivity|try lra..].
    apply separation_pos. }
  destruct PH as (P & PH).
  assert (EV : call alike world b = upon_ejection alike world true b k1 k2 true (Left 4 1 3 1 (orbital_separation_from_period P 4 3) P false)).
  { unfold call. change (is_in (attr b "event") ["oCE1"; "oDoubleCE1"]) with true. cbv iota. cbn [rbind].
    change (is_in (donor_of true b "state") MERGEABLE || (String.eqb (option_for_HG alike) "pessimistic" && is_in (donor_of true b "state") ["H-rich_Shell_H_burning"])) with false.
    change (String.eqb (prescription alike) "alpha-lambda") with true. cbv iota.
    change (is_in (attr b "event") ["oDoubleCE1"; "oDoubleCE2"]) with true. cbv iota.
    change (donor_of true b) with (giant 10 4 1). change (comp_of true b) with (giant 9 3 0.5). rewrite !C1. cbn [rbind].
    unfold simple_alpha_prescription. change (rd (donor_of true b) "mass") with (Ok (A:=R) 10). change (rd (donor_of true b) "log_R") with (Ok (A:=R) 2).
    change (rd (comp_of true b) "mass") with (Ok (A:=R) 9). change (rd (comp_of true b) "log_R") with (Ok (A:=R) 2).
    change (rd (attr b) "orbital_period") with (Ok (A:=R) 1000). cbn [rbind]. cbv zeta. fold k1. fold k2. change (efficiency alike) with 1. fold a.
    assert (NT : Rltb a (- tolerance alike) = false) by (unfold Rltb; change (tolerance alike) with 100; destruct (Rlt_dec a _); [lra|easy]).
    rewrite NT. cbn [negb andb rbind]. change (Core (c_lambda k2) (c_mass k2) (c_radius k2) (c_type k2)) with k2.
    change (donor_of true b) with (giant 10 4 1). change (comp_of true b) with (giant 9 3 0.5). rewrite PH. reflexivity. }
  rewrite EV. eexists. split; [reflexivity|]. repeat split.
Qed.

(** Two giants whose cores are larger than the orbit: they merge, and each loses its 2 Msun; the third giant has almost no envelope and gains mass. *)
Example C91_example :
  let r := 1000 * orbital_separation_from_period 1000 10 9 + 1000 in
  let c := Config "alpha-lambda" 1 0.5 "default_lambda" "optimistic" 0.3 0.1 100 "one_phase_variable_core_definition" true in
  forall m, (m = 4 \/ m = 9.995) ->
  exists b', call c world (Bin (orbit "oDoubleCE1") (giant 10 m r) (giant 9 3 0.5)) = Ok b' /\ attr b' "state" = VText "merged" /\
    (m = 4 -> star_1 b' "mass" = VNum (10 - 2)) /\ (m = 9.995 -> exists x, star_1 b' "mass" = VNum x /\ 10 < x) /\ star_2 b' "mass" = VNum (9 - 2).
Proof.
  intros r c m M. set (b := Bin (orbit "oDoubleCE1") (giant 10 m r) (giant 9 3 0.5)).
  set (k1 := Core (Some 0.5) m r "He_core"). set (k2 := Core (Some 0.5) 3 0.5 "He_core").
  assert (M0 : 0 < m <= 10) by (destruct M; lra).
  assert (C1 : forall m mc rc, calculate_lambda_CE c world (giant m mc rc) = Ok (Core (Some 0.5) mc rc "He_core")).
  { intros m' mc rc. unfold calculate_lambda_CE, core_type. change (is_in (giant m' mc rc "state") POST_MS) with true. cbv iota.
    change (H_fraction c) with 0.3. assert (Z : Reqb 0.3 0.3 = true) by (unfold Reqb; destruct (Req_EM_T 0.3 0.3); easy).
    rewrite Z, orb_true_r. reflexivity. }
  set (a := separation_after 1 1000 10 (Rpower 10 2) k1 9 (Rpower 10 2) k2 true).
  assert (S0 : 0 < orbital_separation_from_period 1000 10 9) by apply separation_pos.
  assert (A : 0 < a <= 6.9598e10 * orbital_separation_from_period 1000 10 9).
  { destruct (C88_energy 1 1000 10 (Rpower 10 2) k1 9 (Rpower 10 2) k2 true) as (Z1 & _ & (Z2 & Z3) & _).
    - unfold meaningful, positive, k1, k2. cbn [c_mass c_lambda]. repeat split; try lra; apply Rpower_pos.
    - fold a in Z1, Z2. split; [exact Z1|]. eapply Rle_trans; [exact Z2|exact Z3]. }
  assert (RS : 0 < Rsun) by (unfold Rsun; lra).
  assert (A' : 0 < a / Rsun) by (now apply Rdiv_lt_0_compat).
  assert (A2 : a / Rsun <= orbital_separation_from_period 1000 10 9).
  { apply Rmult_le_reg_r with Rsun; [exact RS|]. replace (a / Rsun * Rsun) with a by (field; apply Rgt_not_eq; exact RS).
    rewrite Rmult_comm. apply A. }
  assert (R0 : 0 < r) by (unfold r; lra).
  assert (PH : exists l, phase c (giant 10 m r) k1 (giant 9 3 0.5) k2 true a = Ok l /\ l_merger l = true).
  { eexists. split; [reflexivity|]. unfold one_phase. cbv zeta. cbn [l_merger]. unfold overflow. change (tolerance c) with 100.
    unfold k1, k2. cbn [c_mass c_radius]. apply sure_overflow; try lra. unfold r. lra. }
  destruct PH as (l & PH & L).
  destruct (roche_some m 3) as (f1 & F1 & S1); [lra|lra|]. destruct (roche_some 3 m) as (f2 & F2 & S2); [lra|lra|].
  assert (ML : mass_loss c world (giant 10 m r) (giant 9 3 0.5) 10 (Rpower 10 2) k1 9 (Rpower 10 2) k2 (separation_before 1000 10 9) true
    = Ok (if Rltb (10 - m) 2 then 10 - m - 0.01 else 2, 2)).
  { unfold mass_loss. change (no_profile (giant 10 m r)) with false. change (no_profile (giant 9 3 0.5)) with false. cbn [negb andb orb].
    unfold k1, k2. cbn [c_mass c_radius]. rewrite (S1 1), (S2 1) by lra. cbv zeta. cbn [world ejected rbind].
    unfold Rltb at 2. destruct (Rlt_dec (9 - 3) 2); [lra|]. reflexivity. }
  assert (EV : call c world b = Ok (upon_merger true b 10 9 k1 k2 (if Rltb (10 - m) 2 then 10 - m - 0.01 else 2) 2)).
  { unfold call. change (is_in (attr b "event") ["oCE1"; "oDoubleCE1"]) with true. cbv iota. cbn [rbind].
    change (is_in (donor_of true b "state") MERGEABLE || (String.eqb (option_for_HG c) "pessimistic" && is_in (donor_of true b "state") ["H-rich_Shell_H_burning"])) with false.
    change (String.eqb (prescription c) "alpha-lambda") with true. cbv iota.
    change (is_in (attr b "event") ["oDoubleCE1"; "oDoubleCE2"]) with true. cbv iota.
    change (donor_of true b) with (giant 10 m r). change (comp_of true b) with (giant 9 3 0.5). rewrite !C1. cbn [rbind].
    unfold simple_alpha_prescription. change (rd (donor_of true b) "mass") with (Ok (A:=R) 10). change (rd (donor_of true b) "log_R") with (Ok (A:=R) 2).
    change (rd (comp_of true b) "mass") with (Ok (A:=R) 9). change (rd (comp_of true b) "log_R") with (Ok (A:=R) 2).
    change (rd (attr b) "orbital_period") with (Ok (A:=R) 1000). cbn [rbind]. cbv zeta. fold k1. fold k2. change (efficiency c) with 1. fold a.
    assert (NT : Rltb a (- tolerance c) = false) by (unfold Rltb; change (tolerance c) with 100; destruct (Rlt_dec a _); [lra|easy]).
    rewrite NT. cbn [negb andb rbind]. change (Core (c_lambda k2) (c_mass k2) (c_radius k2) (c_type k2)) with k2.
    change (donor_of true b) with (giant 10 m r). change (comp_of true b) with (giant 9 3 0.5). rewrite PH. cbn [rbind]. rewrite L.
    change (loss_when_merged c) with true. cbv iota. rewrite ML. cbn [rbind fst snd]. reflexivity. }
  rewrite EV. eexists. split; [reflexivity|]. split; [reflexivity|].
  split; [intros Z|split; [intros Z|reflexivity]].
  - unfold Rltb. destruct (Rlt_dec (10 - m) 2); [lra|]. reflexivity.
  - eexists. split; [reflexivity|]. unfold Rltb. destruct (Rlt_dec (10 - m) 2); lra.
Qed.

(** After an ejection the grid's lambda is NaN but its core is still that of the old star: a second common envelope takes the old core and,
    with C88_free_ejection, ejects for free. *)
Theorem C90_second_envelope_refuted :
  forall c e s s' type m r k, bare_core c s s' type m r -> option_for_lambda c = "lambda_from_grid_final_values" -> calculate_lambda_CE c e s' = Ok k ->
  c_lambda k = None /\ exists name, In name ["m_core_CE_1cent"; "m_core_CE_10cent"; "m_core_CE_30cent"; "m_core_CE_pure_He_star_10cent"] /\ s name = VNum (c_mass k).
Proof.
  intros c e s s' type m r k B O K. destruct (C90_core c e s') as (_ & _ & _ & G). destruct (G k K O) as (l & mn & rn & L & M & _ & N). clear G.
  destruct B as (_ & _ & _ & _ & _ & _ & _ & NN & U).
  assert (NM : forall l k, mem k l = false -> ~ In k l) by (intros l0 k0 F I; apply mem_in in I; congruence).
  destruct N as [(_ & -> & -> & _)|[(_ & _ & -> & -> & _)|[(_ & _ & -> & -> & _)|(_ & _ & -> & -> & _)]]].
  all: rewrite NN in L by (cbn; tauto); split; [exact L|]; rewrite U in M by (apply NM; reflexivity); eexists; split; [|exact M]; cbn; tauto.
Qed.
Print Assumptions C90_second_envelope_refuted.
