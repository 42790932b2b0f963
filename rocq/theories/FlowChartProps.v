(** Properties C01-C05: the evolution flow chart. *)
From Coq Require Import String List Bool Lia.
From Verif Require Import PyBase FlowChartModel FlowChartSpec FlowChartProofs.
Import ListNotations.

(** C01 *)
Theorem flow_chart_is_rule_table : forall s1 s2 b e,
  chart_get POSYDON_FLOW_CHART (Key s1 s2 b e) = spec_step s1 s2 b e.
Proof. exact chart_is_spec. Qed.

Theorem flow_chart_steps_documented : forall k st,
  chart_get POSYDON_FLOW_CHART k = Some st -> documented_step st = true.
Proof. exact chart_documented. Qed.

Theorem flow_chart_unknown_names : forall k,
  known_key k = false -> chart_get POSYDON_FLOW_CHART k = None.
Proof. exact chart_unknown. Qed.

Example flow_chart_cases :
  chart_get POSYDON_FLOW_CHART (Key HR_Core_H_burning HR_Core_H_burning detached ZAMS) = Some step_HMS_HMS
  /\ chart_get POSYDON_FLOW_CHART (Key BH HR_Core_He_burning RLO2 oRLO2) = Some step_CO_HMS_RLO
  /\ chart_get POSYDON_FLOW_CHART (Key BH acc_non_burning detached EvNone) = Some step_CO_HeMS
  /\ chart_get POSYDON_FLOW_CHART (Key HR_Core_H_burning HR_Core_H_burning RLO1 oRLO1) = None
  /\ chart_get POSYDON_FLOW_CHART (Key WD (SOther "accreted_He_Core_C_burning") detached EvNone) = None.
Proof. rewrite !chart_is_spec. repeat split. Qed.

(** The states refused by run_step before the chart is consulted have no entry either. *)
Theorem undefined_states_have_no_step : forall k, In k UNDEFINED_STATES ->
  chart_get POSYDON_FLOW_CHART k = None.
Proof. exact undefined_no_step. Qed.
Example undefined_states_nonempty : In (Key NS HR_Core_H_burning detached CC2) UNDEFINED_STATES.
Proof. cbn. tauto. Qed.

(** C02: labels matter exactly in contact common envelopes with one ordinary star. *)
Theorem flow_chart_mirror_iff : forall k,
  chart_get POSYDON_FLOW_CHART (mirror_key k) = chart_get POSYDON_FLOW_CHART k
  <-> label_dependent k = false.
Proof. exact mirror_iff. Qed.

Theorem flow_chart_mirror_exception : forall k, label_dependent k = true ->
  chart_get POSYDON_FLOW_CHART k = if ordinary (k2 k) then Some step_CE else None.
Proof. exact mirror_value. Qed.

Theorem flow_chart_mirror_refuted : exists k,
  known_key k = true /\
  chart_get POSYDON_FLOW_CHART (mirror_key k) <> chart_get POSYDON_FLOW_CHART k.
Proof. exact mirror_refuted. Qed.

Example flow_chart_mirror_case :
  label_dependent (Key HR_Core_He_burning NS RLO1 oRLO1) = false
  /\ label_dependent (Key HR_Core_He_burning HR_Core_H_burning contact oCE1) = false
  /\ label_dependent (Key HR_Core_He_burning NS contact oCE1) = true.
Proof. repeat split. Qed.

(** C03 *)
Theorem terminal_situations_end : forall s1 s2 b e,
  known_key (Key s1 s2 b e) = true ->
  (chart_get POSYDON_FLOW_CHART (Key s1 s2 b e) = Some step_end <-> finished s1 s2 b e).
Proof. exact ends_iff_finished. Qed.
Example terminal_case : finished BH BH disrupted EvNone
  /\ known_key (Key BH BH disrupted EvNone) = true
  /\ ~ finished BH BH detached EvNone.
Proof.
  split; [|split].
  - unfold finished. cbn. tauto.
  - reflexivity.
  - intros [H|[H|[[H _]|[[H _]|[[_ H]|(H & _)]]]]]; discriminate.
Qed.

(** C04 *)
Theorem flow_chart_overrides : forall h fc chg h' l',
  valid_fc h fc ->
  match chg with Some d => NoDup (dkeys d) | None => True end ->
  flow_chart h fc chg = (h', l') ->
  (forall k, chart_get (hget h' l') k = requested (chart_get (base_of h fc)) (chg_get chg) k)
  /\ dkeys (hget h' l') = dkeys (base_of h fc)
  /\ (forall l, l < length h -> fc <> Some l -> hget h' l = hget h l)
  /\ match fc with None => length h <= l' | Some l => l' = l end
  /\ l' < length h' /\ length h <= length h'.
Proof. exact flow_chart_result. Qed.

Theorem default_chart_never_modified : forall cs h, 0 < length h ->
  Forall (fun c => call_fc c <> Some default_loc) cs ->
  hget (do_calls h cs) default_loc = hget h default_loc.
Proof. exact do_calls_default. Qed.

(** A requested key that the base chart lacks is silently dropped. *)
Theorem new_keys_ignored : forall h fc chg h' l' k,
  valid_fc h fc -> NoDup (dkeys chg) ->
  flow_chart h fc (Some chg) = (h', l') ->
  chart_get (base_of h fc) k = None -> chart_get (hget h' l') k = None.
Proof. exact flow_chart_new_keys. Qed.

Example flow_chart_override_case :
  let h := [ [ (Key BH BH detached EvNone, step_dco); (Key NS NS detached EvNone, step_dco) ] ] in
  let chg := [ (Key NS NS detached EvNone, step_end); (Key WD WD detached ZAMS, step_SN) ] in
  NoDup (dkeys chg) /\
  flow_chart h None (Some chg)
  = (h ++ [ [ (Key BH BH detached EvNone, step_dco); (Key NS NS detached EvNone, step_end) ] ], 1)
  /\ flow_chart h (Some 0) (Some chg)
  = ([ [ (Key BH BH detached EvNone, step_dco); (Key NS NS detached EvNone, step_end) ] ], 0).
Proof.
  cbn zeta. split; [|split; reflexivity].
  repeat constructor; cbn; intuition discriminate.
Qed.

(** C05 *)
Theorem eccentric_chart_exact : forall h fc chg h' l',
  valid_fc h fc ->
  match chg with Some d => NoDup (dkeys d) | None => True end ->
  initial_eccentricity_flow_chart h fc chg = (h', l') ->
  (forall k, chart_get (hget h' l') k
     = ecc_expected (requested (chart_get (base_of h fc)) (chg_get chg)) k)
  /\ (forall l, l < length h -> fc <> Some l -> hget h' l = hget h l).
Proof. exact ecc_result. Qed.
Example eccentric_case :
  let h := [ [ (Key HR_Core_H_burning HR_Core_H_burning detached ZAMS, step_HMS_HMS);
               (Key BH BH detached EvNone, step_dco) ] ] in
  let '(h', l') := initial_eccentricity_flow_chart h None None in
  chart_get (hget h' l') (Key HR_Core_H_burning HR_Core_H_burning detached ZAMS) = Some step_detached
  /\ chart_get (hget h' l') (Key HR_Core_H_burning HR_Core_He_burning RLO1 oRLO1) = Some step_HMS_HMS_RLO
  /\ chart_get (hget h' l') (Key HR_Core_H_burning HR_Core_C_depleted RLO1 oRLO1) = None
  /\ chart_get (hget h' l') (Key BH BH detached EvNone) = Some step_dco
  /\ chart_get (hget h' 0) (Key HR_Core_H_burning HR_Core_H_burning detached ZAMS) = Some step_HMS_HMS.
Proof. vm_compute. repeat split. Qed.

Print Assumptions flow_chart_is_rule_table.
Print Assumptions flow_chart_steps_documented.
Print Assumptions flow_chart_unknown_names.
Print Assumptions undefined_states_have_no_step.
Print Assumptions flow_chart_mirror_iff.
Print Assumptions flow_chart_mirror_exception.
Print Assumptions flow_chart_mirror_refuted.
Print Assumptions terminal_situations_end.
Print Assumptions flow_chart_overrides.
Print Assumptions default_chart_never_modified.
Print Assumptions new_keys_ignored.
Print Assumptions eccentric_chart_exact.
