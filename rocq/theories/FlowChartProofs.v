From Coq Require Import String List Bool Lia.
From Verif Require Import PyBase FlowChartModel FlowChartSpec FlowChartRules.
Import ListNotations.

(* Unfold the dictionary itself only as a last resort. *)
Opaque POSYDON_FLOW_CHART.

Lemma rect_known : forall L1 L2 LB LE k,
  forallb known_star L1 = true -> forallb known_star L2 = true ->
  forallb known_bin LB = true -> forallb known_event LE = true ->
  rect L1 L2 LB LE k = true -> known_key k = true.
Proof.
  intros L1 L2 LB LE [a b c d] F1 F2 FB FE H. apply rect_iff in H as (Hc & Hd & Ha & Hb).
  unfold known_key. cbn [k1 k2 kb ke].
  rewrite forallb_forall in F1, F2, FB, FE.
  rewrite (F1 _ Ha), (F2 _ Hb), (FB _ Hc), (FE _ Hd). reflexivity.
Qed.

Definition rule_known (pv : (key -> bool) * step_name) :=
  forall k, fst pv k = true -> known_key k = true.

Lemma rules_known : Forall rule_known rules.
Proof.
  repeat apply Forall_cons; try apply Forall_nil; intros k H; cbn [fst] in H;
    unfold p_ce, p_cc, p_ZAMS, p_rZAMS, p_dn, p_dh, p_hrlo, p_rhrlo, p_dhe, p_rhe, p_herlo,
    p_rherlo, p_hehe, p_dco, p_irlof, p_single, p_dis, p_disco, p_mer, p_irz, p_max, p_mlco,
    p_ml2, sym, rlo in H;
    repeat (apply orb_true_iff in H as [H|H]);
    revert H; apply rect_known; reflexivity.
Qed.

Lemma run_rules_known : forall rs k, Forall rule_known rs -> known_key k = false ->
  run_rules rs k = None.
Proof.
  intros rs k H N. induction H as [|[p v] rs Hp H IH]; [reflexivity|].
  cbn. rewrite IH. specialize (Hp k). cbn in Hp.
  destruct (p k); [rewrite Hp in N by reflexivity; discriminate|reflexivity].
Qed.

Lemma chart_is_spec : forall s1 s2 b e,
  chart_get POSYDON_FLOW_CHART (Key s1 s2 b e) = spec_step s1 s2 b e.
Proof.
  intros s1 s2 b e. rewrite chart_rules.
  destruct (known_key (Key s1 s2 b e)) eqn:K.
  - unfold known_key in K. cbn [k1 k2 kb ke] in K.
    apply andb_true_iff in K as [K Ke]. apply andb_true_iff in K as [K Kb].
    apply andb_true_iff in K as [K1 K2].
    exact (opt_step_eqb_eq _ _ (all_keys_lift _ finite_agree _ _ _ _ K1 K2 Kb Ke)).
  - rewrite (run_rules_known _ _ rules_known K).
    unfold spec_step. unfold known_key in K. cbn [k1 k2 kb ke] in K. rewrite K. reflexivity.
Qed.

Lemma spec_unknown : forall k, known_key k = false -> spec_key k = None.
Proof. intros k K. unfold spec_key, spec_step. unfold known_key in K. rewrite K. reflexivity. Qed.

Lemma chart_key : forall k, chart_get POSYDON_FLOW_CHART k = spec_key k.
Proof. intros [a b c d]. apply chart_is_spec. Qed.

Lemma known_split : forall s1 s2 b e, known_key (Key s1 s2 b e) = true ->
  known_star s1 = true /\ known_star s2 = true /\ known_bin b = true /\ known_event e = true.
Proof.
  intros s1 s2 b e K. unfold known_key in K. cbn [k1 k2 kb ke] in K.
  apply andb_true_iff in K as [K Ke]. apply andb_true_iff in K as [K Kb].
  apply andb_true_iff in K as [K1 K2]. auto.
Qed.

Lemma finite_lift : forall f, all_keys_check f = true ->
  forall k, known_key k = true -> f k = true.
Proof.
  intros f H [a b c d] K. apply known_split in K as (K1 & K2 & K3 & K4).
  apply all_keys_lift; assumption.
Qed.

Lemma spec_some_known : forall k st, spec_key k = Some st -> known_key k = true.
Proof.
  intros k st H. destruct (known_key k) eqn:K; [reflexivity|].
  rewrite (spec_unknown _ K) in H. discriminate.
Qed.

Definition finishedb (k : key) : bool :=
  terminal_event (ke k)
  || match kb k with initial_RLOF => true | _ => false end
  || massless (k1 k) && massless (k2 k)
  || massless (k1 k) && compact (k2 k)
  || compact (k1 k) && massless (k2 k)
  || match kb k with disrupted => compact (k1 k) && compact (k2 k) | _ => false end.

Definition misc_check (k : key) (o : option step_name) : bool :=
  match o with
  | None => negb (finishedb k)
  | Some st => documented_step st && match st with step_end => finishedb k | _ => negb (finishedb k) end
  end.

Lemma finite_misc : all_keys_check (fun k => misc_check k (spec_key k)) = true.
Proof. vm_compute. reflexivity. Qed.

Lemma finishedb_iff : forall s1 s2 b e, finishedb (Key s1 s2 b e) = true <-> finished s1 s2 b e.
Proof.
  intros. unfold finishedb, finished. cbn [k1 k2 kb ke].
  rewrite !orb_true_iff, !andb_true_iff.
  destruct b; rewrite ?andb_true_iff; intuition congruence.
Qed.

Lemma chart_documented : forall k st,
  chart_get POSYDON_FLOW_CHART k = Some st -> documented_step st = true.
Proof.
  intros k st H. rewrite chart_key in H. pose proof (spec_some_known _ _ H) as K.
  assert (F : misc_check k (spec_key k) = true) by exact (finite_lift _ finite_misc _ K).
  rewrite H in F. apply andb_true_iff in F. exact (proj1 F).
Qed.

Lemma ends_iff_finished : forall s1 s2 b e, known_key (Key s1 s2 b e) = true ->
  (chart_get POSYDON_FLOW_CHART (Key s1 s2 b e) = Some step_end <-> finished s1 s2 b e).
Proof.
  intros s1 s2 b e K. rewrite <- finishedb_iff, chart_key.
  assert (F : misc_check (Key s1 s2 b e) (spec_key (Key s1 s2 b e)) = true)
    by exact (finite_lift _ finite_misc _ K).
  destruct (spec_key (Key s1 s2 b e)) as [st|]; cbn [misc_check] in F.
  - apply andb_true_iff in F as [_ F].
    destruct (finishedb (Key s1 s2 b e)); destruct st; try discriminate;
      split; intro; congruence.
  - destruct (finishedb (Key s1 s2 b e)); [discriminate|]. split; discriminate.
Qed.

Lemma ends_finished : forall s1 s2 b e,
  chart_get POSYDON_FLOW_CHART (Key s1 s2 b e) = Some step_end -> finished s1 s2 b e.
Proof.
  intros s1 s2 b e H. apply ends_iff_finished; [|assumption].
  rewrite chart_key in H. exact (spec_some_known _ _ H).
Qed.

(** ** Mirror symmetry *)
Lemma known_mirror : forall k, known_key (mirror_key k) = known_key k.
Proof.
  intros [a b c d]. unfold known_key, mirror_key. cbn [k1 k2 kb ke].
  destruct c, d; cbn; try rewrite !andb_true_r; try rewrite !andb_false_r; try reflexivity;
    try apply andb_comm.
Qed.

Lemma finite_mirror :
  all_keys_check (fun k => Bool.eqb (opt_step_eqb (spec_key (mirror_key k)) (spec_key k))
                                    (negb (label_dependent k))) = true.
Proof. vm_compute. reflexivity. Qed.

Lemma opt_step_eqb_refl : forall x, opt_step_eqb x x = true.
Proof. intros [x|]; [|reflexivity]. simpl. destruct (step_eq_dec x x); congruence. Qed.

Lemma mirror_iff : forall k,
  chart_get POSYDON_FLOW_CHART (mirror_key k) = chart_get POSYDON_FLOW_CHART k
  <-> label_dependent k = false.
Proof.
  intro k. rewrite !chart_key.
  destruct (known_key k) eqn:K.
  - assert (E : Bool.eqb (opt_step_eqb (spec_key (mirror_key k)) (spec_key k))
                  (negb (label_dependent k)) = true).
    { exact (finite_lift _ finite_mirror _ K). }
    apply eqb_prop in E. split; intro H.
    + rewrite H, opt_step_eqb_refl in E. destruct (label_dependent k); [discriminate|reflexivity].
    + rewrite H in E. apply opt_step_eqb_eq. exact E.
  - rewrite (spec_unknown _ K). rewrite spec_unknown by (rewrite known_mirror; exact K).
    unfold label_dependent. rewrite K. split; reflexivity.
Qed.

(** Exactly what happens at the label-dependent states. *)
Lemma finite_mirror_value :
  all_keys_check (fun k => negb (label_dependent k) ||
     opt_step_eqb (spec_key k) (if ordinary (k2 k) then Some step_CE else None)) = true.
Proof. vm_compute. reflexivity. Qed.

Lemma mirror_value : forall k, label_dependent k = true ->
  chart_get POSYDON_FLOW_CHART k = if ordinary (k2 k) then Some step_CE else None.
Proof.
  intros k L. rewrite chart_key.
  assert (K : known_key k = true) by (unfold label_dependent in L; destruct (known_key k); [reflexivity|discriminate]).
  pose proof (finite_lift _ finite_mirror_value _ K) as E.
  cbv beta in E. rewrite L in E. apply opt_step_eqb_eq. exact E.
Qed.

(** ** flow_chart() *)
Lemma hset_length : forall h l c, length (hset h l c) = length h.
Proof. induction h; intros [|l] c; simpl; auto. Qed.
Lemma hget_hset_same : forall h l c, l < length h -> hget (hset h l c) l = c.
Proof.
  unfold hget. induction h; intros [|l] c H; simpl in *; try lia; [reflexivity|].
  apply IHh. lia.
Qed.
Lemma hget_hset_other : forall h l l' c, l <> l' -> hget (hset h l c) l' = hget h l'.
Proof.
  unfold hget. induction h; intros [|l] [|l'] c H; simpl in *; try congruence; try reflexivity.
  apply IHh. congruence.
Qed.

Lemma apply_changes_keys : forall chg c, dkeys (apply_changes c chg) = dkeys c.
Proof.
  unfold apply_changes. induction chg as [|[k v] chg IH]; intro c; [reflexivity|].
  cbn [fold_left fst snd]. rewrite IH. destruct (dmem key_eqb c k) eqn:M; [|reflexivity].
  rewrite (dkeys_dset key_eqb_spec), M. reflexivity.
Qed.

Lemma apply_changes_get : forall chg c k,
  chart_get (apply_changes c chg) k
  = match chart_get c k with
    | None => None
    | Some old => match last_write key_eqb chg k with Some new => Some new | None => Some old end
    end.
Proof.
  unfold apply_changes, chart_get. induction chg as [|[k0 v] chg IH]; intros c k.
  - cbn. destruct (dget key_eqb c k); reflexivity.
  - cbn [fold_left fst snd]. rewrite IH, last_write_cons. unfold dmem.
    destruct (dget key_eqb c k0) eqn:E.
    + rewrite (dget_dset key_eqb_spec). destruct (key_eqb_spec k k0) as [->|N].
      * rewrite E. destruct (last_write key_eqb chg k0); reflexivity.
      * destruct (dget key_eqb c k); [|reflexivity].
        destruct (last_write key_eqb chg k); reflexivity.
    + destruct (key_eqb_spec k k0) as [->|N].
      * rewrite E. reflexivity.
      * destruct (dget key_eqb c k); [|reflexivity].
        destruct (last_write key_eqb chg k); reflexivity.
Qed.

Lemma last_write_nodup : forall (d : chart) k,
  NoDup (dkeys d) -> last_write key_eqb d k = chart_get d k.
Proof.
  unfold chart_get. induction d as [|[k0 v0] d IH]; intros k ND; [reflexivity|].
  inversion ND as [|? ? Hn ND']; subst. rewrite last_write_cons, IH by assumption.
  cbn [dget]. destruct (key_eqb_spec k k0) as [->|N].
  - apply (dget_None_notin key_eqb_spec) in Hn. fold (@dkeys key step_name) in *. rewrite Hn. reflexivity.
  - destruct (dget key_eqb d k); reflexivity.
Qed.

Lemma flow_chart_result : forall h fc chg h' l',
  valid_fc h fc ->
  match chg with Some d => NoDup (dkeys d) | None => True end ->
  flow_chart h fc chg = (h', l') ->
  (forall k, chart_get (hget h' l') k = requested (chart_get (base_of h fc)) (chg_get chg) k)
  /\ dkeys (hget h' l') = dkeys (base_of h fc)
  /\ (forall l, l < length h -> fc <> Some l -> hget h' l = hget h l)
  /\ match fc with None => length h <= l' | Some l => l' = l end
  /\ l' < length h' /\ length h <= length h'.
Proof.
  intros h fc chg h' l' V ND H. unfold flow_chart in H.
  destruct fc as [l|]; cbn [valid_fc base_of] in *.
  - destruct chg as [d|]; inversion H; subst; clear H.
    + split; [|split; [|split; [|split; [|split]]]].
      * intro k. rewrite hget_hset_same by assumption. rewrite apply_changes_get.
        unfold requested, chg_get. rewrite last_write_nodup by assumption. reflexivity.
      * rewrite hget_hset_same by assumption. apply apply_changes_keys.
      * intros l Hl N. apply hget_hset_other. (intro X; apply N; rewrite X; reflexivity).
      * reflexivity.
      * rewrite hset_length. assumption.
      * rewrite hset_length. lia.
    + split; [|split; [|split; [|split; [|split]]]]; auto.
      intro k. unfold requested, chg_get. destruct (chart_get (hget h' l') k); reflexivity.
  - assert (HN : hget (h ++ [hget h default_loc]) (length h) = hget h default_loc).
    { unfold hget at 1. rewrite app_nth2 by lia. rewrite PeanoNat.Nat.sub_diag. reflexivity. }
    assert (HO : forall l, l < length h -> hget (h ++ [hget h default_loc]) l = hget h l).
    { intros l Hl. unfold hget at 1. rewrite app_nth1 by assumption. reflexivity. }
    assert (HL : length h < length (h ++ [hget h default_loc])) by (rewrite app_length; simpl; lia).
    destruct chg as [d|]; inversion H; subst; clear H.
    + split; [|split; [|split; [|split; [|split]]]].
      * intro k. rewrite hget_hset_same by assumption. rewrite apply_changes_get, HN.
        unfold requested, chg_get. rewrite last_write_nodup by assumption. reflexivity.
      * rewrite hget_hset_same by assumption. rewrite apply_changes_keys, HN. reflexivity.
      * intros l Hl N. rewrite hget_hset_other by lia. apply HO. assumption.
      * auto.
      * rewrite hset_length. assumption.
      * rewrite hset_length. lia.
    + split; [|split; [|split; [|split; [|split]]]]; auto.
      * intro k. rewrite HN. unfold requested, chg_get.
        destruct (chart_get (hget h default_loc) k); reflexivity.
      * rewrite HN. reflexivity.
      * lia.
Qed.

(** ** The eccentric chart *)
Lemma to_detached_get : forall c k,
  chart_get (to_detached_zams c) k
  = match chart_get c k with
    | None => None
    | Some old => if event_eqb (ke k) ZAMS && bin_in (kb k) BINARY_STATES_ZAMS
                  then Some step_detached else Some old
    end.
Proof.
  unfold chart_get, to_detached_zams. intros c k.
  induction c as [|[k0 v0] c IH]; [reflexivity|].
  cbn [map fst]. destruct (event_eqb (ke k0) ZAMS && bin_in (kb k0) BINARY_STATES_ZAMS) eqn:E;
    cbn [dget]; destruct (key_eqb_spec k k0) as [->|N];
    try rewrite E; try reflexivity; exact IH.
Qed.

Definition p_ecc k :=
  let L := STAR_STATES_H_RICH_EVOLVABLE ++ STAR_STATES_HE_RICH_EVOLVABLE in
  rect L L [RLO1] [oRLO1] k || rect L L [RLO2] [oRLO2] k.

Lemma ok_ecc : block_ok ecc_assigns p_ecc step_HMS_HMS_RLO.
Proof.
  apply block_intro; [unfold ecc_assigns; snd_tac|].
  unfold ecc_assigns, p_ecc. open_keys.
  - solve_fwd.
  - rewrite orb_true_iff, !rect_iff.
    intros [(Hc & Hd & Ha & Hb)|(Hc & Hd & Ha & Hb)]; single Hc; single Hd; use a; use b; leaf.
Qed.

Lemma evolvable_in : forall s,
  star_in s (STAR_STATES_H_RICH_EVOLVABLE ++ STAR_STATES_HE_RICH_EVOLVABLE) = evolvable s.
Proof. intro s; destruct s; reflexivity. Qed.

Lemma p_ecc_spec : forall k, p_ecc k
  = evolvable (k1 k) && evolvable (k2 k) &&
     match kb k, ke k with RLO1, oRLO1 | RLO2, oRLO2 => true | _, _ => false end.
Proof.
  intros [a b c d]. unfold p_ecc, rect. cbn [k1 k2 kb ke]. rewrite !evolvable_in.
  destruct c; cbn; try (rewrite andb_false_r; reflexivity);
    destruct d; cbn; try (rewrite andb_false_r; reflexivity);
    rewrite ?orb_false_r, ?andb_true_r; reflexivity.
Qed.

Lemma ecc_result : forall h fc chg h' l',
  valid_fc h fc ->
  match chg with Some d => NoDup (dkeys d) | None => True end ->
  initial_eccentricity_flow_chart h fc chg = (h', l') ->
  (forall k, chart_get (hget h' l') k
     = ecc_expected (requested (chart_get (base_of h fc)) (chg_get chg)) k)
  /\ (forall l, l < length h -> fc <> Some l -> hget h' l = hget h l).
Proof.
  intros h fc chg h' l' V ND H. unfold initial_eccentricity_flow_chart in H.
  destruct (flow_chart h fc chg) as [h1 l1] eqn:E.
  pose proof (f_equal fst H) as Hh. pose proof (f_equal snd H) as Hl. cbn [fst snd] in Hh, Hl.
  subst h' l1. clear H.
  pose proof (@flow_chart_result h fc chg h1 l' V ND E) as (R1 & R2 & R3 & R4 & R5 & R6).
  split.
  - intro k. rewrite hget_hset_same by assumption.
    unfold chart_get at 1. rewrite (dget_dset_all key_eqb_spec).
    rewrite ok_ecc. rewrite p_ecc_spec. unfold ecc_expected.
    destruct (evolvable (k1 k) && evolvable (k2 k) &&
      match kb k, ke k with RLO1, oRLO1 | RLO2, oRLO2 => true | _, _ => false end); [reflexivity|].
    change (dget key_eqb (to_detached_zams (hget h1 l')) k)
      with (chart_get (to_detached_zams (hget h1 l')) k).
    rewrite to_detached_get, R1.
    destruct (requested (chart_get (base_of h fc)) (chg_get chg) k); [|reflexivity].
    destruct k as [a b c d]; cbn [ke kb]. destruct c, d; reflexivity.
  - intros l Hl N. rewrite hget_hset_other; [apply R3; assumption|].
    destruct fc as [l0|]; [subst l0; intro X; apply N; rewrite X; reflexivity|lia].
Qed.

Lemma do_call_default : forall h c, 0 < length h -> call_fc c <> Some default_loc ->
  hget (do_call h c) default_loc = hget h default_loc /\ 0 < length (do_call h c).
Proof.
  assert (G : forall h f g, 0 < length h -> f <> Some default_loc ->
    let '(h1, l) := flow_chart h f g in
    hget h1 default_loc = hget h default_loc /\ 0 < length h1 /\ l <> default_loc).
  { intros h f g H N. unfold flow_chart, default_loc in *.
    destruct f as [l|], g as [d|]; cbn.
    - assert (l <> 0) by (intro X; apply N; rewrite X; reflexivity).
      repeat split; [apply hget_hset_other; assumption | rewrite hset_length; assumption | assumption].
    - assert (l <> 0) by (intro X; apply N; rewrite X; reflexivity). repeat split; assumption.
    - repeat split; try lia.
      + rewrite hget_hset_other by lia. unfold hget at 1. rewrite app_nth1 by assumption. reflexivity.
      + rewrite hset_length, app_length. lia.
    - repeat split; try lia.
      + unfold hget at 1. rewrite app_nth1 by assumption. reflexivity.
      + rewrite app_length. lia. }
  intros h c H N. destruct c as [f g|f g]; cbn [call_fc do_call] in *.
  - specialize (G h f g H N). destruct (flow_chart h f g) as [h1 l]. cbn. tauto.
  - unfold initial_eccentricity_flow_chart. specialize (G h f g H N).
    destruct (flow_chart h f g) as [h1 l]. cbn [fst]. destruct G as (G1 & G2 & G3).
    rewrite hget_hset_other by assumption. rewrite hset_length. tauto.
Qed.

Lemma do_calls_default : forall cs h, 0 < length h ->
  Forall (fun c => call_fc c <> Some default_loc) cs ->
  hget (do_calls h cs) default_loc = hget h default_loc.
Proof.
  unfold do_calls. induction cs as [|c cs IH]; intros h H F; [reflexivity|].
  inversion F; subst. cbn [fold_left]. destruct (do_call_default h c H) as [E L]; [assumption|].
  rewrite IH by assumption. exact E.
Qed.

Lemma chart_unknown : forall k, known_key k = false -> chart_get POSYDON_FLOW_CHART k = None.
Proof. intros k K. rewrite chart_key. apply spec_unknown. exact K. Qed.

Lemma undefined_no_step : forall k, In k UNDEFINED_STATES ->
  chart_get POSYDON_FLOW_CHART k = None.
Proof.
  intros k H. rewrite chart_key. cbn in H.
  repeat destruct H as [H|H]; subst; try reflexivity. destruct H.
Qed.

Lemma mirror_refuted : exists k,
  known_key k = true /\
  chart_get POSYDON_FLOW_CHART (mirror_key k) <> chart_get POSYDON_FLOW_CHART k.
Proof.
  exists (Key HR_Core_He_burning NS contact oCE1). split; [reflexivity|].
  rewrite !chart_key. discriminate.
Qed.

Lemma flow_chart_new_keys : forall h fc chg h' l' k,
  valid_fc h fc -> NoDup (dkeys chg) ->
  flow_chart h fc (Some chg) = (h', l') ->
  chart_get (base_of h fc) k = None -> chart_get (hget h' l') k = None.
Proof.
  intros h fc chg h' l' k V ND H B.
  destruct (flow_chart_result h fc (Some chg) h' l' V ND H) as (R & _).
  rewrite R. unfold requested. rewrite B. reflexivity.
Qed.
