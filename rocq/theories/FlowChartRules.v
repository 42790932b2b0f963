From Coq Require Import String List Bool Lia.
From Verif Require Import PyBase FlowChartModel FlowChartSpec.
Import ListNotations.
Set Implicit Arguments.

(** ** A fast evaluator for the chart, proved equal to the dictionary *)

Definition rect (L1 L2 : list star_state) (LB : list bin_state) (LE : list event) (k : key) : bool :=
  bin_in (kb k) LB && event_in (ke k) LE && star_in (k1 k) L1 && star_in (k2 k) L2.

Lemma rect_iff : forall L1 L2 LB LE a b c d,
  rect L1 L2 LB LE (Key a b c d) = true
  <-> In c LB /\ In d LE /\ In a L1 /\ In b L2.
Proof.
  intros. unfold rect, bin_in, event_in, star_in. cbn [k1 k2 kb ke].
  rewrite !andb_true_iff.
  destruct (inb_spec bin_eqb_spec c LB), (inb_spec event_eqb_spec d LE),
    (inb_spec star_eqb_spec a L1), (inb_spec star_eqb_spec b L2);
    intuition congruence.
Qed.

Lemma last_write_const : forall (v : step_name) l (k : key),
  (forall kv, In kv l -> snd kv = v) ->
  last_write key_eqb l k = if inb key_eqb k (map fst l) then Some v else None.
Proof.
  intros v l k. induction l as [|[k0 v0] l IH]; intro H; [reflexivity|].
  rewrite last_write_cons. simpl. rewrite IH by (intros; apply H; right; assumption).
  assert (v0 = v) as -> by (apply (H (k0, v0)); left; reflexivity).
  destruct (inb key_eqb k (map fst l)); destruct (key_eqb k k0); reflexivity.
Qed.

Lemma in_keys_for : forall A (l : list A) (f : A -> list (key * step_name)) k,
  In k (map fst (for_ l f)) <-> exists x, In x l /\ In k (map fst (f x)).
Proof.
  intros. unfold for_. rewrite in_map_iff. split.
  - intros ([k0 v] & E & H). apply in_flat_map in H as (x & Hx & H).
    exists x. split; [assumption|]. apply in_map_iff. exists (k0, v). auto.
  - intros (x & Hx & H). apply in_map_iff in H as ([k0 v] & E & H).
    exists (k0, v). split; [assumption|]. apply in_flat_map. eauto.
Qed.

Lemma in_for : forall A (l : list A) (f : A -> list (key * step_name)) kv,
  In kv (for_ l f) <-> exists x, In x l /\ In kv (f x).
Proof. intros. apply in_flat_map. Qed.

(** A block of assignments writes the value [v] exactly on the keys satisfying [p]. *)
Definition block_ok (l : list (key * step_name)) (p : key -> bool) (v : step_name) : Prop :=
  forall k, last_write key_eqb l k = if p k then Some v else None.

Lemma block_intro : forall l p v,
  (forall kv, In kv l -> snd kv = v) ->
  (forall k, In k (map fst l) <-> p k = true) ->
  block_ok l p v.
Proof.
  intros l p v H1 H2 k. rewrite (@last_write_const v) by assumption.
  specialize (H2 k). destruct (inb_spec key_eqb_spec k (map fst l)) as [i|i];
    destruct (p k); try reflexivity; intuition congruence.
Qed.

Ltac snd_tac :=
  intros kv H;
  repeat (apply in_for in H as (? & ? & H));
  cbn in H; repeat (destruct H as [H|H]; [subst kv; reflexivity|]); destruct H.

Ltac leaf := cbn [map fst]; solve [repeat first [left; reflexivity | right]].

Definition S_ZAMS := [ HR_Core_H_burning ].

(** Predicates of the blocks, in program order. *)
Definition p_ZAMS := rect STAR_STATES_ZAMS STAR_STATES_ZAMS [detached] [ZAMS].
Definition p_rZAMS := rect STAR_STATES_ZAMS STAR_STATES_ZAMS [detached] [redirect_from_ZAMS].
Definition p_dn := rect STAR_STATES_NORMALSTAR STAR_STATES_NORMALSTAR [detached] [EvNone].
Definition sym (L1 L2 : list star_state) LB LE k := rect L1 L2 LB LE k || rect L2 L1 LB LE k.
Definition p_dh := sym STAR_STATES_H_RICH STAR_STATES_CO [detached] [EvNone].
Definition rlo (L1 L2 : list star_state) k :=
  rect L1 L2 [RLO1] [oRLO1] k || rect L2 L1 [RLO2] [oRLO2] k.
Definition p_hrlo := rlo STAR_STATES_H_RICH_EVOLVABLE STAR_STATES_CO.
Definition p_rhrlo := sym STAR_STATES_H_RICH STAR_STATES_CO [detached] [redirect_from_CO_HMS_RLO].
Definition p_dhe := sym STAR_STATES_HE_RICH_EVOLVABLE STAR_STATES_CO [detached] [EvNone].
Definition p_rhe := sym STAR_STATES_HE_RICH STAR_STATES_CO [detached] [redirect_from_CO_HeMS].
Definition p_herlo := rlo STAR_STATES_HE_RICH_EVOLVABLE STAR_STATES_CO.
Definition p_rherlo := sym STAR_STATES_HE_RICH STAR_STATES_CO [detached] [redirect_from_CO_HeMS_RLO].
Definition p_hehe := rlo STAR_STATES_HE_RICH STAR_STATES_HE_RICH.
Definition p_ce k :=
  rect STAR_STATES_NORMALSTAR STAR_STATES_ALL [RLO1] [oCE1; oDoubleCE1] k
  || rect STAR_STATES_ALL STAR_STATES_NORMALSTAR [RLO2] [oCE2; oDoubleCE2] k
  || rect STAR_STATES_ALL STAR_STATES_NORMALSTAR [contact] [oCE1; oCE2; oDoubleCE1; oDoubleCE2] k.
Definition p_cc k :=
  rect STAR_STATES_CC STAR_STATES_ALL BINARY_STATES_CC [CC1] k
  || rect STAR_STATES_ALL STAR_STATES_CC BINARY_STATES_CC [CC2] k.
Definition p_dco := rect STAR_STATES_CO STAR_STATES_CO [detached] [EvNone].
Definition p_irlof := rect STAR_STATES_ALL STAR_STATES_ALL [initial_RLOF] BINARY_EVENTS_ALL.
Definition p_single := rect STAR_STATES_ALL STAR_STATES_ALL [initially_single_star] [ZAMS].
Definition p_dis := rect STAR_STATES_ALL STAR_STATES_ALL [disrupted] BINARY_EVENTS_OF_SN_OR_AFTER_DETACHED.
Definition p_disco := rect STAR_STATES_CO STAR_STATES_CO [disrupted] BINARY_EVENTS_ALL.
Definition p_mer := rect STAR_STATES_ALL STAR_STATES_ALL [merged] [oMerging1; oMerging2].
Definition p_irz := rect STAR_STATES_ALL STAR_STATES_ALL [initial_RLOF] [ZAMS].
Definition p_max := rect STAR_STATES_ALL STAR_STATES_ALL BINARY_STATES_ALL [maxtime; MaxTime_exceeded; CO_contact].
Definition p_mlco := sym STAR_STATES_CO [massless_remnant] BINARY_STATES_ALL BINARY_EVENTS_ALL.
Definition p_ml2 := rect [massless_remnant] [massless_remnant] BINARY_STATES_ALL BINARY_EVENTS_ALL.

(** Opening of a membership statement over a loop nest. *)
Ltac open_keys :=
  intros [a b c d]; split;
  [ let H := fresh "H" in intro H;
    repeat (apply in_keys_for in H as (? & ? & H)); cbn [map fst In] in H
  | ].

Ltac solve_fwd :=
  match goal with H : _ |- _ =>
    repeat (destruct H as [H|H]; [inversion H; subst; clear H|]); try destruct H
  end;
  unfold p_ce, p_cc, sym, rlo;
  repeat rewrite orb_true_iff; repeat rewrite rect_iff; cbn [In];
  repeat match goal with H : In _ (cons _ _) |- _ => cbn [In] in H end;
  intuition (subst; auto).

Ltac use a := apply in_keys_for; exists a; split; [first [assumption | solve [repeat first [left; reflexivity | right]]]|].
Ltac single H := destruct H as [H|H]; [|destruct H]; try subst.

Ltac nodes :=
  repeat match goal with
  | H : _ /\ _ |- _ => destruct H
  | H : _ \/ _ |- _ => destruct H
  | H : In _ (cons _ _) |- _ => cbn [In] in H
  | H : In _ nil |- _ => destruct H
  | H : False |- _ => destruct H
  end; subst.

Lemma ok_ZAMS : block_ok assigns_ZAMS p_ZAMS step_HMS_HMS.
Proof.
  apply block_intro; [unfold assigns_ZAMS; snd_tac|].
  unfold assigns_ZAMS, p_ZAMS. open_keys.
  - solve_fwd.
  - rewrite rect_iff. intros (Hc & Hd & Ha & Hb). single Hd. use c. use a. use b. leaf.
Qed.
Lemma ok_rZAMS : block_ok assigns_redirect_ZAMS p_rZAMS step_detached.
Proof.
  apply block_intro; [unfold assigns_redirect_ZAMS; snd_tac|].
  unfold assigns_redirect_ZAMS, p_rZAMS. open_keys.
  - solve_fwd.
  - rewrite rect_iff. intros (Hc & Hd & Ha & Hb). single Hd. use c. use a. use b. leaf.
Qed.
Lemma ok_dn : block_ok assigns_detached_normal p_dn step_detached.
Proof.
  apply block_intro; [unfold assigns_detached_normal; snd_tac|].
  unfold assigns_detached_normal, p_dn. open_keys.
  - solve_fwd.
  - rewrite rect_iff. intros (Hc & Hd & Ha & Hb). single Hc. single Hd. use a. use b. leaf.
Qed.
Ltac sym_tac asg p :=
  apply block_intro; [unfold asg; snd_tac|];
  unfold asg, p; open_keys;
  [ solve_fwd
  | unfold sym, rlo; rewrite orb_true_iff, !rect_iff; intros [(Hc & Hd & Ha & Hb)|(Hc & Hd & Ha & Hb)];
    single Hc; single Hd;
    match goal with |- In (Key ?a ?b _ _) _ => first [ use a; use b; leaf | use b; use a; leaf ] end ].
Lemma ok_dh : block_ok assigns_detached_H_CO p_dh step_detached.
Proof. sym_tac assigns_detached_H_CO p_dh. Qed.
Lemma ok_hrlo : block_ok assigns_H_RLO_CO p_hrlo step_CO_HMS_RLO.
Proof. sym_tac assigns_H_RLO_CO p_hrlo. Qed.
Lemma ok_rhrlo : block_ok assigns_redirect_CO_HMS_RLO p_rhrlo step_detached.
Proof. sym_tac assigns_redirect_CO_HMS_RLO p_rhrlo. Qed.
Lemma ok_dhe : block_ok assigns_detached_He_CO p_dhe step_CO_HeMS.
Proof. sym_tac assigns_detached_He_CO p_dhe. Qed.
Lemma ok_rhe : block_ok assigns_redirect_CO_HeMS p_rhe step_detached.
Proof. sym_tac assigns_redirect_CO_HeMS p_rhe. Qed.
Lemma ok_herlo : block_ok assigns_He_RLO_CO p_herlo step_CO_HeMS_RLO.
Proof. sym_tac assigns_He_RLO_CO p_herlo. Qed.
Lemma ok_rherlo : block_ok assigns_redirect_CO_HeMS_RLO p_rherlo step_detached.
Proof. sym_tac assigns_redirect_CO_HeMS_RLO p_rherlo. Qed.
Lemma ok_hehe : block_ok assigns_He_He_merge p_hehe step_merged.
Proof. sym_tac assigns_He_He_merge p_hehe. Qed.
Lemma ok_ce : block_ok assigns_CE p_ce step_CE.
Proof.
  apply block_intro; [unfold assigns_CE; snd_tac|].
  unfold assigns_CE. open_keys.
  - solve_fwd.
  - unfold p_ce. rewrite !orb_true_iff, !rect_iff.
    intros [[(Hc & Hd & Ha & Hb)|(Hc & Hd & Ha & Hb)]|(Hc & Hd & Ha & Hb)]; single Hc;
      cbn [In] in Hd; repeat destruct Hd as [Hd|Hd]; try destruct Hd; subst;
      first [ use a; use b; leaf | use b; use a; leaf ].
Qed.
Lemma ok_cc : block_ok assigns_CC p_cc step_SN.
Proof.
  apply block_intro; [unfold assigns_CC; snd_tac|].
  unfold assigns_CC. open_keys.
  - solve_fwd.
  - unfold p_cc. rewrite !orb_true_iff, !rect_iff.
    intros [(Hc & Hd & Ha & Hb)|(Hc & Hd & Ha & Hb)]; single Hd; use c;
      first [ use a; use b; leaf | use b; use a; leaf ].
Qed.
Lemma ok_dco : block_ok assigns_DCO p_dco step_dco.
Proof.
  apply block_intro; [unfold assigns_DCO; snd_tac|].
  unfold assigns_DCO, p_dco. open_keys.
  - solve_fwd.
  - rewrite rect_iff. intros (Hc & Hd & Ha & Hb). single Hc. single Hd. use a. use b. leaf.
Qed.
Lemma ok_irlof : block_ok assigns_initial_RLOF p_irlof step_end.
Proof.
  apply block_intro; [unfold assigns_initial_RLOF; snd_tac|].
  unfold assigns_initial_RLOF, p_irlof. open_keys.
  - solve_fwd.
  - rewrite rect_iff. intros (Hc & Hd & Ha & Hb). use c. use a. use b. use d. leaf.
Qed.
Lemma ok_single : block_ok assigns_single p_single step_initially_single.
Proof.
  apply block_intro; [unfold assigns_single; snd_tac|].
  unfold assigns_single, p_single. open_keys.
  - solve_fwd.
  - rewrite rect_iff. intros (Hc & Hd & Ha & Hb). use c. use a. use b. use d. leaf.
Qed.
Lemma ok_dis : block_ok assigns_disrupted p_dis step_disrupted.
Proof.
  apply block_intro; [unfold assigns_disrupted; snd_tac|].
  unfold assigns_disrupted, p_dis. open_keys.
  - solve_fwd.
  - rewrite rect_iff. intros (Hc & Hd & Ha & Hb). use c. use a. use b. use d. leaf.
Qed.
Lemma ok_disco : block_ok assigns_disrupted_CO p_disco step_end.
Proof.
  apply block_intro; [unfold assigns_disrupted_CO; snd_tac|].
  unfold assigns_disrupted_CO, p_disco. open_keys.
  - solve_fwd.
  - rewrite rect_iff. intros (Hc & Hd & Ha & Hb). use c. use a. use b. use d. leaf.
Qed.
Lemma ok_mer : block_ok assigns_merged p_mer step_merged.
Proof.
  apply block_intro; [unfold assigns_merged; snd_tac|].
  unfold assigns_merged, p_mer. open_keys.
  - solve_fwd.
  - rewrite rect_iff. intros (Hc & Hd & Ha & Hb). use c. use a. use b. use d. leaf.
Qed.
Lemma ok_irz : block_ok assigns_initial_RLOF_ZAMS p_irz step_end.
Proof.
  apply block_intro; [unfold assigns_initial_RLOF_ZAMS; snd_tac|].
  unfold assigns_initial_RLOF_ZAMS, p_irz. open_keys.
  - solve_fwd.
  - rewrite rect_iff. intros (Hc & Hd & Ha & Hb). single Hc. single Hd. use a. use b. leaf.
Qed.
Lemma ok_max : block_ok assigns_maxtime p_max step_end.
Proof.
  apply block_intro; [unfold assigns_maxtime; snd_tac|].
  unfold assigns_maxtime, p_max. open_keys.
  - solve_fwd.
  - rewrite rect_iff. intros (Hc & Hd & Ha & Hb). use c. use a. use b. use d. leaf.
Qed.
Lemma ok_mlco : block_ok assigns_massless_CO p_mlco step_end.
Proof.
  apply block_intro; [unfold assigns_massless_CO; snd_tac|].
  unfold assigns_massless_CO, p_mlco. open_keys.
  - solve_fwd.
  - unfold sym. rewrite !orb_true_iff, !rect_iff.
    intros [(Hc & Hd & Ha & Hb)|(Hc & Hd & Ha & Hb)]; use c;
      first [ use a; use b; use d; leaf | use b; use a; use d; leaf ].
Qed.
Lemma ok_ml2 : block_ok assigns_massless2 p_ml2 step_end.
Proof.
  apply block_intro; [unfold assigns_massless2; snd_tac|].
  unfold assigns_massless2, p_ml2. open_keys.
  - solve_fwd.
  - rewrite rect_iff. intros (Hc & Hd & Ha & Hb). single Ha. single Hb. use c. use massless_remnant. use d. leaf.
Qed.

(** The rules in program order: the last that applies wins. *)
Definition rules : list ((key -> bool) * step_name) :=
  [ (p_ZAMS, step_HMS_HMS); (p_rZAMS, step_detached); (p_dn, step_detached);
    (p_dh, step_detached); (p_hrlo, step_CO_HMS_RLO); (p_rhrlo, step_detached);
    (p_dhe, step_CO_HeMS); (p_rhe, step_detached); (p_herlo, step_CO_HeMS_RLO);
    (p_rherlo, step_detached); (p_hehe, step_merged); (p_ce, step_CE); (p_cc, step_SN);
    (p_dco, step_dco); (p_irlof, step_end); (p_single, step_initially_single);
    (p_dis, step_disrupted); (p_disco, step_end); (p_mer, step_merged); (p_irz, step_end);
    (p_max, step_end); (p_mlco, step_end); (p_ml2, step_end) ].

Fixpoint run_rules (l : list ((key -> bool) * step_name)) (k : key) : option step_name :=
  match l with
  | [] => None
  | (p, v) :: l' =>
      match run_rules l' k with Some w => Some w | None => if p k then Some v else None end
  end.

Lemma concat_rules : forall ls rs k,
  Forall2 (fun l pv => block_ok l (fst pv) (snd pv)) ls rs ->
  last_write key_eqb (concat ls) k = run_rules rs k.
Proof.
  intros ls rs k H. induction H as [|l [p v] ls rs Hb H IH]; [reflexivity|].
  cbn [concat run_rules]. rewrite last_write_app, IH. rewrite (Hb k). reflexivity.
Qed.

Lemma chart_rules : forall k, chart_get POSYDON_FLOW_CHART k = run_rules rules k.
Proof.
  intro k. unfold chart_get, POSYDON_FLOW_CHART.
  rewrite (dget_dset_all key_eqb_spec).
  rewrite (@concat_rules POSYDON_assigns rules).
  - destruct (run_rules rules k); reflexivity.
  - repeat first
      [ apply Forall2_nil
      | apply Forall2_cons; [first
          [ exact ok_ZAMS | exact ok_rZAMS | exact ok_dn | exact ok_dh | exact ok_hrlo
          | exact ok_rhrlo | exact ok_dhe | exact ok_rhe | exact ok_herlo | exact ok_rherlo
          | exact ok_hehe | exact ok_ce | exact ok_cc | exact ok_dco | exact ok_irlof
          | exact ok_single | exact ok_dis | exact ok_disco | exact ok_mer | exact ok_irz
          | exact ok_max | exact ok_mlco | exact ok_ml2 ]|] ].
Qed.

(** ** Reflection over the finite part *)
Definition opt_step_eqb (x y : option step_name) : bool :=
  match x, y with
  | None, None => true
  | Some a, Some b => if step_eq_dec a b then true else false
  | _, _ => false
  end.

Lemma opt_step_eqb_eq : forall x y, opt_step_eqb x y = true -> x = y.
Proof.
  intros [x|] [y|]; simpl; try discriminate; try reflexivity.
  destruct (step_eq_dec x y); congruence.
Qed.

Definition all_keys_check (f : key -> bool) : bool :=
  forallb (fun b => forallb (fun e => forallb (fun s1 => forallb (fun s2 =>
    f (Key s1 s2 b e)) STAR_STATES_ALL) STAR_STATES_ALL) BINARY_EVENTS_ALL) BINARY_STATES_ALL.

Lemma known_star_in : forall s, known_star s = true -> In s STAR_STATES_ALL.
Proof. intros s H. destruct s; try discriminate; cbn; tauto. Qed.
Lemma known_bin_in : forall s, known_bin s = true -> In s BINARY_STATES_ALL.
Proof. intros s H. destruct s; try discriminate; cbn; tauto. Qed.
Lemma known_event_in : forall s, known_event s = true -> In s BINARY_EVENTS_ALL.
Proof. intros s H. destruct s; try discriminate; cbn; tauto. Qed.

Lemma all_keys_lift : forall f, all_keys_check f = true ->
  forall s1 s2 b e, known_star s1 = true -> known_star s2 = true -> known_bin b = true ->
  known_event e = true -> f (Key s1 s2 b e) = true.
Proof.
  intros f H s1 s2 b e H1 H2 Hb He. unfold all_keys_check in H.
  rewrite forallb_forall in H. specialize (H b (known_bin_in _ Hb)).
  rewrite forallb_forall in H. specialize (H e (known_event_in _ He)).
  rewrite forallb_forall in H. specialize (H s1 (known_star_in _ H1)).
  rewrite forallb_forall in H. exact (H s2 (known_star_in _ H2)).
Qed.

Definition spec_key (k : key) := spec_step (k1 k) (k2 k) (kb k) (ke k).

Lemma finite_agree :
  all_keys_check (fun k => opt_step_eqb (run_rules rules k) (spec_key k)) = true.
Proof. vm_compute. reflexivity. Qed.

