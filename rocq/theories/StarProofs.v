(** Proofs for mass-transfer inference and star states (C14-C16). *)
From Coq Require Import String List Bool ZArith QArith Lia Lqa.
From Verif Require Import PyBase PyList PyNum PyStr MTModel MTSpec MTProofs.
From Verif Require FlowChartModel.
Import ListNotations.
Local Open Scope string_scope.

Lemma at_most_iff : forall x t, nle x (Fin t) = true <-> at_most x t.
Proof.
  intros x t. unfold at_most. destruct x as [| | |q]; cbn [nle].
  - split; [discriminate|]. intros [H|(q & H & _)]; discriminate.
  - split; auto.
  - split; [discriminate|]. intros [H|(q & H & _)]; discriminate.
  - rewrite Qle_bool_iff. split.
    + intro H. right. exists q. auto.
    + intros [H|(q' & H & L)]; [discriminate|]. injection H as ->. exact L.
Qed.

Lemma above_iff : forall x t, nlt (Fin t) x = true <-> above x t.
Proof.
  intros x t. unfold above. destruct x as [| | |q].
  - split; [discriminate|]. intros [H|(q & H & _)]; discriminate.
  - split; [discriminate|]. intros [H|(q & H & _)]; discriminate.
  - split; auto.
  - rewrite nlt_fin. split.
    + intro H. right. exists q. auto.
    + intros [H|(q' & H & L)]; [discriminate|]. injection H as ->. exact L.
Qed.

Lemma has_iff : forall a s, py_in a s = true <-> has a s.
Proof. exact py_in_iff. Qed.

Lemma has_false : forall a s, py_in a s = false <-> ~ has a s.
Proof.
  intros a s. rewrite <- has_iff. destruct (py_in a s); intuition congruence.
Qed.

(** ** C14 *)
Definition state_case (s : string) : Z :=
  if py_in "non_burning" s then MT_CASE_NONBURNING
  else if py_in "H-rich" s then
    if py_in "Core_H_burning" s then MT_CASE_A
    else if py_in "Core_He_burning" s || py_in "Shell_H_burning" s then MT_CASE_B
    else if py_in "Core_He_depleted" s || py_in "Core_C_depleted" s then MT_CASE_C
    else MT_CASE_UNDETERMINED
  else if py_in "stripped_He" s then
    if py_in "Core_He_burning" s then MT_CASE_BA
    else if py_in "Core_He_depleted" s || py_in "Core_C_depleted" s then MT_CASE_BB
    else MT_CASE_UNDETERMINED
  else MT_CASE_UNDETERMINED.

Definition quietb (o m : pnum) (dom : bool) : bool :=
  match o, m with
  | Some a, Some b => nle a (Fin 0) && (nle b (Fin (-10 # 1)) || negb dom)
  | _, _ => true
  end.

Lemma quietb_iff : forall o m dom, quietb o m dom = true <-> quiet o m dom.
Proof.
  intros o m dom. unfold quietb, quiet.
  destruct o as [a|]; [|tauto]. destruct m as [b|]; [|tauto].
  rewrite andb_true_iff, orb_true_iff, negb_true_iff, at_most_iff, at_most_iff.
  split.
  - intros [A B]. right. right. exists a, b. tauto.
  - intros [H|[H|(o & m & E1 & E2 & A & B)]]; [discriminate..|].
    injection E1 as <-. injection E2 as <-. tauto.
Qed.

Lemma mt_case_eq : forall o m st dom,
  infer_mass_transfer_case o m st dom
  = if quietb o m dom then Ok 0%Z
    else match st with Some s => Ok (state_case s) | None => Raise TypeError end.
Proof.
  intros [a|] [b|] st dom; try reflexivity.
Qed.

Lemma state_case_range : forall s, In (state_case s) [1; 2; 3; 4; 5; 8; 9]%Z.
Proof.
  intro s. unfold state_case.
  repeat match goal with |- context [if ?c then _ else _] => destruct c end; cbn; tauto.
Qed.

Lemma state_case_nz : forall s, state_case s <> 0%Z.
Proof. intros s H. pose proof (state_case_range s) as R. rewrite H in R. cbn in R. intuition discriminate. Qed.

Lemma mt_no_rlo_iff : forall o m st dom,
  infer_mass_transfer_case o m st dom = Ok 0%Z <-> quiet o m dom.
Proof.
  intros. rewrite mt_case_eq, <- quietb_iff. destruct (quietb o m dom); [tauto|].
  destruct st as [s|]; split; try discriminate.
  intro H. injection H as H. destruct (state_case_nz s H).
Qed.

Lemma mt_raises_iff : forall o m st dom e,
  infer_mass_transfer_case o m st dom = Raise e
  <-> ~ quiet o m dom /\ st = None /\ e = TypeError.
Proof.
  intros. rewrite mt_case_eq, <- quietb_iff. destruct (quietb o m dom).
  - split; [discriminate|]. intros (H & _). congruence.
  - destruct st as [s|]; split; try discriminate.
    + intros (_ & H & _). discriminate.
    + intro H. injection H as <-. repeat split; congruence.
    + intros (_ & _ & ->). reflexivity.
Qed.

Lemma mt_documented : forall o m dom s c, ~ quiet o m dom -> In (s, c) documented_cases ->
  infer_mass_transfer_case o m (Some s) dom = Ok c.
Proof.
  intros o m dom s c Q I. rewrite mt_case_eq. rewrite <- quietb_iff in Q.
  destruct (quietb o m dom); [congruence|]. f_equal.
  assert (C : forallb (fun p => state_case (fst p) =? snd p)%Z documented_cases = true)
    by (vm_compute; reflexivity).
  rewrite forallb_forall in C. specialize (C _ I). apply Z.eqb_eq. exact C.
Qed.

Definition classifiedb (s : string) : bool :=
  py_in "non_burning" s
  || (py_in "H-rich" s && (py_in "Core_H_burning" s || py_in "Core_He_burning" s
        || py_in "Shell_H_burning" s || py_in "Core_He_depleted" s || py_in "Core_C_depleted" s))
  || (negb (py_in "H-rich" s) && py_in "stripped_He" s && (py_in "Core_He_burning" s
        || py_in "Core_He_depleted" s || py_in "Core_C_depleted" s)).

Lemma classifiedb_iff : forall s, classifiedb s = true <-> classified s.
Proof.
  intro s. unfold classifiedb, classified.
  rewrite !orb_true_iff, !andb_true_iff, !orb_true_iff, negb_true_iff, has_false, !has_iff. tauto.
Qed.

Lemma state_case_flag : forall s,
  (state_case s =? 9)%Z = negb (classifiedb s)
  /\ inb Z.eqb (state_case s) ALL_RLO_CASES = classifiedb s.
Proof.
  intro s. unfold state_case, classifiedb.
  destruct (py_in "non_burning" s); [split; reflexivity|].
  destruct (py_in "H-rich" s).
  - destruct (py_in "Core_H_burning" s); [split; reflexivity|].
    destruct (py_in "Core_He_burning" s); [split; reflexivity|].
    destruct (py_in "Shell_H_burning" s); [split; reflexivity|].
    destruct (py_in "Core_He_depleted" s); [split; reflexivity|].
    destruct (py_in "Core_C_depleted" s); split; reflexivity.
  - destruct (py_in "stripped_He" s); [|split; reflexivity].
    destruct (py_in "Core_He_burning" s); [split; reflexivity|].
    destruct (py_in "Core_He_depleted" s); [split; reflexivity|].
    destruct (py_in "Core_C_depleted" s); split; reflexivity.
Qed.

Lemma state_case_undetermined : forall s, state_case s = 9%Z <-> ~ classified s.
Proof.
  intro s. rewrite <- classifiedb_iff, <- Z.eqb_eq, (proj1 (state_case_flag s)), negb_true_iff.
  destruct (classifiedb s); intuition congruence.
Qed.

Lemma mt_undetermined_iff : forall o m s dom,
  infer_mass_transfer_case o m (Some s) dom = Ok 9%Z <-> ~ quiet o m dom /\ ~ classified s.
Proof.
  intros. rewrite mt_case_eq, <- quietb_iff, <- state_case_undetermined.
  destruct (quietb o m dom).
  - split; [discriminate|]. intros [H _]. congruence.
  - split; [intro H; injection H as ->; split; congruence | intros [_ ->]; reflexivity].
Qed.

Lemma mt_range : forall o m st dom c, infer_mass_transfer_case o m st dom = Ok c ->
  In c [0; 1; 2; 3; 4; 5; 8; 9]%Z.
Proof.
  intros o m st dom c H. rewrite mt_case_eq in H. destruct (quietb o m dom).
  - injection H as <-. left. reflexivity.
  - destruct st as [s|]; [|discriminate]. injection H as <-. right. apply state_case_range.
Qed.

(** ** C15 *)
Definition is_rlo (c : Z) : bool := inb Z.eqb c ALL_RLO_CASES.

Lemma is_rlo_state : forall s, is_rlo (state_case s) = true <-> classified s.
Proof.
  intro s. unfold is_rlo. rewrite (proj2 (state_case_flag s)). apply classifiedb_iff.
Qed.

Lemma donor_flag : forall o m st dom c, infer_mass_transfer_case o m st dom = Ok c ->
  (is_rlo c = true <-> is_donor o m st dom) /\ ((c =? 0)%Z = true <-> quiet o m dom).
Proof.
  intros o m st dom c H. split.
  - rewrite mt_case_eq in H. unfold is_donor. rewrite <- quietb_iff.
    destruct (quietb o m dom).
    + injection H as <-. split; [discriminate|]. intros [X _]. congruence.
    + destruct st as [s|]; [|discriminate]. injection H as <-. rewrite is_rlo_state. split.
      * intro C. split; [congruence|]. exists s. auto.
      * intros (_ & s' & E & C). injection E as <-. exact C.
  - rewrite Z.eqb_eq, <- (mt_no_rlo_iff o m st dom), H. split; congruence.
Qed.

Lemma simple_iff : forall s, simple_companion s = true <-> simple_name (ms_state s).
Proof.
  intro s. unfold simple_companion, simple_name. destruct (ms_state s) as [n|].
  - destruct (inb_spec String.eqb_spec n
      [ "H-rich_Core_H_burning"; "stripped_He_Core_He_burning"; "WD"; "NS"; "BH" ]) as [I|I].
    + split; [intros _; exists n; auto|reflexivity].
    + split; [discriminate|]. intros (n' & E & I'). injection E as <-. tauto.
  - split; [discriminate|]. intros (n & E & _). discriminate.
Qed.

Lemma ge10 : forall g, nge g (Fin 10) = true <-> (above g 10 \/ exists q, g = Fin q /\ (q == 10)%Q).
Proof.
  intro g. rewrite <- above_iff. unfold nge. destruct g as [| | |q].
  - split; [discriminate|]. intros [H|(q & H & _)]; discriminate.
  - split; [discriminate|]. intros [H|(q & H & _)]; discriminate.
  - split; auto.
  - rewrite nle_fin, nlt_fin. split.
    + intro H. destruct (Qlt_le_dec 10 q); [left; assumption|right]. exists q. split; [reflexivity|lra].
    + intros [H|(q' & E & H)]; [lra|]. injection E as <-. lra.
Qed.

Lemma core_done_iff : forall st g d, core_done st g = Ok d -> (d = true <-> finished_core st g).
Proof.
  intros st g d H. unfold core_done, in_state in H. destruct st as [s|]; [|discriminate].
  unfold finished_core.
  assert (G : (match g with Some g => nge g (Fin 10) | None => false end) = true
     <-> exists g', g = Some g' /\ (above g' 10 \/ exists q, g' = Fin q /\ (q == 10)%Q)).
  { destruct g as [g|].
    - rewrite ge10. split; [eauto|]. intros (g' & E & X). injection E as <-. exact X.
    - split; [discriminate|]. intros (g' & E & _). discriminate. }
  assert (S : (exists s0, Some s = Some s0 /\ (has "Core_C_depleted" s0 \/ has "Core_He_depleted" s0))
     <-> py_in "Core_C_depleted" s = true \/ py_in "Core_He_depleted" s = true).
  { rewrite !has_iff. split; [intros (s0 & E & X); injection E as <-; exact X|eauto]. }
  rewrite S, <- G. unfold r_or in H.
  destruct (py_in "Core_C_depleted" s), (py_in "Core_He_depleted" s),
    (match g with Some g => nge g (Fin 10) | None => false end); injection H as <-;
    intuition discriminate.
Qed.

Lemma dominates_eq : forall a b : pnum,
  (match a, b with Some x, Some y => nge x y | None, Some _ => false | _, None => true end)
  = first_dominates a b.
Proof. intros [a|] [b|]; reflexivity. Qed.

Ltac pick I := cbn in I; repeat (destruct I as [I|I]; [try discriminate I; injection I as <-|]); try (destruct I).
Lemma state_case_word : forall s w, In (state_case s, w) case_names -> state_word s w.
Proof.
  intros s w I. unfold state_case in I.
  destruct (py_in "non_burning" s) eqn:E0.
  { pick I. constructor. apply has_iff. exact E0. }
  apply has_false in E0.
  destruct (py_in "H-rich" s) eqn:E1.
  - apply has_iff in E1.
    destruct (py_in "Core_H_burning" s) eqn:E2.
    { apply has_iff in E2. pick I. constructor; assumption. }
    apply has_false in E2.
    destruct (py_in "Core_He_burning" s || py_in "Shell_H_burning" s) eqn:E3.
    { apply orb_true_iff in E3. rewrite !has_iff in E3. pick I. constructor; tauto. }
    apply orb_false_iff in E3. rewrite !has_false in E3.
    destruct (py_in "Core_He_depleted" s || py_in "Core_C_depleted" s) eqn:E4.
    { apply orb_true_iff in E4. rewrite !has_iff in E4. pick I. constructor; tauto. }
    pick I.
  - apply has_false in E1. destruct (py_in "stripped_He" s) eqn:E2.
    + apply has_iff in E2. destruct (py_in "Core_He_burning" s) eqn:E3.
      { apply has_iff in E3. pick I. constructor; assumption. }
      apply has_false in E3.
      destruct (py_in "Core_He_depleted" s || py_in "Core_C_depleted" s) eqn:E4.
      { apply orb_true_iff in E4. rewrite !has_iff in E4. pick I. constructor; tauto. }
      pick I.
    + pick I.
Qed.

Lemma state_word_det : forall s w w', state_word s w -> state_word s w' -> w = w'.
Proof. intros s w w' H H'. destruct H; inversion H'; subst; try reflexivity; tauto. Qed.

Lemma donor_word : forall o m st dom c w, infer_mass_transfer_case o m st dom = Ok c ->
  is_rlo c = true -> In (c, w) case_names -> exists s, st = Some s /\ state_word s w.
Proof.
  intros o m st dom c w H R I. rewrite mt_case_eq in H. destruct (quietb o m dom).
  - injection H as <-. discriminate.
  - destruct st as [s|]; [|discriminate]. injection H as <-. exists s.
    split; [reflexivity|]. apply state_case_word. exact I.
Qed.

Lemma label1 : forall c, In c [0; 1; 2; 3; 4; 5; 8; 9]%Z -> is_rlo c = true ->
  exists w, In (c, w) case_names
    /\ fst (cumulative_mass_transfer_string [c]) = "case_" ++ w ++ "1".
Proof.
  intros c I R. exists (match dget Z.eqb case_names c with Some w => w | None => "" end). cbn in I.
  repeat (destruct I as [<-|I]; [try discriminate R; (split; [cbn; tauto|reflexivity])|]).
  destruct I.
Qed.
Lemma label2 : forall c, In c [0; 1; 2; 3; 4; 5; 8; 9]%Z -> is_rlo c = true ->
  exists w, In (c, w) case_names
    /\ fst (cumulative_mass_transfer_string [c + 10]%Z) = "case_" ++ w ++ "2".
Proof.
  intros c I R. exists (match dget Z.eqb case_names c with Some w => w | None => "" end). cbn in I.
  repeat (destruct I as [<-|I]; [try discriminate R; (split; [cbn; tauto|reflexivity])|]).
  destruct I.
Qed.

Lemma is_donor_defined : forall o m st dom, is_donor o m st dom -> exists a, o = Some a.
Proof.
  intros o m st dom [H _]. destruct o as [a|]; [eauto|]. exfalso. apply H. left. reflexivity.
Qed.

Lemma bsem_body_meaning : forall cls rate o1 o2 s1 s2 g1 g2 star1 star2 r,
  bsem_body cls rate o1 o2 s1 s2 g1 g2 star1 star2 = Ok r ->
  bsem_meaning cls rate o1 o2 s1 s2 g1 g2 (ms_state star1) (ms_state star2) r.
Proof.
  intros cls rate o1 o2 s1 s2 g1 g2 star1 star2 r H. unfold bsem_body in H.
  rewrite dominates_eq in H. set (D := first_dominates o1 o2) in *.
  destruct (infer_mass_transfer_case o1 rate s1 D) as [f1|] eqn:F1; [|discriminate].
  cbn [rbind] in H.
  destruct (infer_mass_transfer_case o2 rate s2 (negb D)) as [f2|] eqn:F2; [|discriminate].
  cbn [rbind] in H.
  destruct (donor_flag _ _ _ _ _ F1) as [A1 Z1]. destruct (donor_flag _ _ _ _ _ F2) as [A2 Z2].
  pose proof (mt_range _ _ _ _ _ F1) as R1. pose proof (mt_range _ _ _ _ _ F2) as R2.
  fold (is_rlo f1) in H. fold (is_rlo f2) in H.
  assert (FIN : forall st mt, late_event s1 s2 g1 g2 st mt = Ok r ->
     fst (fst r) = Some st /\ snd r = mt /\
     ((snd (fst r) = Some "CC1" <-> finished_core s1 g1) /\
      (snd (fst r) = Some "CC2" <-> ~ finished_core s1 g1 /\ finished_core s2 g2) /\
      (snd (fst r) = None <-> ~ finished_core s1 g1 /\ ~ finished_core s2 g2))).
  { intros st mt E. unfold late_event in E.
    destruct (core_done s1 g1) as [d1|] eqn:D1; [|discriminate]. cbn [rbind] in E.
    pose proof (core_done_iff _ _ _ D1) as I1. destruct d1.
    - injection E as <-. cbn. repeat split; try tauto; try discriminate.
    - destruct (core_done s2 g2) as [d2|] eqn:D2; [|discriminate]. cbn [rbind] in E.
      pose proof (core_done_iff _ _ _ D2) as I2. injection E as <-. cbn.
      destruct d2; repeat split; try discriminate; intuition discriminate. }
  assert (UN : cls_is cls "unstable_MT" = true <-> cls = Some "unstable_MT").
  { unfold cls_is, opt_str_eqb. destruct cls as [c|]; [|split; discriminate].
    rewrite String.eqb_eq. split; congruence. }
  assert (Q1 : (f1 =? 0)%Z = true -> is_rlo f1 = false).
  { intro X. apply Z.eqb_eq in X. subst. reflexivity. }
  assert (Q2 : (f2 =? 0)%Z = true -> is_rlo f2 = false).
  { intro X. apply Z.eqb_eq in X. subst. reflexivity. }
  unfold MT_CASE_NO_RLO in H.
  (* the state, from the shape of the result *)
  assert (ST : forall st, fst (fst r) = Some st -> In st [ "contact"; "RLO1"; "RLO2"; "detached"; "undefined" ] ->
     (st = "contact" <-> is_rlo f1 = true /\ is_rlo f2 = true) ->
     (st = "RLO1" <-> is_rlo f1 = true /\ ~ is_rlo f2 = true) ->
     (st = "RLO2" <-> ~ is_rlo f1 = true /\ is_rlo f2 = true) ->
     (st = "detached" <-> (f1 =? 0)%Z = true /\ (f2 =? 0)%Z = true) ->
     exists st, fst (fst r) = Some st /\
    let d1 := is_donor o1 rate s1 D in
    let d2 := is_donor o2 rate s2 (negb D) in
    (st = "contact" <-> d1 /\ d2) /\
    (st = "RLO1" <-> d1 /\ ~ d2) /\
    (st = "RLO2" <-> ~ d1 /\ d2) /\
    (st = "detached" <-> quiet o1 rate D /\ quiet o2 rate (negb D)) /\
    In st [ "contact"; "RLO1"; "RLO2"; "detached"; "undefined" ]).
  { intros st E I X1 X2 X3 X4. exists st. cbn zeta. rewrite <- A1, <- A2, <- Z1, <- Z2. tauto. }
  destruct (is_rlo f1) eqn:E1; destruct (is_rlo f2) eqn:E2; cbn [andb negb] in H.
  - (* contact *)
    assert (N1 : (f1 =? 0)%Z = false) by (destruct (f1 =? 0)%Z; [discriminate Q1; reflexivity|reflexivity]).
    assert (DO : match o1, o2 with Some a, Some b => nge a b | _, _ => false end = D).
    { destruct (is_donor_defined _ _ _ _ (proj1 A1 eq_refl)) as [a ->].
      destruct (is_donor_defined _ _ _ _ (proj1 A2 eq_refl)) as [b ->]. reflexivity. }
    rewrite DO in H.
    assert (S : fst (fst r) = Some "contact" /\ snd r = "None").
    { destruct (cls_is cls "unstable_MT").
      - destruct D; injection H as <-; split; reflexivity.
      - apply FIN in H. tauto. }
    destruct S as [S M]. split; [|cbn zeta; rewrite ?S ..].
    + apply (ST "contact"); [exact S|cbn; tauto|..]; rewrite ?N1; intuition discriminate.
    + intros U _. apply UN in U. rewrite U in H.
      repeat split; try discriminate; intros _ DD; fold D in DD; rewrite DD in H; injection H as <-; cbn [fst snd].
      * destruct (simple_companion star2) eqn:SC; [left|right]; rewrite <- simple_iff; split; congruence.
      * destruct (simple_companion star1) eqn:SC; [left|right]; rewrite <- simple_iff; split; congruence.
    + intros [U|[U|U]]; [|discriminate..].
      destruct (cls_is cls "unstable_MT"); [tauto|]. apply FIN in H. tauto.
    + repeat split; try discriminate. intros _ _. exact M.
  - (* RLO1 *)
    assert (N1 : (f1 =? 0)%Z = false) by (destruct (f1 =? 0)%Z; [discriminate Q1; reflexivity|reflexivity]).
    rewrite N1 in H. cbn [andb] in H.
    assert (S : fst (fst r) = Some "RLO1" /\ snd r = fst (cumulative_mass_transfer_string [f1])).
    { destruct (cls_is cls "unstable_MT").
      - injection H as <-; split; reflexivity.
      - apply FIN in H. tauto. }
    destruct S as [S M]. split; [|cbn zeta; rewrite ?S ..].
    + apply (ST "RLO1"); [exact S|cbn; tauto|..]; rewrite ?N1; intuition discriminate.
    + intros U _. apply UN in U. rewrite U in H. injection H as <-.
      repeat split; try discriminate.
    + intros [U|[U|U]]; [|discriminate..].
      destruct (cls_is cls "unstable_MT"); [tauto|]. apply FIN in H. tauto.
    + split; [|split].
      * intros _. destruct (label1 f1 R1 E1) as (w & W1 & W2).
        destruct (donor_word _ _ _ _ _ w F1 E1 W1) as (s & -> & SW). exists s, w.
        rewrite M. auto.
      * discriminate.
      * congruence.
  - (* RLO2 *)
    assert (N2 : (f2 =? 0)%Z = false) by (destruct (f2 =? 0)%Z; [discriminate Q2; reflexivity|reflexivity]).
    rewrite N2, andb_false_r in H.
    assert (S : fst (fst r) = Some "RLO2" /\ snd r = fst (cumulative_mass_transfer_string [f2 + 10]%Z)).
    { destruct (cls_is cls "unstable_MT").
      - injection H as <-; split; reflexivity.
      - apply FIN in H. tauto. }
    destruct S as [S M]. split; [|cbn zeta; rewrite ?S ..].
    + apply (ST "RLO2"); [exact S|cbn; tauto|..]; rewrite ?N2; intuition discriminate.
    + intros U _. apply UN in U. rewrite U in H. injection H as <-.
      repeat split; try discriminate.
    + intros [U|[U|U]]; [|discriminate..].
      destruct (cls_is cls "unstable_MT"); [tauto|]. apply FIN in H. tauto.
    + split; [|split].
      * discriminate.
      * intros _. destruct (label2 f2 R2 E2) as (w & W1 & W2).
        destruct (donor_word _ _ _ _ _ w F2 E2 W1) as (s & -> & SW). exists s, w.
        rewrite M. auto.
      * congruence.
  - (* no donor *)
    assert (S : exists st, late_event s1 s2 g1 g2 st "None" = Ok r /\
       (st = "detached" <-> (f1 =? 0)%Z = true /\ (f2 =? 0)%Z = true) /\
       (st = "detached" \/ st = "undefined")).
    { destruct ((f1 =? 0)%Z && (f2 =? 0)%Z) eqn:N.
      - exists "detached". split; [exact H|]. apply andb_true_iff in N. tauto.
      - exists "undefined". split; [exact H|]. apply andb_false_iff in N. split; [|tauto].
        split; [discriminate|]. intros [X Y]. destruct N; congruence. }
    destruct S as (st & L & S1 & S2). apply FIN in L. destruct L as (S & M & L).
    split; [|cbn zeta; rewrite ?S ..].
    + apply (ST st); [exact S|cbn; destruct S2; subst; tauto|..].
      * destruct S2 as [->| ->]; intuition discriminate.
      * destruct S2 as [->| ->]; intuition discriminate.
      * destruct S2 as [->| ->]; intuition discriminate.
      * exact S1.
    + intros _ X. destruct S2 as [->| ->]; intuition discriminate.
    + intros _. exact L.
    + repeat split; intros; try exact M; destruct S2 as [->| ->]; discriminate.
Qed.

(** ** Exchanging the stars *)
Lemma mirror_case_1 : forall c, In c [0; 1; 2; 3; 4; 5; 8; 9]%Z -> is_rlo c = true ->
  mirror_label (fst (cumulative_mass_transfer_string [c]))
  = fst (cumulative_mass_transfer_string [c + 10]%Z).
Proof.
  intros c I R. cbn in I.
  repeat (destruct I as [<-|I]; [try discriminate R; reflexivity|]). destruct I.
Qed.
Lemma mirror_case_2 : forall c, In c [0; 1; 2; 3; 4; 5; 8; 9]%Z -> is_rlo c = true ->
  mirror_label (fst (cumulative_mass_transfer_string [c + 10]%Z))
  = fst (cumulative_mass_transfer_string [c]).
Proof.
  intros c I R. cbn in I.
  repeat (destruct I as [<-|I]; [try discriminate R; reflexivity|]). destruct I.
Qed.

Lemma mirror_triple : forall a b c,
  mirror_result (Some a, Some b, c) = (Some (mirror_label a), Some (mirror_label b), mirror_label c).
Proof. reflexivity. Qed.

Lemma untied_dominates : forall o1 o2, ~ tied o1 o2 -> o1 <> None \/ o2 <> None ->
  first_dominates o2 o1 = negb (first_dominates o1 o2).
Proof.
  intros [a|] [b|] T N; cbn; try reflexivity.
  - unfold tied in T. destruct (nle a b) eqn:E1, (nle b a) eqn:E2; try reflexivity;
      exfalso; apply T; exists a, b; repeat split; congruence.
  - destruct N; congruence.
Qed.

Lemma late_mirror : forall n1 n2 g1 g2 st mt r,
  ~ (finished_core (Some n1) g1 /\ finished_core (Some n2) g2) ->
  late_event (Some n1) (Some n2) g1 g2 st mt = Ok r ->
  late_event (Some n2) (Some n1) g2 g1 (mirror_label st) (mirror_label mt) = Ok (mirror_result r).
Proof.
  intros n1 n2 g1 g2 st mt r NF H. unfold late_event in *.
  assert (forall n g, exists d, core_done (Some n) g = Ok d) as T.
  { intros n g. unfold core_done, in_state, r_or.
    destruct (py_in "Core_C_depleted" n), (py_in "Core_He_depleted" n); eauto. }
  destruct (T n1 g1) as [d1 D1], (T n2 g2) as [d2 D2]. rewrite D1, D2 in *. cbn [rbind] in *.
  apply core_done_iff in D1, D2.
  destruct d1, d2; injection H as <-; try reflexivity. exfalso. tauto.
Qed.

Lemma bsem_mirror : forall cls rate o1 o2 n1 n2 g1 g2 star1 star2 r,
  ~ tied o1 o2 -> ~ (finished_core (Some n1) g1 /\ finished_core (Some n2) g2) ->
  bsem_body cls rate o1 o2 (Some n1) (Some n2) g1 g2 star1 star2 = Ok r ->
  bsem_body cls rate o2 o1 (Some n2) (Some n1) g2 g1 star2 star1 = Ok (mirror_result r).
Proof.
  intros cls rate o1 o2 n1 n2 g1 g2 star1 star2 r T NF H.
  assert (B : o1 = None /\ o2 = None \/ (o1 <> None \/ o2 <> None)).
  { destruct o1, o2; [right; left|right; left|right; right|left; auto]; discriminate. }
  destruct B as [[-> ->]|B].
  { unfold bsem_body in *. cbn in H |- *.
    apply (late_mirror _ _ _ _ _ _ _ NF) in H. exact H. }
  unfold bsem_body in *. rewrite !dominates_eq in *.
  rewrite (untied_dominates _ _ T B). set (D := first_dominates o1 o2) in *.
  rewrite negb_involutive.
  destruct (infer_mass_transfer_case o1 rate (Some n1) D) as [f1|] eqn:F1; [|discriminate].
  cbn [rbind] in H.
  destruct (infer_mass_transfer_case o2 rate (Some n2) (negb D)) as [f2|] eqn:F2; [|discriminate].
  cbn [rbind] in *.
  fold (is_rlo f1) in *. fold (is_rlo f2) in *.
  pose proof (mt_range _ _ _ _ _ F1) as R1. pose proof (mt_range _ _ _ _ _ F2) as R2.
  destruct (donor_flag _ _ _ _ _ F1) as [A1 _]. destruct (donor_flag _ _ _ _ _ F2) as [A2 _].
  rewrite (andb_comm (is_rlo f2) (is_rlo f1)), (andb_comm (f2 =? _)%Z).
  destruct (is_rlo f1) eqn:E1; destruct (is_rlo f2) eqn:E2; cbn [andb negb] in *.
  - assert (DO : match o1, o2 with Some a, Some b => nge a b | _, _ => false end = D
              /\ match o2, o1 with Some a, Some b => nge a b | _, _ => false end = negb D).
    { pose proof (untied_dominates _ _ T B) as U. fold D in U.
      destruct (is_donor_defined _ _ _ _ (proj1 A1 eq_refl)) as [a ->].
      destruct (is_donor_defined _ _ _ _ (proj1 A2 eq_refl)) as [b ->]. split; [reflexivity|exact U]. }
    destruct DO as [DO1 DO2]. rewrite DO1 in H. rewrite DO2.
    destruct (cls_is cls "unstable_MT").
    + destruct D; injection H as <-; cbn [negb];
        [destruct (simple_companion star2)|destruct (simple_companion star1)]; reflexivity.
    + apply (late_mirror _ _ _ _ _ _ _ NF) in H. exact H.
  - assert (N1 : (f1 =? MT_CASE_NO_RLO)%Z = false).
    { destruct (f1 =? MT_CASE_NO_RLO)%Z eqn:X; [|reflexivity]. apply Z.eqb_eq in X. subst. discriminate. }
    rewrite N1 in *. cbn [andb] in *. destruct (cls_is cls "unstable_MT").
    + match type of H with Ok ?x = Ok _ => assert (r = x) as -> by congruence end.
      rewrite mirror_triple.
      rewrite mirror_case_1 by assumption. reflexivity.
    + apply (late_mirror _ _ _ _ _ _ _ NF) in H. rewrite mirror_case_1 in H by assumption. exact H.
  - assert (N2 : (f2 =? MT_CASE_NO_RLO)%Z = false).
    { destruct (f2 =? MT_CASE_NO_RLO)%Z eqn:X; [|reflexivity]. apply Z.eqb_eq in X. subst. discriminate. }
    rewrite N2, andb_false_r in *. destruct (cls_is cls "unstable_MT").
    + match type of H with Ok ?x = Ok _ => assert (r = x) as -> by congruence end.
      rewrite mirror_triple.
      rewrite mirror_case_2 by assumption. reflexivity.
    + apply (late_mirror _ _ _ _ _ _ _ NF) in H. rewrite mirror_case_2 in H by assumption. exact H.
  - destruct ((f1 =? MT_CASE_NO_RLO)%Z && (f2 =? MT_CASE_NO_RLO)%Z);
      apply (late_mirror _ _ _ _ _ _ _ NF) in H; exact H.
Qed.

(** ** Reading values *)
Lemma idx_ok : forall A (l : list A) i x, idx l i = Ok x <-> py_nth l i = Some x.
Proof. intros. unfold idx. destruct (py_nth l i); split; congruence. Qed.

Definition early (cls : option string) : bool := cls_is cls "not_converged" || cls_is cls "initial_MT".

Lemma early_iff : forall cls, early cls = false <-> cls <> Some "not_converged" /\ cls <> Some "initial_MT".
Proof.
  intro cls. unfold early, cls_is, opt_str_eqb. destruct cls as [c|].
  - rewrite orb_false_iff, !String.eqb_neq. split; intros [A B]; split; congruence.
  - split; [intros _; split; discriminate|reflexivity].
Qed.

Lemma bsem_now : forall b cls r, early cls = false ->
  get_binary_state_and_event_and_mt_case (Some b) cls None = Ok r ->
  bsem_meaning cls (mb_rate b) (mb_rl1 b) (mb_rl2 b) (ms_state (mb_star1 b)) (ms_state (mb_star2 b))
    (ms_gamma (mb_star1 b)) (ms_gamma (mb_star2 b)) (ms_state (mb_star1 b)) (ms_state (mb_star2 b)) r.
Proof.
  intros b cls r E H. apply orb_false_iff in E. destruct E as [E1 E2].
  cbn in H. unfold early in *. rewrite E1, E2 in H. apply bsem_body_meaning in H. exact H.
Qed.

Lemma bsem_at : forall b cls k r, early cls = false ->
  get_binary_state_and_event_and_mt_case (Some b) cls (Some k) = Ok r ->
  exists rate o1 o2 s1 s2,
    py_nth (mb_rate_hist b) k = Some rate /\ py_nth (mb_rl1_hist b) k = Some o1 /\
    py_nth (mb_rl2_hist b) k = Some o2 /\ py_nth (ms_state_hist (mb_star1 b)) k = Some s1 /\
    py_nth (ms_state_hist (mb_star2 b)) k = Some s2 /\
    bsem_meaning cls rate o1 o2 s1 s2
      (match py_nth (ms_gamma_hist (mb_star1 b)) k with Some g => g | None => None end)
      (match py_nth (ms_gamma_hist (mb_star2 b)) k with Some g => g | None => None end)
      (ms_state (mb_star1 b)) (ms_state (mb_star2 b)) r.
Proof.
  intros b cls k r E H. apply orb_false_iff in E. destruct E as [E1 E2].
  cbn in H. rewrite E1, E2 in H.
  repeat match type of H with rbind (idx ?l k) _ = _ =>
    let X := fresh "X" in destruct (idx l k) eqn:X; [|discriminate]; cbn [rbind] in H;
    apply idx_ok in X end.
  do 5 eexists. repeat (split; [eassumption|]). apply bsem_body_meaning in H. exact H.
Qed.

(** [collect] keeps positions. *)
Lemma collect_ok : forall A (l : list (result A)) r, collect l = Ok r -> l = map Ok r.
Proof.
  induction l as [|x l IH]; intros r H; cbn in H.
  - injection H as <-. reflexivity.
  - destruct x as [a|]; [|discriminate]. cbn in H. destruct (collect l) as [r'|] eqn:E; [|discriminate].
    cbn in H. injection H as <-. cbn. f_equal. apply IH. reflexivity.
Qed.

Lemma range_neg_nth : forall N k, (Z.of_nat k < N)%Z -> nth_error (range_neg N) k = Some (Z.of_nat k - N)%Z.
Proof.
  intros N k H. unfold range_neg. rewrite nth_map_error, nth_seq_error by lia. reflexivity.
Qed.
Lemma range_neg_length : forall N, length (range_neg N) = Z.to_nat N.
Proof. intro N. unfold range_neg. rewrite map_length, seq_length. reflexivity. Qed.

Lemma collect_range : forall A (f : Z -> result A) N r, collect (map f (range_neg N)) = Ok r ->
  length r = Z.to_nat N /\
  forall k a, nth_error r k = Some a -> f (Z.of_nat k - N)%Z = Ok a.
Proof.
  intros A f N r H. apply collect_ok in H.
  assert (L : length r = Z.to_nat N).
  { rewrite <- (map_length Ok r), <- H, map_length, range_neg_length. reflexivity. }
  split; [exact L|]. intros k a E.
  assert (K : (k < length r)%nat) by (apply nth_error_Some; congruence).
  assert (X : nth_error (map f (range_neg N)) k = nth_error (map Ok r) k) by congruence.
  rewrite !nth_map_error, range_neg_nth, E in X by lia. cbn in X. congruence.
Qed.

(** ** C16: compact objects *)
Lemma positive_iff : forall x, positive_abundance x = true <-> abundance_seen x.
Proof.
  intro x. unfold positive_abundance, abundance_seen. destruct x as [v|].
  - rewrite andb_true_iff. unfold ngt. rewrite above_iff. split.
    + intros [_ H]. eauto.
    + intros (v' & E & H). injection E as <-. split; [|exact H].
      destruct H as [->|(q & -> & _)]; reflexivity.
  - split; [discriminate|]. intros (v & E & _). discriminate.
Qed.

Definition WDQ : Q := 1643813863990231 # 1125899906842624.
Definition NSQ : Q := 2476979795053773 # 2251799813685248.

Lemma compact_ok : forall surf m sh ch che cc n,
  (surf = true <-> abundance_seen sh \/ abundance_seen ch \/ abundance_seen che \/ abundance_seen cc) ->
  (infer_compact m sh ch che cc = n <-> compact_class NSQ WDQ (5 # 2) surf m n).
Proof.
  intros surf m sh ch che cc n S.
  assert (SB : positive_abundance sh || positive_abundance ch || positive_abundance che
               || positive_abundance cc = surf).
  { rewrite <- !positive_iff in S. rewrite <- !orb_true_iff in S. rewrite !orb_assoc in S.
    destruct (positive_abundance sh || positive_abundance ch || positive_abundance che
               || positive_abundance cc), surf; intuition congruence. }
  unfold infer_compact. rewrite SB. clear S SB.
  unfold STATE_NS_STARMASS_LOWER_LIMIT, STATE_WD_STARMASS_UPPER_LIMIT, STATE_NS_STARMASS_UPPER_LIMIT.
  fold WDQ. fold NSQ.
  assert (O : (0 < NSQ)%Q /\ (NSQ < WDQ)%Q /\ (WDQ < (5#2))%Q) by (repeat split; reflexivity).
  destruct O as (O1 & O2 & O3).
  destruct m as [[| | |q]|]; cbn [isna orb].
  - cbn. split; [intros <-; constructor|]. intro H. inversion H; reflexivity.
  - cbn. split; [intros <-; constructor|]. intro H. inversion H; reflexivity.
  - replace (nle PInf (Fin 0)) with false by reflexivity.
    replace (nle PInf (Fin WDQ)) with false by reflexivity.
    rewrite andb_false_r. replace (nle PInf (Fin (5#2))) with false by reflexivity.
    split; [intros <-; constructor|]. intro H. inversion H; reflexivity.
  - destruct (nle (Fin q) (Fin 0)) eqn:E0.
    { apply nle_fin in E0. split; [intros <-; constructor; exact E0|].
      intro H. inversion H; subst; try reflexivity; exfalso; lra. }
    apply nle_fin_false in E0.
    destruct surf.
    + cbn [orb andb]. destruct (nle (Fin q) (Fin WDQ)) eqn:E1.
      { apply nle_fin in E1. split; [intros <-; apply cc_wd; [reflexivity|split; assumption]|].
        intro H. inversion H; subst; try reflexivity; try discriminate; exfalso; lra. }
      apply nle_fin_false in E1. destruct (nle (Fin q) (Fin (5#2))) eqn:E2.
      { apply nle_fin in E2. split; [intros <-; apply cc_ns; [reflexivity|split; assumption]|].
        intro H. inversion H; subst; try reflexivity; try discriminate; exfalso; lra. }
      apply nle_fin_false in E2. split; [intros <-; apply cc_bh; assumption|].
      intro H. inversion H; subst; try reflexivity; try discriminate; exfalso; lra.
    + cbn [orb]. destruct (nlt (Fin q) (Fin NSQ)) eqn:E1.
      { apply nlt_fin in E1. cbn [andb].
        assert (nle (Fin q) (Fin WDQ) = true) as -> by (apply nle_fin; lra).
        split; [intros <-; apply cc_wd_bare; [reflexivity|split; assumption]|].
        intro H. inversion H; subst; try reflexivity; try discriminate; exfalso; lra. }
      cbn [andb]. apply nlt_fin_false in E1. destruct (nle (Fin q) (Fin (5#2))) eqn:E2.
      { apply nle_fin in E2. split; [intros <-; apply cc_ns_bare; [reflexivity|split; assumption]|].
        intro H. inversion H; subst; try reflexivity; try discriminate; exfalso; lra. }
      apply nle_fin_false in E2. split; [intros <-; apply cc_bh; assumption|].
      intro H. inversion H; subst; try reflexivity; try discriminate; exfalso; lra.
  - split; [intros <-; constructor|]. intro H. inversion H; reflexivity.
Qed.

(** ** C16: normal stars *)
Ltac okinj H := match type of H with Ok ?x = Ok ?y =>
  let E := fresh in assert (E : y = x) by congruence; subst y; clear H end.
Section Normal.
  Variables (fsub : num -> num -> num) (round10 : num -> num) (rel : num).

  Definition TQ : Q := 5764607523034235 # 576460752303423488.

  Lemma in_core_ok : forall x d, in_core x = Ok d -> (d = true <-> present x TQ).
  Proof.
    intros x d H. unfold in_core, p_gt, p_lt in H. destruct x as [v|]; [|discriminate].
    okinj H. unfold THRESHOLD_CENTRAL_ABUNDANCE. fold TQ. rewrite above_iff.
    unfold present. split; [eauto|]. intros (v' & E & X). injection E as <-. exact X.
  Qed.

  Lemma burning_ok : forall l n d, burning_of fsub rel l n = Ok d ->
    (d = true <-> burns fsub rel l n).
  Proof.
    intros l n d H. unfold burning_of, r_and, p_gt, p_lt in H.
    destruct l as [l|]; [|discriminate].
    unfold LOG10_BURNING_THRESHOLD in H.
    destruct (nlt (Fin (-10 # 1)) l) eqn:E.
    - cbn [p_sub] in H. destruct n as [n|]; [|discriminate]. cbn [rbind] in H. okinj H.
      apply above_iff in E. unfold burns. split.
      + intro X. exists l, n. auto.
      + intros (l' & n' & E1 & E2 & _ & X). injection E1 as <-. injection E2 as <-. exact X.
    - okinj H. split; [discriminate|]. intros (l' & n' & E1 & _ & X & _).
      injection E1 as <-. apply above_iff in X. congruence.
  Qed.

  Lemma rich_ok : forall s c r, isna s = false -> rich_in round10 s c = Ok r ->
    surface_class round10 TQ s c r.
  Proof.
    intros s c r N H. unfold rich_in, p_gt, p_lt in H. destruct s as [s|]; [|discriminate].
    cbn [rbind] in H. unfold THRESHOLD_HE_NAKED_ABUNDANCE in H. fold TQ in H.
    exists s. split; [reflexivity|]. split; [intros ->; discriminate|].
    destruct (nlt (Fin TQ) s) eqn:E.
    - okinj H. left. split; [reflexivity|]. apply above_iff. exact E.
    - right. assert (~ above s TQ) as NA by (rewrite <- above_iff; congruence).
      cbn in H. destruct c as [c|]; [|discriminate]. cbn in H. okinj H.
      destruct (nlt (round10 s) (round10 c)) eqn:L; [left|right]; repeat split; eauto.
  Qed.

  Lemma normal_ok : forall m sh ch che cc lh lhe ln n,
    infer_star_state fsub round10 rel m sh ch che cc lh lhe ln false = Ok n ->
    (isna sh = true /\ n = "undetermined_evolutionary_state")
    \/ exists rich burning, n = rich ++ "_" ++ burning
       /\ surface_class round10 TQ sh ch rich
       /\ burning_class (present ch TQ) (present che TQ) (present cc TQ)
            (burns fsub rel lh ln) (burns fsub rel lhe ln) burning.
  Proof.
    intros m sh ch che cc lh lhe ln n H. unfold infer_star_state in H.
    destruct (isna sh) eqn:N; [left; okinj H; auto|right].
    destruct (rich_in round10 sh ch) as [rich|] eqn:R; [|discriminate]. cbn [rbind] in H.
    destruct (burning_of fsub rel lh ln) as [bh|] eqn:BH; [|discriminate]. cbn [rbind] in H.
    destruct (burning_of fsub rel lhe ln) as [bhe|] eqn:BHE; [|discriminate]. cbn [rbind] in H.
    destruct (in_core ch) as [hc|] eqn:HC; [|discriminate]. cbn [rbind] in H.
    destruct (in_core che) as [hec|] eqn:HEC; [|discriminate]. cbn [rbind] in H.
    destruct (in_core cc) as [c|] eqn:C; [|discriminate]. cbn [rbind] in H.
    apply burning_ok in BH, BHE. apply in_core_ok in HC, HEC, C. apply (rich_ok _ _ _ N) in R.
    injection H as H. eexists rich, _. split; [symmetry; exact H|]. split; [exact R|].
    assert (T : true = true) by reflexivity. assert (F : ~ (false = true)) by discriminate.
    clear H R N.
    destruct hc, hec, c, bh, bhe; cbn;
      first [ solve [apply bc_c_depl; tauto] | solve [apply bc_he_depl; tauto]
            | solve [apply bc_core_h; tauto] | solve [apply bc_non_h; tauto]
            | solve [apply bc_core_he; tauto] | solve [apply bc_shell; tauto]
            | solve [apply bc_non_he; tauto] ].
  Qed.

  Lemma normal_names : forall m sh ch che cc lh lhe ln n,
    infer_star_state fsub round10 rel m sh ch che cc lh lhe ln false = Ok n ->
    In n ("undetermined_evolutionary_state" :: inferred_names).
  Proof.
    intros m sh ch che cc lh lhe ln n H. apply normal_ok in H.
    destruct H as [[_ ->]|(rich & burning & -> & R & B)]; [left; reflexivity|right].
    destruct R as (s & _ & _ & [[-> _]|[[-> _]|[-> _]]]); destruct B; cbn; tauto.
  Qed.

  (** No exception when all values are given. *)
  Lemma normal_total : forall m sh ch che cc lh lhe ln,
    exists n, infer_star_state fsub round10 rel m (Some sh) (Some ch) (Some che) (Some cc)
                (Some lh) (Some lhe) (Some ln) false = Ok n.
  Proof.
    intros. unfold infer_star_state. destruct (isna (Some sh)); [eauto|].
    unfold rich_in, burning_of, in_core, p_gt, p_lt, r_and. cbn [rbind p_sub p_round10].
    destruct (nlt THRESHOLD_HE_NAKED_ABUNDANCE sh), (nlt LOG10_BURNING_THRESHOLD lh),
      (nlt LOG10_BURNING_THRESHOLD lhe); cbn [rbind]; eauto.
  Qed.

  (** First helium-depleted row. *)
  Lemma first_depl_ok : forall l i k, first_He_depl fsub round10 rel i l = Ok k -> (0 <= i)%Z ->
    (k = -1 /\ forall r, In r l -> exists n, infer_row fsub round10 rel r = Ok n /\ ~ has "Core_He_depleted" n)%Z
    \/ exists j r n, k = (i + Z.of_nat j)%Z /\ nth_error l j = Some r
         /\ infer_row fsub round10 rel r = Ok n /\ has "Core_He_depleted" n
         /\ forall j' r', (j' < j)%nat -> nth_error l j' = Some r' ->
              exists n', infer_row fsub round10 rel r' = Ok n' /\ ~ has "Core_He_depleted" n'.
  Proof.
    induction l as [|r l IH]; intros i k H P; cbn [first_He_depl] in H.
    - okinj H. left. split; [reflexivity|]. intros r [].
    - destruct (infer_row fsub round10 rel r) as [n|] eqn:E; [|discriminate]. cbn [rbind] in H.
      destruct (py_in "Core_He_depleted" n) eqn:D.
      + okinj H. right. exists O, r, n. repeat split; try assumption.
        * lia.
        * apply has_iff. exact D.
        * intros j' r' L. lia.
      + apply has_false in D. destruct (IH _ _ H) as [[-> A]|(j & r' & n' & -> & N & I & HD & B)]; [lia|left|right].
        * split; [reflexivity|]. intros r' [<-|I]; eauto.
        * exists (S j), r', n'. repeat split; try assumption; [lia|].
          intros [|j'] r'' L N'.
          -- cbn in N'. injection N' as <-. eauto.
          -- apply (B j'); [lia|exact N'].
  Qed.
End Normal.

Lemma flow_name_iff : forall n, In n inferred_names ->
  (FlowChartModel.star_in (star_of_name n) FlowChartModel.STAR_STATES_ALL = false
   <-> In n names_without_flow).
Proof.
  intros n I.
  assert (C : forallb (fun n => Bool.eqb
     (FlowChartModel.star_in (star_of_name n) FlowChartModel.STAR_STATES_ALL)
     (negb (inb String.eqb n names_without_flow))) inferred_names = true) by (vm_compute; reflexivity).
  rewrite forallb_forall in C. specialize (C n I). apply Bool.eqb_prop in C. rewrite C.
  rewrite negb_false_iff.
  destruct (inb_spec String.eqb_spec n names_without_flow); intuition discriminate.
Qed.

(** ** From tagged values to integers *)
Lemma filter_map_CI : forall (f : cval -> bool) l,
  filter f (map CI l) = map CI (filter (fun z => f (CI z)) l).
Proof.
  induction l as [|z l IH]; [reflexivity|]. cbn. destruct (f (CI z)); cbn; rewrite IH; reflexivity.
Qed.

Lemma map_CI_app : forall a b l, (a ++ b)%list = map CI l ->
  exists a' b', l = (a' ++ b')%list /\ a = map CI a' /\ b = map CI b'.
Proof.
  induction a as [|x a IH]; intros b l H.
  - exists [], l. auto.
  - destruct l as [|z l]; [discriminate|]. cbn in H. injection H as -> H.
    destruct (IH _ _ H) as (a' & b' & -> & -> & ->). exists (z :: a'), b'. auto.
Qed.

Lemma stutters_CI : forall core kept, stutters core kept ->
  forall k, kept = map CI k -> exists c, core = map CI c /\ stutters c k.
Proof.
  intros core kept H. induction H as [|x n short long H IH]; intros k E.
  - destruct k; [|discriminate]. exists []. split; [reflexivity|constructor].
  - apply map_CI_app in E. destruct E as (a' & b' & -> & Ea & Eb).
    destruct (IH b' Eb) as (c & -> & S).
    destruct a' as [|z a']; [discriminate|]. injection Ea as -> Ea.
    exists (z :: c). split; [reflexivity|].
    assert (a' = repeat z n) as ->.
    { clear -Ea. revert a' Ea. induction n as [|n IH]; intros [|y a'] E; try discriminate; [reflexivity|].
      cbn in E. injection E as <- E. cbn. f_equal. apply IH. exact E. }
    change (z :: repeat z n) with (repeat z (Datatypes.S n)). constructor. exact S.
Qed.

Lemma summary_CI : forall l o, is_summary (CI 9) (CI 0) (map CI l) o ->
  exists out, o = map CI out /\ is_summary 9%Z 0%Z l out.
Proof.
  intros l o (front & core & kept & -> & F1 & F2 & (keep & K & ->) & Z1 & S1).
  assert (I : forall z, In (CI z) (map CI l) <-> In z l).
  { intro z. rewrite in_map_iff. split; [intros (y & E & H); injection E as <-; exact H|].
    intro H. exists z. auto. }
  rewrite !I in *. rewrite filter_map_CI in *.
  set (k := filter (fun z => keep (CI z)) l) in *.
  assert (C : exists c, core = map CI c /\
     (k = [] -> (In 0%Z l -> c = [0%Z]) /\ (~ In 0%Z l -> c = [])) /\
     (k <> [] -> stutters c k /\ no_repeats c)).
  { destruct k as [|z k'] eqn:Ek.
    - destruct (Z1 eq_refl) as [A B].
      destruct (in_dec Z.eq_dec 0%Z l) as [H|H].
      + exists [0%Z]. split; [exact (A H)|]. split; [tauto|congruence].
      + exists []. split; [exact (B H)|]. split; [tauto|congruence].
    - destruct S1 as [S N]; [discriminate|].
      destruct (stutters_CI _ _ S _ eq_refl) as (c & -> & S').
      exists c. split; [reflexivity|]. split; [discriminate|]. intros _. split; [exact S'|].
      intros i x E E'. apply (N i (CI x)); rewrite nth_map_error, ?E, ?E'; reflexivity. }
  destruct C as (c & -> & C1 & C2).
  destruct (in_dec Z.eq_dec 9%Z l) as [H|H].
  - exists ([9%Z] ++ c)%list. rewrite (F1 H). split; [reflexivity|].
    exists [9%Z], c, k. repeat split; try tauto; try (apply C1; assumption); try (apply C2; assumption).
    exists (fun z => keep (CI z)). split; [|reflexivity]. intro z. rewrite K.
    split; (intros [E|E]; [left|right]; congruence).
  - exists ([] ++ c)%list. rewrite (F2 H). split; [reflexivity|].
    exists [], c, k. repeat split; try tauto; try (apply C1; assumption); try (apply C2; assumption).
    exists (fun z => keep (CI z)). split; [|reflexivity]. intro z. rewrite K.
    split; (intros [E|E]; [left|right]; congruence).
Qed.

Lemma flag_ok : forall l shift, l <> [] -> exists out s w,
  cumulative_mass_transfer_flag l shift = Ok (s, (snd (corrected_cases shift l) ++ w)%list)
  /\ is_summary 9%Z 0%Z (fst (corrected_cases shift l)) out
  /\ cumulative_mass_transfer_string out = (s, w).
Proof.
  intros l shift NE. unfold cumulative_mass_transfer_flag.
  assert (NC : fst (corrected_cases shift l) <> []).
  { destruct shift; [|exact NE]. intro H. destruct (corrected_shifted l) as [L _].
    rewrite H in L. destruct l; [congruence|discriminate]. }
  destruct (corrected_cases shift l) as [c w0]. cbn [fst snd] in *.
  destruct c as [|z c]; [congruence|].
  destruct (numeric_spec z (map CI c)) as (o & E & S).
  change (map CI (z :: c)) with (CI z :: map CI c). rewrite E. cbn [rbind].
  destruct (summary_CI (z :: c) o S) as (out & -> & S'). rewrite ints_map_CI.
  destruct (cumulative_mass_transfer_string out) as [s w] eqn:ES.
  exists out, s, w. auto.
Qed.

(** After an undetermined entry, later entries of star 1 become undetermined. *)
Lemma shift_after_nine : forall l out, shifted l out ->
  forall i j c, (i <= j)%nat -> nth_error l i = Some 9%Z -> nth_error l j = Some c ->
  donor c = 1%nat -> nth_error out j = Some 9%Z.
Proof.
  intros l out [L N] i j c IJ Hi Hj D. rewrite (N j c Hj), D. cbn [Nat.eqb]. f_equal.
  apply Z.le_antisymm.
  - apply latest_le; [cbn; lia|]. intros x _ X. unfold donor in X.
    destruct (x <=? 9)%Z eqn:E; [lia|]. destruct (x <=? 19)%Z; discriminate.
  - apply latest_ge; [|reflexivity].
    assert (nth_error (firstn (S j) l) i = Some 9%Z) as X by (rewrite nth_firstn_lt by lia; exact Hi).
    apply nth_error_In in X. exact X.
Qed.

Lemma bsem_events : forall b cls i r, get_binary_state_and_event_and_mt_case b cls i = Ok r ->
  In (snd (fst r)) [ None; Some "CC1"; Some "CC2"; Some "oCE1"; Some "oCE2";
                     Some "oDoubleCE1"; Some "oDoubleCE2" ].
Proof.
  assert (LE : forall s1 s2 g1 g2 st mt r, late_event s1 s2 g1 g2 st mt = Ok r ->
     In (snd (fst r)) [ None; Some "CC1"; Some "CC2" ]).
  { intros s1 s2 g1 g2 st mt r H. unfold late_event in H.
    destruct (core_done s1 g1) as [[]|]; cbn [rbind] in H; [okinj H; cbn; tauto| |discriminate].
    destruct (core_done s2 g2) as [[]|]; cbn [rbind] in H; [okinj H|okinj H|discriminate]; cbn; tauto. }
  assert (BO : forall cls rate o1 o2 s1 s2 g1 g2 star1 star2 r,
    bsem_body cls rate o1 o2 s1 s2 g1 g2 star1 star2 = Ok r ->
    In (snd (fst r)) [ None; Some "CC1"; Some "CC2"; Some "oCE1"; Some "oCE2";
                     Some "oDoubleCE1"; Some "oDoubleCE2" ]).
  { intros cls rate o1 o2 s1 s2 g1 g2 star1 star2 r H. unfold bsem_body in H.
    destruct (infer_mass_transfer_case o1 _ _ _) as [f1|]; [|discriminate]. cbn [rbind] in H.
    destruct (infer_mass_transfer_case o2 _ _ _) as [f2|]; [|discriminate]. cbn [rbind] in H.
    repeat match type of H with
    | late_event _ _ _ _ _ _ = _ => apply LE in H; cbn in H |- *; tauto
    | Ok _ = Ok _ => okinj H; cbn; tauto
    | (if ?c then _ else _) = _ => destruct c
    end;
    destruct (simple_companion star1), (simple_companion star2); okinj H; cbn; tauto. }
  intros b cls i r H. destruct b as [b|]; cbn in H; [|okinj H; cbn; tauto].
  destruct (cls_is cls "not_converged"); [okinj H; cbn; tauto|].
  destruct (cls_is cls "initial_MT"); [okinj H; cbn; tauto|].
  destruct i as [k|]; [|exact (BO _ _ _ _ _ _ _ _ _ _ _ H)].
  repeat match type of H with rbind (idx ?l k) _ = _ =>
    destruct (idx l k); [|discriminate]; cbn [rbind] in H end.
  exact (BO _ _ _ _ _ _ _ _ _ _ _ H).
Qed.

(** The binary with its stars exchanged. *)
Definition swap_bin (b : mbin) : mbin :=
  MBin (mb_rate b) (mb_rl2 b) (mb_rl1 b) (mb_rate_hist b) (mb_rl2_hist b) (mb_rl1_hist b)
       (mb_star2 b) (mb_star1 b).

Lemma get_mirror : forall b cls r n1 n2,
  ms_state (mb_star1 b) = Some n1 -> ms_state (mb_star2 b) = Some n2 ->
  ~ tied (mb_rl1 b) (mb_rl2 b) ->
  ~ (finished_core (Some n1) (ms_gamma (mb_star1 b)) /\ finished_core (Some n2) (ms_gamma (mb_star2 b))) ->
  get_binary_state_and_event_and_mt_case (Some b) cls None = Ok r ->
  get_binary_state_and_event_and_mt_case (Some (swap_bin b)) cls None = Ok (mirror_result r).
Proof.
  intros b cls r n1 n2 E1 E2 T NF H. cbn in *.
  destruct (cls_is cls "not_converged"); [okinj H; reflexivity|].
  destruct (cls_is cls "initial_MT"); [okinj H; reflexivity|].
  rewrite E1, E2 in *. apply bsem_mirror; assumption.
Qed.

Lemma check_compact : forall fsub round10 rel star i r n,
  check_state_of_star fsub round10 rel star i true = Ok n ->
  match i with Some k => py_nth (s_hist star) k = Some r | None => r = s_now star end ->
  (exists st, py_nth (s_state_hist star) (-1) = Some st /\
    ((n = "WD" /\ (st = Some "WD" \/ s_state star = Some "WD"))
     \/ (st <> Some "WD" /\ s_state star <> Some "WD" /\ compact_class NSQ WDQ (5 # 2) false (r_mass r) n))).
Proof.
  intros fsub round10 rel star i r n H R. unfold check_state_of_star in H.
  assert (E : match i with Some k => idx (s_hist star) k | None => Ok (s_now star) end = Ok r).
  { destruct i; [apply idx_ok; exact R|congruence]. }
  rewrite E in H. cbn [rbind] in H.
  destruct (idx (s_state_hist star) (-1)) as [st|] eqn:X; [|discriminate]. cbn [rbind] in H.
  apply idx_ok in X. exists st. split; [exact X|].
  assert (W : forall a, opt_str_eqb a "WD" = true <-> a = Some "WD").
  { intros [a|]; cbn; [rewrite String.eqb_eq; split; congruence|split; discriminate]. }
  destruct (opt_str_eqb st "WD") eqn:W1.
  - apply W in W1. cbn [orb] in H. okinj H. left. auto.
  - destruct (opt_str_eqb (s_state star) "WD") eqn:W2.
    + apply W in W2. cbn [orb] in H. okinj H. left. auto.
    + right. split; [|split].
      * intro Y. apply W in Y. congruence.
      * intro Y. apply W in Y. congruence.
      * cbn [orb] in H. unfold infer_star_state in H. okinj H.
        apply (compact_ok false (r_mass r) None None None None); [|reflexivity].
        split; [discriminate|]. unfold abundance_seen.
        intros [(v & Y & _)|[(v & Y & _)|[(v & Y & _)|(v & Y & _)]]]; discriminate.
Qed.
