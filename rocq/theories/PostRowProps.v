(** C152: what the post-processing gives for a run. *)
From Coq Require Import String Ascii List Bool ZArith QArith Lia Permutation.
From Verif Require Import PyBase PyStr PyReplace TFlagModel SNNameModel PostModel PostProofs PostProps.
Import ListNotations.
Open Scope string_scope.
Open Scope nat_scope.
Open Scope list_scope.

(** ** Specification *)
(** The run in row [k] of the result *)
Definition in_row (ix : index) (grid : list run) (k : nat) (r : run) : Prop :=
  exists i, (0 <= i)%Z /\ nth_error grid (Z.to_nat i) = Some r /\ match ix with Every => i = Z.of_nat k | One j => k = 0 /\ i = j | Between [a; b] => (i = a + Z.of_nat k /\ i < b)%Z | _ => False end.
Definition evolved : list string := [ "no_MT"; "stable_MT"; "stable_reverse_MT" ].
Definition primary_ended : list string :=
  [ "Primary has depleted central carbon"; "Primary got stopped before central carbon depletion"; "Primary enters pair-instability regime";
    "Primary enters pulsational pair-instability regime" ].
Definition secondary_ended : list string :=
  [ "Secondary has depleted central carbon"; "Secondary got stopped before central carbon depletion"; "Secondary enters pair-instability regime";
    "Secondary enters pulsational pair-instability regime" ].
Definition crystallised (s : star) : Prop := exists x, s "center_gamma" = Flt (Some x) /\ (10 <= x)%Q.
(** The star of the run which collapses *)
Definition collapses (co : bool) (r : run) (s1 s2 : star) (second : bool) : Prop :=
  In (r_IC r) evolved
  /\ (if second then co = false /\ (In (r_TF1 r) secondary_ended \/ (r_TF1 r = "gamma_center_limit" /\ ~ crystallised s1 /\ crystallised s2))
      else co = true \/ In (r_TF1 r) primary_ended \/ (r_TF1 r = "gamma_center_limit" /\ crystallised s1)).
Definition explosive (s : star) : Prop := exists st, s "state" = Txt st /\ In st CC_states.
(** The attributes of a remnant have the types expected *)
Definition number (v : val) : Prop := exists x, v = Flt x.
Definition sound (t : star) : Prop :=
  (forall q, In q [ "state"; "SN_type" ] -> exists s, t q = Txt s) /\ (forall q, In q [ "f_fb"; "mass"; "m_disk_accreted"; "m_disk_radiated" ] -> number (t q))
  /\ (forall q, In q [ "spin"; "M4"; "mu4"; "h1_mass_ej"; "he4_mass_ej" ] -> t q = Nil \/ number (t q)).
(** 1 less the five abundances; 0 if one of them is NaN *)
Definition remainder (place : string) (s : star) (v : val) : Prop :=
  exists h he c n o, s (place ++ "_h1")%string = Flt h /\ s (place ++ "_he4")%string = Flt he /\ s (place ++ "_c12")%string = Flt c /\ s (place ++ "_n14")%string = Flt n
    /\ s (place ++ "_o16")%string = Flt o
    /\ v = Flt (match h, he, c, n, o with Some h, Some he, Some c, Some n, Some o => Some (1 - h - he - c - n - o)%Q | _, _, _, _, _ => Some 0%Q end).

(** ** Lemmas *)
Lemma lookup_in : forall w c v, NoDup (map fst w) -> In (c, v) w -> lookup w c = v.
Proof.
  intros w c v N I. unfold lookup. induction w as [|[c' v'] w IH]; [contradiction|]. cbn [dget]. cbn [map fst] in N. inversion N; subst. destruct I as [I|I].
  - assert (c' = c /\ v' = v) as [-> ->] by (split; congruence). rewrite String.eqb_refl. reflexivity.
  - destruct (String.eqb_spec c c') as [->|NE]; [exfalso; apply H1; apply (in_map fst) in I; exact I|]. apply IH; assumption.
Qed.
Lemma well_typed_iff : forall t, forallb (well_typed t) CC_quantities = true <-> sound t.
Proof.
  intros t.
  assert (TX : forall v, is_txt v = true <-> exists s, v = Txt s) by (intros [s|x| |]; cbn; split; try discriminate; try (intros _; eexists; reflexivity); try reflexivity; intros [s' E]; discriminate E).
  assert (FL : forall v, is_flt v = true <-> number v) by (intros [s|x| |]; cbn; split; try discriminate; try (intros _; eexists; reflexivity); try reflexivity; intros [s' E]; discriminate E).
  assert (FN : forall v, is_flt v || is_nil v = true <-> v = Nil \/ number v).
  { intros v. rewrite orb_true_iff, FL. destruct v; cbn [is_nil]; split; intros [H|H]; try discriminate; auto. }
  assert (X : forallb (well_typed t) CC_quantities = is_txt (t "state") && (is_txt (t "SN_type") && (is_flt (t "f_fb") && (is_flt (t "mass") && ((is_flt (t "spin") || is_nil (t "spin")) && (is_flt (t "m_disk_accreted")
    && (is_flt (t "m_disk_radiated") && (true && ((is_flt (t "M4") || is_nil (t "M4")) && ((is_flt (t "mu4") || is_nil (t "mu4")) && ((is_flt (t "h1_mass_ej") || is_nil (t "h1_mass_ej")) &&
    ((is_flt (t "he4_mass_ej") || is_nil (t "he4_mass_ej")) && true)))))))))))) by reflexivity.
  rewrite X. rewrite !andb_true_iff, !FN, !FL, !TX. unfold sound. split.
  - intros [A [B [C [D [E [F [G [_ [H [I [J [K _]]]]]]]]]]]]. split; [|split]; intros q Q; cbn in Q; repeat (destruct Q as [<-|Q]; [assumption|]); contradiction.
  - intros [A [B C]]. repeat split; try reflexivity; first [apply A; cbn; tauto|apply B; cbn; tauto|apply C; cbn; tauto].
Qed.
Lemma exploding_iff : forall s, exploding s = true <-> explosive s.
Proof.
  intros s. unfold exploding, explosive. destruct (s "state") as [st|x| |]; split; try discriminate; try (intros [st' [E _]]; discriminate E).
  - intros H. exists st. split; [reflexivity|apply inpool_in; exact H].
  - intros [st' [E I]]. assert (st = st') by congruence. subst. apply inpool_in. exact I.
Qed.
Lemma other_remainder : forall place s v, other place s = Ok v -> remainder place s v.
Proof.
  intros place s v H. unfold other in H. apply rbind_ok in H as [x [X H]]. cbn [map] in X.
  assert (ST : forall a l acc, minus_all acc (a :: l) = Ok x -> exists y, a = Flt y /\ minus_all (match acc, y with Some p, Some q => Some (p - q)%Q | _, _ => None end) l = Ok x)
    by (intros a l acc M; cbn [minus_all] in M; destruct a as [t|y| |]; try discriminate M; exists y; split; [reflexivity|exact M]).
  apply ST in X as [h [H1 X]]. apply ST in X as [he [H2 X]]. apply ST in X as [c [H3 X]]. apply ST in X as [n [H4 X]]. apply ST in X as [o [H5 X]]. cbn [minus_all] in X.
  exists h, he, c, n, o. do 5 (split; [assumption|]). assert (V : v = Flt (match x with Some z => Some z | None => Some 0%Q end)) by congruence. rewrite V.
  match type of X with Ok ?a = _ => assert (XE : x = a) by congruence end. rewrite XE. destruct h, he, c, n, o; reflexivity.
Qed.
Lemma gamma_iff : forall s b, gamma_reached s = Ok b -> (b = true <-> crystallised s).
Proof.
  intros s b H. unfold gamma_reached, crystallised in *. destruct (s "center_gamma") as [t|[x|]| |]; try discriminate H; (match type of H with Ok ?a = _ => assert (E : b = a) by congruence end); rewrite E.
  - rewrite Qle_bool_iff. split; [intros L; exists x; split; [reflexivity|exact L]|intros [y [E' L]]; assert (x = y) by congruence; subst; exact L].
  - split; [discriminate|intros [y [E' _]]; discriminate E'].
  - split; [discriminate|intros [y [E' _]]; discriminate E'].
Qed.
Lemma primary_iff : forall t, inpool t TF1_POOL_STABLE && (py_in "primary" t || py_in "Primary" t) = true <-> In t primary_ended.
Proof.
  intros t. split.
  - intros H. apply andb_true_iff in H as [A B]. apply inpool_in in A. cbn in A. repeat (destruct A as [<-|A]; [first [discriminate B|cbn; tauto]|]). contradiction.
  - intros H. cbn in H. repeat (destruct H as [<-|H]; [reflexivity|]). contradiction.
Qed.
Lemma secondary_iff : forall t, inpool t TF1_POOL_STABLE && (py_in "secondary" t || py_in "Secondary" t) = true <-> In t secondary_ended.
Proof.
  intros t. split.
  - intros H. apply andb_true_iff in H as [A B]. apply inpool_in in A. cbn in A. repeat (destruct A as [<-|A]; [first [discriminate B|cbn; tauto]|]). contradiction.
  - intros H. cbn in H. repeat (destruct H as [<-|H]; [reflexivity|]). contradiction.
Qed.
Lemma not_both : forall t, In t primary_ended -> In t secondary_ended -> False.
Proof. intros t A B. cbn in A, B. repeat (destruct A as [<-|A]; [repeat (destruct B as [B|B]; [discriminate B|]); contradiction|]). contradiction. Qed.
Lemma collapsing_iff : forall co r s1 s2 who, collapsing co (r_IC r) (r_TF1 r) s1 s2 = Ok who -> forall second, who = Some second <-> collapses co r s1 s2 second.
Proof.
  intros co r s1 s2 who H second. unfold collapsing in H. unfold collapses. destruct (inpool (r_IC r) ["no_MT"; "stable_MT"; "stable_reverse_MT"]) eqn:IC.
  2:{ assert (who = None) by congruence. subst who. split; [discriminate|]. intros [E _]. apply inpool_in in E. unfold evolved in E. congruence. }
  apply inpool_in in IC. destruct (inpool (r_TF1 r) TF1_POOL_STABLE && (py_in "primary" (r_TF1 r) || py_in "Primary" (r_TF1 r))) eqn:P.
  { assert (W : who = Some false) by (destruct co; cbn in H; congruence). subst who. apply primary_iff in P. destruct second.
    - split; [discriminate|]. intros [_ [_ [Q|[Q _]]]]; exfalso; [exact (not_both _ P Q)|]. rewrite Q in P. cbn in P. intuition discriminate.
    - split; [intros _; split; [exact IC|]; right; left; exact P|reflexivity]. }
  destruct co; cbn [orb] in H.
  { assert (who = Some false) by congruence. subst who. destruct second; [split; [discriminate|]; intros [_ [Q _]]; discriminate Q|]. split; [intros _; split; [exact IC|left; reflexivity]|reflexivity]. }
  assert (NP : ~ In (r_TF1 r) primary_ended) by (intros Q; apply primary_iff in Q; congruence).
  destruct (inpool (r_TF1 r) TF1_POOL_STABLE && (py_in "secondary" (r_TF1 r) || py_in "Secondary" (r_TF1 r))) eqn:Sd.
  { assert (who = Some true) by congruence. subst who. apply secondary_iff in Sd. destruct second; [split; [intros _; split; [exact IC|]; split; [reflexivity|]; left; exact Sd|reflexivity]|].
    split; [discriminate|]. intros [_ [Q|[Q|[Q _]]]]; [discriminate Q|contradiction|]. exfalso. rewrite Q in Sd. cbn in Sd. intuition discriminate. }
  assert (NS : ~ In (r_TF1 r) secondary_ended) by (intros Q; apply secondary_iff in Q; congruence).
  destruct (String.eqb_spec (r_TF1 r) "gamma_center_limit") as [G|NG].
  - apply rbind_ok in H as [g1 [G1 H]]. apply gamma_iff in G1. destruct g1.
    + assert (who = Some false) by congruence. subst who. assert (C1 : crystallised s1) by (apply G1; reflexivity). destruct second.
      * split; [discriminate|]. intros [_ [_ [Q|[_ [Q _]]]]]; contradiction.
      * split; [intros _; split; [exact IC|]; right; right; auto|reflexivity].
    + assert (C1 : ~ crystallised s1) by (intros C; apply G1 in C; discriminate C). apply rbind_ok in H as [g2 [G2 H]]. apply gamma_iff in G2. destruct g2.
      * assert (who = Some true) by congruence. subst who. assert (C2 : crystallised s2) by (apply G2; reflexivity). destruct second.
        -- split; [intros _; split; [exact IC|]; split; [reflexivity|]; right; auto|reflexivity].
        -- split; [discriminate|]. intros [_ [Q|[Q|[_ Q]]]]; [discriminate Q|contradiction|contradiction].
      * assert (who = None) by congruence. subst who. assert (C2 : ~ crystallised s2) by (intros C; apply G2 in C; discriminate C). split; [discriminate|]. destruct second.
        -- intros [_ [_ [Q|[_ [_ Q]]]]]; contradiction.
        -- intros [_ [Q|[Q|[_ Q]]]]; [discriminate Q|contradiction|contradiction].
  - assert (who = None) by congruence. subst who. split; [discriminate|]. destruct second; [intros [_ [_ [Q|[Q _]]]]; contradiction|intros [_ [Q|[Q|[Q _]]]]; [discriminate Q|contradiction|contradiction]].
Qed.

Section Rows.
Context (check_state : star -> bool -> result val) (patton : star -> result star) (cee : star -> star) (step_SN : SNNameModel.dict -> result (star -> result star)).
Notation run_writes := (run_writes check_state patton cee step_SN).
Notation base_writes := (base_writes check_state patton cee).
Notation collapse_writes := (collapse_writes step_SN).
Notation post_process_grid := (post_process_grid check_state patton cee step_SN).

(** The star is completed: the values at helium depletion are computed if one is missing ([s1]), then those of the common envelope ([s2]) *)
Definition completed (s s1 s2 : star) : Prop :=
  (if is_nil (s "avg_c_in_c_core_at_He_depletion") || is_nil (s "co_core_mass_at_He_depletion") then patton s = Ok s1 else s1 = s) /\ s2 = cee s1.
(** What is given for a star as such; [s2] is the star used afterwards *)
Definition star_given (co : bool) (IC : string) (s s2 : star) (row : string -> val) : Prop :=
  (co = false /\ In IC [ "no_MT"; "stable_MT"; "unstable_MT"; "stable_reverse_MT" ]
   /\ exists s1, completed s s1 s2 /\ check_state s false = Ok (row "state") /\ (forall q, In q [ "avg_c_in_c_core_at_He_depletion"; "co_core_mass_at_He_depletion" ] -> row q = s1 q)
      /\ (forall q, In q envelope -> row q = s2 q) /\ remainder "surface" s2 (row "surface_other") /\ remainder "center" s2 (row "center_other"))
  \/ ((co = true \/ ~ In IC [ "no_MT"; "stable_MT"; "unstable_MT"; "stable_reverse_MT" ])
      /\ s2 = s /\ (forall q, In q plain -> q <> "state" -> row q = Nil)
      /\ (In IC [ "initial_MT"; "not_converged" ] -> row "state" = Nil)
      /\ (~ In IC [ "initial_MT"; "not_converged" ] -> check_state s true = Ok (row "state") \/ (check_state s true = Raise TypeError /\ row "state" = Nil))).
(** What is given for a model: the attributes of the remnant, if there is one *)
Definition remnant_given (single : bool) (TF2 : string) (o : option star) (row : string -> val) : Prop :=
  match o with
  | None => forall q, In q collapsed -> row q = Nil
  | Some t => row "CO_type" = t "state" /\ (forall q, In q collapsed -> q <> "CO_type" -> q <> "CO_interpolation_class" -> row q = t q)
      /\ row "CO_interpolation_class"
         = if negb single && (match t "state" with Txt st => String.eqb st "BH" | _ => false end) && py_in "case" TF2 && py_in "1" TF2 && py_in "2" TF2
           then Txt "BH_reverse_MT" else t "state"
  end.
(** The supernova step with the settings of the module for the name of the model *)
Definition outcome (name : string) (s : star) (o : option star) : Prop :=
  exists f, step_SN (update (get_SN_MODEL name) [("allow_spin_None", VBool true)]) = Ok f
    /\ match f s with Ok t => (sound t /\ o = Some t) \/ (~ sound t /\ o = None) | Raise _ => o = None end.

Lemma row_of : forall {M} grid ix co (models : list (string * M)) single dirs cols k r, NoDup (map fst models) ->
  post_process_grid grid ix co models single = Ok (dirs, cols) -> in_row ix grid k r ->
  exists w, run_writes single co (map fst models) r = Ok w /\ NoDup (map fst w)
    /\ (forall i q, In q plain -> (single = true -> i = false) -> cell cols (of_star i q) k = Some (lookup w (of_star i q)))
    /\ (forall i n q, In n (map fst models) -> In q collapsed -> (single = true -> i = false) -> cell cols (of_model i n q) k = Some (lookup w (of_model i n (was q))))
    /\ (single = false -> cell cols "mt_history" k = Some (lookup w "mt_history")).
Proof.
  intros M grid ix co models single dirs cols k r N H [i [PZ [G P]]]. destruct (post_rows check_state patton cee step_SN grid ix co models single dirs cols N H) as [inds [rows [I [R [C _]]]]].
  assert (K : nth_error inds k = Some i).
  { destruct ix as [|j|l|]; cbn in I; [| |destruct l as [|a [|b [|c l]]]; try discriminate I|discriminate I];
      match type of I with Some ?l = _ => assert (EE : inds = l) by congruence end; subst inds; apply range_nth; [|lia|lia].
    assert (Z.to_nat i < length grid) by (apply nth_error_Some; congruence). lia. }
  destruct (traverse_nth _ _ _ _ _ R K) as [w [RW W]]. cbv beta in W. unfold get_run in W. destruct (Z.ltb_spec i 0); [lia|]. rewrite G in W. cbn [rbind] in W.
  exists w. split; [exact W|]. split; [exact (Permutation_NoDup (run_keys check_state patton cee step_SN _ _ _ _ _ W) (all_nodup _ _ N))|].
  assert (CE : forall c c0, dget String.eqb cols c = Some (map (fun w => lookup w c0) rows) -> cell cols c k = Some (lookup w c0)) by (intros c c0 E; unfold cell; rewrite E, nth_error_map, RW; reflexivity).
  split; [|split].
  - intros j q Q S1. apply CE. rewrite C, of_star_col. apply plain_kept; assumption.
  - intros j n q NI Q S1. apply CE. rewrite C, !of_model_col. apply model_kept; assumption.
  - intros S1. subst single. apply CE. rewrite C. apply history_kept; assumption.
Qed.
Lemma base_given : forall i co IC s b s' w, base_writes i co IC s = Ok (b, s') -> NoDup (map fst w) -> incl b w -> star_given co IC s s' (fun q => lookup w (of_star i q)).
Proof.
  intros i co IC s b s' w H N I. unfold PostModel.base_writes in H. unfold star_given.
  assert (LK : forall q v, In (col i q, v) b -> lookup w (of_star i q) = v) by (intros q v J; rewrite of_star_col; apply lookup_in; [exact N|apply I; exact J]).
  destruct (negb co && inpool IC ["no_MT"; "stable_MT"; "unstable_MT"; "stable_reverse_MT"]) eqn:X.
  - left. apply andb_true_iff in X as [X1 X2]. apply negb_true_iff in X1. apply inpool_in in X2. split; [exact X1|]. split; [exact X2|].
    apply rbind_ok in H as [st [ST H]]. apply rbind_ok in H as [s1 [S1 H]]. cbv zeta in H. apply rbind_ok in H as [so [SO H]]. apply rbind_ok in H as [c_o [CO H]].
    match type of H with Ok (?a, _) = _ => assert (B : b = a) by congruence end. assert (S2 : s' = cee s1) by congruence. exists s1. subst s'. split; [split; [|reflexivity]|].
    { destruct (is_nil (s "avg_c_in_c_core_at_He_depletion") || is_nil (s "co_core_mass_at_He_depletion")); [exact S1|congruence]. }
    assert (ENV : envelope = CE_names) by reflexivity.
    split; [rewrite (LK "state" st); [exact ST|rewrite B; left; reflexivity]|]. split.
    { intros q Q. cbn in Q. destruct Q as [<-|[<-|[]]]; apply LK; rewrite B; cbn; tauto. }
    split; [intros q Q; apply LK; rewrite B; apply in_or_app; right; apply in_or_app; left; apply in_map_iff; exists q; split; [reflexivity|rewrite <- ENV; exact Q]|]. split.
    + rewrite (LK "surface_other" so); [apply other_remainder; exact SO|]. rewrite B. apply in_or_app; right; apply in_or_app; right; left; reflexivity.
    + rewrite (LK "center_other" c_o); [apply other_remainder; exact CO|]. rewrite B. apply in_or_app; right; apply in_or_app; right; right; left; reflexivity.
  - right. split.
    { destruct co; [left; reflexivity|right]. intros Q. apply inpool_in in Q. rewrite Q in X. discriminate X. }
    apply rbind_ok in H as [st [ST H]]. match type of H with Ok (?a, _) = _ => assert (B : b = a) by congruence end. assert (S2 : s' = s) by congruence. split; [exact S2|].
    assert (STATE : lookup w (of_star i "state") = st) by (apply LK; rewrite B; left; reflexivity). split; [|split].
    + intros q Q NS. apply LK. rewrite B. cbn in Q. destruct Q as [<-|Q]; [contradiction|]. destruct Q as [<-|Q]; [cbn; tauto|]. destruct Q as [<-|Q]; [cbn; tauto|].
      destruct Q as [<-|Q]; [cbn; tauto|]. destruct Q as [<-|Q]; [cbn; tauto|]. apply in_or_app. right. apply in_map_iff. exists q. split; [reflexivity|]. exact Q.
    + intros Q. rewrite STATE. destruct Q as [<-|[<-|[]]]; cbn in ST; congruence.
    + intros Q. rewrite STATE. destruct (String.eqb_spec IC "initial_MT") as [->|]; [exfalso; apply Q; left; reflexivity|]. destruct (String.eqb_spec IC "not_converged") as [->|]; [exfalso; apply Q; right; left; reflexivity|].
      cbn [orb] in ST. destruct (check_state s true) as [v|e]; [left; congruence|]. right. destruct e; try discriminate ST. split; [reflexivity|congruence].
Qed.
Lemma none_given : forall single TF2 i names n w, In n names -> NoDup (map fst w) -> incl (none_writes i names) w -> remnant_given single TF2 None (fun q => lookup w (of_model i n (was q))).
Proof.
  intros single TF2 i names n w I N C. cbn [remnant_given]. intros q Q. rewrite of_model_col. apply lookup_in; [exact N|]. apply C. unfold none_writes. apply in_flat_map. exists n. split; [exact I|].
  apply in_map_iff. exists (was q). split; [reflexivity|]. unfold was. destruct (collapsed_cases q Q) as [-> | [H [_ NE]]]; [left; reflexivity|]. destruct (String.eqb_spec q "CO_type"); [contradiction|exact H].
Qed.
Lemma collapse_given : forall single i names TF2 s c n w, collapse_writes single i names TF2 s = Ok c -> In n names -> NoDup (map fst w) -> incl c w ->
  (explosive s /\ exists o, outcome n s o /\ remnant_given single TF2 o (fun q => lookup w (of_model i n (was q))))
  \/ (~ explosive s /\ remnant_given single TF2 None (fun q => lookup w (of_model i n (was q)))).
Proof.
  intros single i names TF2 s c n w H I N C. unfold PostModel.collapse_writes in H. destruct (exploding s) eqn:X.
  - left. split; [apply exploding_iff; exact X|]. apply rbind_ok in H as [l [L H]]. assert (c = concat l) by congruence. subst c. apply In_nth_error in I as [k K].
    destruct (traverse_nth _ _ _ _ _ L K) as [b [BL MW]]. assert (BI : incl b w) by (intros x X1; apply C; apply in_concat; exists b; split; [apply nth_error_In in BL; exact BL|exact X1]).
    unfold PostModel.model_writes in MW. apply rbind_ok in MW as [f [F MW]].
    assert (NG : b = none_writes i [n] -> remnant_given single TF2 None (fun q => lookup w (of_model i n (was q)))) by (intros E; subst b; apply (none_given single TF2 i [n]); [left; reflexivity|exact N|exact BI]).
    destruct (f s) as [t|e] eqn:FS.
    + destruct (forallb (well_typed t) CC_quantities) eqn:WT.
      * match type of MW with Ok ?a = _ => assert (B : b = a) by congruence end.
        assert (S1 : sound t) by (apply well_typed_iff; exact WT). exists (Some t). split; [exists f; split; [exact F|]; rewrite FS; left; auto|]. cbn [remnant_given].
        assert (LK : forall q, In q CC_quantities -> lookup w (of_model i n q) = if String.eqb q "CO_interpolation_class" then co_class single TF2 t else t q).
        { intros q Q. rewrite of_model_col. apply lookup_in; [exact N|]. apply BI. rewrite B. apply in_map_iff. exists q. split; [reflexivity|exact Q]. }
        split; [change (was "CO_type") with "state"; apply (LK "state"); left; reflexivity|]. split.
        -- intros q Q NC NK. destruct (collapsed_cases q Q) as [E|[QC _]]; [contradiction|]. unfold was. destruct (String.eqb_spec q "CO_type"); [contradiction|]. rewrite LK by exact QC.
           destruct (String.eqb_spec q "CO_interpolation_class"); [contradiction|reflexivity].
        -- change (was "CO_interpolation_class") with "CO_interpolation_class". rewrite LK by (cbn; tauto). rewrite String.eqb_refl. unfold co_class. destruct S1 as [S1 _]. destruct (S1 "state" (or_introl eq_refl)) as [st ST].
           rewrite ST. destruct single, (String.eqb_spec st "BH") as [->|]; reflexivity.
      * exists None. split; [exists f; split; [exact F|]; rewrite FS; right; split; [intros S1; apply well_typed_iff in S1; congruence|reflexivity]|]. apply NG. congruence.
    + exists None. split; [exists f; split; [exact F|]; rewrite FS; reflexivity|]. apply NG. congruence.
  - right. split; [intros E; apply exploding_iff in E; congruence|]. assert (c = none_writes i names) by congruence. subst c. apply (none_given single TF2 i names); assumption.
Qed.

(** Row [k] of the result for a grid of binaries. *)
Theorem C152_binary : forall {M} grid ix co (models : list (string * M)) dirs cols k r, NoDup (map fst models) ->
  post_process_grid grid ix co models false = Ok (dirs, cols) -> in_row ix grid k r ->
  exists s1 s2 row1 row2, (forall q, In q plain -> cell cols (of_star false q) k = Some (row1 q) /\ cell cols (of_star true q) k = Some (row2 q))
    /\ star_given false (r_IC r) (r_star1 r) s1 row1 /\ star_given co (r_IC r) (r_star2 r) s2 row2
    /\ (exists t, cell cols "mt_history" k = Some (Txt t) /\ In (combine_one (r_IC r) (r_TF2 r), t) legend)
    /\ forall n second, In n (map fst models) -> exists o row,
         (forall q, In q collapsed -> cell cols (of_model second n q) k = Some (row q)) /\ remnant_given false (r_TF2 r) o row
         /\ (let s := if second then s2 else s1 in
             (collapses co r s1 s2 second /\ explosive s -> outcome n s o) /\ (~ (collapses co r s1 s2 second /\ explosive s) -> o = None)).
Proof.
  intros M grid ix co models dirs cols k r N H K. destruct (row_of grid ix co models false dirs cols k r N H K) as [w [W [NW [PL [MO HI]]]]]. unfold PostModel.run_writes in W.
  apply rbind_ok in W as [[b1 s1] [B1 W]]. apply rbind_ok in W as [[b2 s2] [B2 W]]. apply rbind_ok in W as [c [C W]]. apply rbind_ok in W as [h [HH W]]. cbn [fst snd] in *.
  assert (WE : w = b1 ++ b2 ++ c ++ h) by congruence.
  assert (I1 : incl b1 w) by (rewrite WE; apply incl_appl, incl_refl). assert (I2 : incl b2 w) by (rewrite WE; apply incl_appr, incl_appl, incl_refl).
  assert (I3 : incl c w) by (rewrite WE; apply incl_appr, incl_appr, incl_appl, incl_refl). assert (I4 : incl h w) by (rewrite WE; apply incl_appr, incl_appr, incl_appr, incl_refl).
  exists s1, s2, (fun q => lookup w (of_star false q)), (fun q => lookup w (of_star true q)).
  split; [intros q Q; split; apply PL; try exact Q; discriminate|]. split; [exact (base_given _ _ _ _ _ _ _ B1 NW I1)|]. split; [exact (base_given _ _ _ _ _ _ _ B2 NW I2)|]. split.
  { unfold history_write in HH. destruct (dget String.eqb legend (combine_one (r_IC r) (r_TF2 r))) as [t|] eqn:LG; [|discriminate HH]. exists t. split; [|exact (get_in _ _ _ LG)].
    rewrite (HI eq_refl). f_equal. apply lookup_in; [exact NW|]. apply I4. match type of HH with Ok ?a = _ => assert (E : h = a) by congruence end. rewrite E. left. reflexivity. }
  intros n second NI. unfold PostModel.binary_writes in C. apply rbind_ok in C as [who [WH C]]. pose proof (collapsing_iff _ _ _ _ _ WH) as CI.
  assert (MO' : forall q, In q collapsed -> cell cols (of_model second n q) k = Some (lookup w (of_model second n (was q)))) by (intros q Q; apply MO; [exact NI|exact Q|discriminate]).
  destruct who as [i|].
  - apply rbind_ok in C as [x [X C]]. assert (CE : c = none_writes (negb i) (map fst models) ++ x) by congruence.
    assert (IX : incl x w) by (intros y Y; apply I3; rewrite CE; apply in_or_app; right; exact Y).
    assert (IN : incl (none_writes (negb i) (map fst models)) w) by (intros y Y; apply I3; rewrite CE; apply in_or_app; left; exact Y).
    destruct (bool_dec second i) as [E|NE].
    + subst i. destruct (collapse_given _ _ _ _ _ _ n w X NI NW IX) as [[EX [o [OC G]]]|[NX G]].
      * exists o, (fun q => lookup w (of_model second n (was q))). split; [exact MO'|]. split; [exact G|]. cbn zeta. split; [intros _; exact OC|]. intros Q. exfalso. apply Q. split; [apply CI; reflexivity|exact EX].
      * exists None, (fun q => lookup w (of_model second n (was q))). split; [exact MO'|]. split; [exact G|]. cbn zeta. split; [intros [_ Q]; contradiction|reflexivity].
    + assert (E : second = negb i) by (destruct second, i; cbn; congruence). exists None, (fun q => lookup w (of_model second n (was q))). split; [exact MO'|]. split.
      * rewrite E. exact (none_given false (r_TF2 r) (negb i) _ n w NI NW IN).
      * cbn zeta. split; [|reflexivity]. intros [Q _]. apply CI in Q. exfalso. apply NE. congruence.
  - assert (CE : c = none_writes false (map fst models) ++ none_writes true (map fst models)) by congruence. exists None, (fun q => lookup w (of_model second n (was q))). split; [exact MO'|]. split.
    + apply (none_given false (r_TF2 r) second _ n w NI NW). intros y Y. apply I3. rewrite CE. apply in_or_app. destruct second; [right|left]; exact Y.
    + cbn zeta. split; [|reflexivity]. intros [Q _]. apply CI in Q. discriminate Q.
Qed.
(** Row [k] of the result for a grid of single stars. *)
Theorem C152_single : forall {M} grid ix co (models : list (string * M)) dirs cols k r, NoDup (map fst models) ->
  post_process_grid grid ix co models true = Ok (dirs, cols) -> in_row ix grid k r ->
  exists s1 row1, (forall q, In q plain -> cell cols (of_star false q) k = Some (row1 q)) /\ star_given false "no_MT" (r_star1 r) s1 row1
    /\ forall n, In n (map fst models) -> exists o row, (forall q, In q collapsed -> cell cols (of_model false n q) k = Some (row q)) /\ remnant_given true "no_RLOF" o row
         /\ (explosive s1 -> outcome n s1 o) /\ (~ explosive s1 -> o = None).
Proof.
  intros M grid ix co models dirs cols k r N H K. destruct (row_of grid ix co models true dirs cols k r N H K) as [w [W [NW [PL [MO _]]]]]. unfold PostModel.run_writes in W.
  apply rbind_ok in W as [[b1 s1] [B1 W]]. apply rbind_ok in W as [c [C W]]. cbn [fst snd] in *. assert (WE : w = b1 ++ c) by congruence.
  assert (I1 : incl b1 w) by (rewrite WE; apply incl_appl, incl_refl). assert (I3 : incl c w) by (rewrite WE; apply incl_appr, incl_refl).
  exists s1, (fun q => lookup w (of_star false q)). split; [intros q Q; apply PL; [exact Q|reflexivity]|]. split; [exact (base_given _ _ _ _ _ _ _ B1 NW I1)|].
  intros n NI. assert (MO' : forall q, In q collapsed -> cell cols (of_model false n q) k = Some (lookup w (of_model false n (was q)))) by (intros q Q; apply MO; [exact NI|exact Q|reflexivity]).
  destruct (collapse_given _ _ _ _ _ _ n w C NI NW I3) as [[EX [o [OC G]]]|[NX G]].
  - exists o, (fun q => lookup w (of_model false n (was q))). split; [exact MO'|]. split; [exact G|]. split; [intros _; exact OC|]. intros Q. contradiction.
  - exists None, (fun q => lookup w (of_model false n (was q))). split; [exact MO'|]. split; [exact G|]. split; [intros Q; contradiction|reflexivity].
Qed.
End Rows.
(** At most one star of a run collapses. *)
Theorem C152_one : forall co r s1 s2, collapses co r s1 s2 false -> collapses co r s1 s2 true -> False.
Proof.
  intros co r s1 s2 [_ A] [_ [B C]]. destruct A as [A|[A|[A1 A2]]]; [congruence| |].
  - destruct C as [C|[C _]]; [exact (not_both _ A C)|]. rewrite C in A. cbn in A. intuition discriminate.
  - destruct C as [C|[_ [C _]]]; [|contradiction]. rewrite A1 in C. cbn in C. intuition discriminate.
Qed.
