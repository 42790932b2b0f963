(** Theorems about the explosion engines. *)
From Coq Require Import String Bool List QArith Qabs Lia Lqa.
From Verif Require Import PyBase SNModel SNTypeProps SNNameModel EngineModel.
Import ListNotations.
Open Scope string_scope.
Open Scope Q_scope.
Open Scope list_scope.

(** ** Specification *)
(** The two constants of each engine. *)
Definition constants (engine : string) (k1 k2 : Q) : Prop :=
  (engine = "N20" /\ k1 = 0.194 /\ k2 = 0.0580) \/ (engine = "S19.8" /\ k1 = 0.274 /\ k2 = 0.0470) \/ (engine = "W15" /\ k1 = 0.225 /\ k2 = 0.0495) \/
  (engine = "W20" /\ k1 = 0.284 /\ k2 = 0.0393) \/ (engine = "W18" /\ k1 = 0.283 /\ k2 = 0.0430) \/ (engine = "Ertl2020" /\ k1 = 0.182 /\ k2 = 0.0608).
(** A neutron star of mass m without fallback; a black hole of the whole star or of its helium core. *)
Definition neutron_star (m : Q) (o : outcome) : Prop := o_state o = "NS" /\ o_fb o == 0 /\ o_mass o == m.
Definition black_hole (s : star) (conserve : bool) (f : Q) (o : outcome) : Prop :=
  o_state o = "BH" /\ o_fb o == f /\ o_mass o = (if conserve then e_mass s else e_he s).
(** Criterion of Maltsev et al.: votes of compactness and central entropy, undecided cases by mu4 M4 and the line of Mueller et al. *)
Definition explodes (Xi sc mu4 M4 : Q) : Prop :=
  let yes := Xi < 0.314 \/ sc < 0.988 in
  let no := 0.544 < Xi \/ 1.169 < sc in
  (yes /\ ~ no) \/ ((yes <-> no) /\ mu4 * M4 <= 0.421 /\ (mu4 * M4 < 0.247 \/ 0.005 + 0.420 * (mu4 * M4) <= mu4)).
(** Where a successful explosion always leaves a neutron star. *)
Definition sure_NS (Xi co mu4 M4 : Q) : Prop := Xi <= 0.04 \/ (Xi < 1.75 * (mu4 * M4) - 0.044 /\ Xi <= 0.4) \/ 0.6 < M4 / co.

(** ** Helper lemmas *)
Lemma rb {A B} (x : result A) (f : A -> result B) b : rbind x f = Ok b -> exists a, x = Ok a /\ f a = Ok b.
Proof. destruct x; cbn; intro H; [eauto|discriminate]. Qed.
Lemma constants_get e k1 k2 : dget String.eqb Ertl16_k_parameters e = Some (k1, k2) -> constants e k1 k2.
Proof.
  intro H. unfold Ertl16_k_parameters in H. cbn [dget] in H. unfold constants.
  repeat match type of H with (if String.eqb e ?x then _ else _) = _ => destruct (String.eqb_spec e x) as [E|_]; [injection H as <- <-; subst e; repeat first [split; [reflexivity|split; reflexivity] | left; split; [reflexivity|split; reflexivity] | right]|] end.
  discriminate.
Qed.
Lemma nlt_iff a b : ~ (a < b) <-> b <= a.
Proof. split; intro; lra. Qed.
Lemma sign_iff a b : ~ (0 < a - b) <-> a <= b.
Proof. split; intro; lra. Qed.
Lemma explod_spec Xi sc mu4 M4 : reflect (explodes Xi sc mu4 M4) (explod_crit Xi sc (mu4 * M4) mu4 (5 # 1000) (420 # 1000)).
Proof.
  unfold explod_crit, explodes. generalize (mu4 * M4). intro p. cbv zeta.
  apply iff_reflect. rewrite <- (nlt_iff 0.421 p), <- (sign_iff (0.005 + 0.420 * p) mu4).
  destruct (qlt_spec (544 # 1000) Xi); destruct (qlt_spec (1169 # 1000) sc); destruct (qlt_spec Xi (314 # 1000)); destruct (qlt_spec sc (988 # 1000));
    cbn [andb orb negb];
    try (destruct (qlt_spec (421 # 1000) p)); try (destruct (qlt_spec p (247 # 1000)));
    try (destruct (qlt_spec 0 ((5 # 1000) + (420 # 1000) * p - mu4)));
    (split; [intro; try reflexivity; exfalso; tauto|intro; try discriminate; tauto]).
Qed.
Lemma sure_spec draw Xi co mu4 M4 : NS_vs_fallbackBH draw Xi co M4 (mu4 * M4) = "NS" <-> (sure_NS Xi co mu4 M4 \/ 0.15 < draw).
Proof.
  unfold NS_vs_fallbackBH, sure_NS. generalize (mu4 * M4). intro p.
  assert (S : Xi < 1.75 * p - 0.044 <-> Xi < (175 # 100) * p + - (44 # 1000)) by (split; intro; lra). rewrite S.
  destruct (qle_spec Xi (4 # 100)); destruct (qlt_spec Xi ((175 # 100) * p + - (44 # 1000))); destruct (qle_spec Xi (4 # 10));
    destruct (qlt_spec (6 # 10) (M4 / co)); cbn [andb orb]; try (split; [tauto|reflexivity]).
  all: destruct (qle_spec draw (15 # 100)); split; try discriminate; try reflexivity; try (intros _; right; lra).
  all: intros [D|D]; [tauto|lra].
Qed.

(** ** C87: helium depletion *)
(** The values at helium depletion are those of the first step in state H-rich_Core_He_depleted, without one those of the first step in state
    stripped_He_Core_He_depleted. *)
Theorem C87_he_depletion : forall s h before m c after, e_hist s = Some h ->
  ((h = before ++ ("H-rich_Core_He_depleted", m, c) :: after /\ (forall r, In r before -> fst (fst r) <> "H-rich_Core_He_depleted")) \/
   (h = before ++ ("stripped_He_Core_He_depleted", m, c) :: after /\ (forall r, In r before -> fst (fst r) <> "stripped_He_Core_He_depleted")
    /\ (forall r, In r h -> fst (fst r) <> "H-rich_Core_He_depleted"))) ->
  values_at_He_depl s = (m, c).
Proof.
  assert (F : forall st before m c after, (forall r, In r before -> fst (fst r) <> st) -> first_in st (before ++ (st, m, c) :: after) = Some (st, m, c)).
  { intros st before m c after. unfold first_in. induction before as [|r l IH]; cbn; intro H; [rewrite String.eqb_refl; reflexivity|].
    destruct (String.eqb_spec (fst (fst r)) st) as [E|N]; [destruct (H r (or_introl eq_refl) E)|]. apply IH. intros x I. apply H. right. exact I. }
  assert (N : forall st h, (forall r, In r h -> fst (fst r) <> st) -> first_in st h = None).
  { intros st h H. unfold first_in. induction h as [|r l IH]; cbn; [reflexivity|].
    destruct (String.eqb_spec (fst (fst r)) st) as [E|N]; [destruct (H r (or_introl eq_refl) E)|]. apply IH. intros x I. apply H. right. exact I. }
  intros s h before m c after Hh [[E B]|(E & B & A)]; unfold values_at_He_depl; rewrite Hh.
  - rewrite E, (F _ _ _ _ _ B). reflexivity.
  - rewrite (N _ _ A), E, (F _ _ _ _ _ B). reflexivity.
Qed.
(** Which core mass and abundance decide. *)
Theorem C87_core : forall log s,
  (forall m c, e_co_depl s = Some m -> e_c_depl s = Some c -> get_CO_core_params log false s = Ok (m, c)) /\
  (e_co_depl s = None \/ e_c_depl s = None -> forall m c, values_at_He_depl s = (Some m, Some c) -> get_CO_core_params log false s = Ok (m, c)) /\
  (e_co_depl s = None \/ e_c_depl s = None -> (fst (values_at_He_depl s) = None \/ snd (values_at_He_depl s) = None) ->
     get_CO_core_params log false s = Raise (OtherError "ModelError")) /\
  (contains "H-rich" (e_state s) = true -> ~ e_co s == 0 -> exists c, get_CO_core_params log true s = Ok (e_co s, c) /\ c * e_co s == 0.2 + 0.15 * e_co s).
Proof.
  intros log s. unfold get_CO_core_params. split; [|split; [|split]].
  - intros m c -> ->. reflexivity.
  - intros D m c E. destruct (e_co_depl s), (e_c_depl s); destruct D; try discriminate; rewrite E; reflexivity.
  - intros D E. destruct (values_at_He_depl s) as [[m|] [c|]]; cbn in E; destruct (e_co_depl s), (e_c_depl s); destruct D; try discriminate; try reflexivity; destruct E; discriminate.
  - intros H Z. unfold in_states. rewrite H. cbn [rbind]. unfold C_abundance_for_H_stars. destruct (Qeq_bool (e_co s) 0) eqn:Q0.
    + apply Qeq_bool_iff in Q0. contradiction.
    + cbn [rbind]. eexists. split; [reflexivity|]. field. exact Z.
Qed.

(** The approximation for other stars: the state or the last recorded state must name a stripped helium star; otherwise (as with accreted helium) a
    ValueError. *)
Theorem C87_core_stripped : forall log s st m c, e_last s = Some (st, m, c) ->
  contains "H-rich" (e_state s) = false -> contains "H-rich" st = false ->
  ((contains "stripped_He" (e_state s) = true \/ contains "stripped_He" st = true) ->
     exists a, get_CO_core_params log true s = Ok (e_co s, a) /\ a == 0.4 - 0.084 * log (e_co s)) /\
  (contains "stripped_He" (e_state s) = false -> contains "stripped_He" st = false -> get_CO_core_params log true s = Raise ValueError).
Proof.
  intros log s st m c L H H'. unfold get_CO_core_params, in_states. rewrite L, H, H'. cbn [rbind]. split.
  - intro S. exists (C_abundance_for_He_stars log (e_co s)). split; [|unfold C_abundance_for_He_stars; ring].
    destruct (contains "stripped_He" (e_state s)); cbn [rbind]; [reflexivity|]. destruct S as [S|S]; [discriminate|]. rewrite S. reflexivity.
  - intros -> ->. reflexivity.
Qed.
Example C87_core_names : contains "stripped_He" "stripped_He_Core_C_depleted" = true /\ contains "H-rich" "stripped_He_Core_C_depleted" = false /\
  contains "stripped_He" "accreted_He_non_burning" = false /\ contains "stripped_He" "stripped_WD" = false.
Proof. repeat split. Qed.

(** ** C87: Patton & Sukhbold *)
Theorem C87_patton : forall log pM pmu approx s engine conserve o stored,
  Patton20_corecollapse log pM pmu approx s engine conserve = Ok (o, stored) ->
  exists k1 k2 co c, constants engine k1 k2 /\ get_CO_core_params log approx s = Ok (co, c) /\
  let M4 := pM c co in let mu4 := pmu c co in
  stored = [("M4", M4); ("mu4", mu4)] /\
  (co <= 2.5 -> neutron_star 1.25 o) /\
  (2.5 < co -> co < 10 -> mu4 <= k1 * (mu4 * M4) + k2 -> neutron_star M4 o) /\
  (10 <= co \/ (2.5 < co /\ k1 * (mu4 * M4) + k2 < mu4) -> black_hole s conserve 1 o).
Proof.
  intros log pM pmu approx s engine conserve o stored H. unfold Patton20_corecollapse in H.
  destruct (dget String.eqb Ertl16_k_parameters engine) as [[k1 k2]|] eqn:K; [|discriminate]. apply constants_get in K.
  apply rb in H. destruct H as ([co c] & G & H). exists k1, k2, co, c. split; [exact K|]. split; [exact G|]. cbv zeta in *.
  remember (pM c co) as M4 eqn:E4. remember (pmu c co) as mu4 eqn:Emu. clear E4 Emu.
  injection H as <- <-. split; [reflexivity|].
  destruct (qle_spec co (25 # 10)); [|destruct (qle_spec 10 co); [|destruct (qlt_spec (k1 * (mu4 * M4) + k2) mu4)]];
    (split; [intro; try (exfalso; lra)|split; [intros; try (exfalso; lra)|intro D; try (exfalso; destruct D as [D|[D D']]; lra)]]);
    split; try reflexivity; split; reflexivity.
Qed.
(** Other engines are refused. *)
Theorem C87_patton_engine : forall log pM pmu approx s engine conserve, (forall k1 k2, ~ constants engine k1 k2) ->
  Patton20_corecollapse log pM pmu approx s engine conserve = Raise ValueError.
Proof.
  intros log pM pmu approx s engine conserve H. unfold Patton20_corecollapse.
  destruct (dget String.eqb Ertl16_k_parameters engine) as [[k1 k2]|] eqn:K; [|reflexivity]. destruct (H k1 k2 (constants_get _ _ _ K)).
Qed.

(** ** C87: Maltsev et al. *)
Theorem C87_maltsev : forall log pM pmu pX ps draw approx s engine conserve o stored,
  Maltsev25_corecollapse log pM pmu pX ps draw approx s engine conserve = Ok (o, stored) ->
  engine = "M16" /\ exists co c, get_CO_core_params log approx s = Ok (co, c) /\
  let M4 := pM c co in let mu4 := pmu c co in let Xi := pX c co in let sc := ps c co in
  stored = [("M4", M4); ("mu4", mu4); ("Xi", Xi); ("sc", sc)] /\
  (co <= 2.5 -> neutron_star 1.25 o) /\
  (2.5 < co -> co < 10 -> explodes Xi sc mu4 M4 -> (sure_NS Xi co mu4 M4 \/ 0.15 < draw) -> neutron_star M4 o) /\
  (2.5 < co -> co < 10 -> explodes Xi sc mu4 M4 -> ~ sure_NS Xi co mu4 M4 -> draw <= 0.15 -> black_hole s conserve 0.99 o) /\
  (10 <= co \/ (2.5 < co /\ ~ explodes Xi sc mu4 M4) -> black_hole s conserve 1 o).
Proof.
  intros log pM pmu pX ps draw approx s engine conserve o stored H. unfold Maltsev25_corecollapse in H. cbn [dget] in H.
  destruct (String.eqb_spec engine "M16") as [E|N]; [|discriminate]. split; [exact E|].
  apply rb in H. destruct H as ([co c] & G & H). exists co, c. split; [exact G|]. cbv zeta in *.
  remember (pM c co) as M4 eqn:E4. remember (pmu c co) as mu4 eqn:Emu. remember (pX c co) as Xi eqn:EX. remember (ps c co) as sc eqn:Es. clear E4 Emu EX Es.
  assert (H2 : stored = [("M4", M4); ("mu4", mu4); ("Xi", Xi); ("sc", sc)]) by congruence. split; [exact H2|].
  assert (H1 : o = if qle co (25 # 10) then Out (125 # 100) 0 "NS" else if qle 10 co then collapsed conserve s 1
          else if explod_crit Xi sc (mu4 * M4) mu4 (5 # 1000) (420 # 1000) then
            if String.eqb (NS_vs_fallbackBH draw Xi co M4 (mu4 * M4)) "NS" then Out M4 0 "NS" else collapsed conserve s (99 # 100)
          else collapsed conserve s 1) by congruence.
  clear H H2 G. subst o.
  destruct (qle_spec co (25 # 10)) as [L|L]; [|destruct (qle_spec 10 co) as [T|T]; [|destruct (explod_spec Xi sc mu4 M4) as [X|X];
     [destruct (String.eqb_spec (NS_vs_fallbackBH draw Xi co M4 (mu4 * M4)) "NS") as [Y|Y]; rewrite sure_spec in Y|]]].
  all: split; [intro; try (exfalso; lra)|split; [intros; try (exfalso; lra)|split; [intros; try (exfalso; lra)|intro D]]];
    try (exfalso; tauto); try (split; [reflexivity|split; reflexivity]).
  all: try (exfalso; destruct D as [D|[D D']]; [lra|first [lra|tauto]]).
  exfalso. destruct Y as [Y|Y]; [tauto|lra].
Qed.
Theorem C87_maltsev_engine : forall log pM pmu pX ps draw approx s engine conserve, engine <> "M16" ->
  Maltsev25_corecollapse log pM pmu pX ps draw approx s engine conserve = Raise ValueError.
Proof.
  intros log pM pmu pX ps draw approx s engine conserve H. unfold Maltsev25_corecollapse. cbn [dget].
  destruct (String.eqb_spec engine "M16"); [contradiction|reflexivity].
Qed.

(** ** C87: tables *)
Lemma nearest_spec x l r : nearest x l = Some r -> In r l /\ forall r', In r' l -> dist x r <= dist x r'.
Proof.
  revert r. induction l as [|a l IH]; cbn; intros r H; [discriminate|].
  destruct (nearest x l) as [b|] eqn:E.
  - destruct (IH b eq_refl) as [I M]. destruct (qle_spec (dist x a) (dist x b)) as [L|L]; injection H as <-; (split; [auto|]).
    + intros r' [<-|J]; [lra|]. specialize (M r' J). lra.
    + intros r' [<-|J]; [lra|]. apply M, J.
  - injection H as <-. split; [auto|]. destruct l as [|b l]; [|exfalso; cbn in E; destruct (nearest x l) as [c|]; [destruct (qle _ _)|]; discriminate].
    intros r' [<-|[]]. lra.
Qed.
Lemma nearest_some x l : l <> [] -> exists r, nearest x l = Some r.
Proof. destruct l as [|a l]; [congruence|]. intros _. cbn. destruct (nearest x l) as [b|]; [destruct (qle _ _)|]; eauto. Qed.
Lemma dist_abs x r : dist x r == Qabs (r_he r - x).
Proof.
  unfold dist. destruct (qlt_spec (r_he r - x) 0).
  - rewrite Qabs_neg; lra.
  - rewrite Qabs_pos; lra.
Qed.
Definition below (l : list (Q * Q)) (p : Q * Q) : Prop := forall r, In r l -> fst p <= fst r.
Inductive ordered : list (Q * Q) -> Prop :=
| ordered_nil : ordered []
| ordered_cons p l : below l p -> ordered l -> ordered (p :: l).
Lemma insert_in p l x : In x (insert p l) <-> x = p \/ In x l.
Proof.
  induction l as [|q l IH]; cbn; [split; intros [H|H]; auto|]. destruct (qle (fst p) (fst q)); cbn [In]; [split; intros [H|H]; auto|].
  rewrite IH. split; intros [H|[H|H]]; auto.
Qed.
Lemma insert_ordered p l : ordered l -> ordered (insert p l).
Proof.
  induction 1 as [|q l B O IH]; cbn; [constructor; [intros r []|constructor]|]. destruct (qle_spec (fst p) (fst q)) as [L|L].
  - constructor; [|constructor; assumption]. intros r [<-|J]; [exact L|]. specialize (B r J). lra.
  - constructor; [|exact IH]. intros r J. apply insert_in in J. destruct J as [-> |J]; [lra|apply B, J].
Qed.
Lemma sorted_ordered l : ordered (sorted l).
Proof. induction l as [|p l IH]; cbn; [constructor|]. apply insert_ordered, IH. Qed.
Lemma sorted_in l x : In x (sorted l) <-> In x l.
Proof. induction l as [|p l IH]; cbn; [tauto|]. rewrite insert_in, IH. split; intros [H|H]; auto. Qed.

Definition line (p q : Q * Q) (x : Q) : Q := snd p + (snd q - snd p) / (fst q - fst p) * (x - fst p).
Lemma interp_spec l x : ordered l -> l <> [] -> lowest l <= x ->
  exists p, In p l /\ fst p <= x /\ (forall r, In r l -> fst r <= x -> fst r <= fst p) /\
  (((forall r, In r l -> fst r <= x) /\ interp l x = snd p) \/
   exists q, In q l /\ x < fst q /\ (forall r, In r l -> x < fst r -> fst q <= fst r) /\ interp l x = line p q x).
Proof.
  intro O. induction O as [|p l B O IH]; intros N L; [congruence|]. unfold lowest in L. cbn [hd] in L. destruct l as [|q l].
  - exists p. split; [left; reflexivity|]. split; [exact L|]. split; [intros r [<-|[]] _; lra|]. left. split; [intros r [<-|[]]; exact L|reflexivity].
  - cbn [interp]. destruct (qle_spec (fst q) x) as [C|C].
    + destruct (IH ltac:(discriminate) C) as (u & I & U & M & D). exists u. split; [right; exact I|]. split; [exact U|].
      split; [intros r [<-|J] H; [apply (Qle_trans _ (fst u)); [apply B, I|lra]|apply M; assumption]|].
      destruct D as [[A E]|(v & J & V & W & E)].
      * left. split; [intros r [<-|K]; [lra|apply A, K]|exact E].
      * right. exists v. split; [right; exact J|]. split; [exact V|]. split; [intros r [<-|K] H; [lra|apply W; assumption]|exact E].
    + exists p. split; [left; reflexivity|]. split; [exact L|]. inversion O as [|q' l' B' O']; subst.
      split; [intros r [<-|[<-|J]] H; [lra|lra|specialize (B' r J); lra]|]. right. exists q. split; [right; left; reflexivity|]. split; [lra|].
      split; [intros r [<-|[<-|J]] H; [lra|lra|apply B', J]|reflexivity].
Qed.
Lemma line_between p q x lo hi : fst p <= x -> x < fst q -> lo <= snd p <= hi -> lo <= snd q <= hi -> lo <= line p q x <= hi.
Proof.
  intros P Q0 [A B] [C D]. unfold line. set (t := (x - fst p) / (fst q - fst p)).
  assert (T0 : 0 <= t) by (unfold t; apply Qle_shift_div_l; lra). assert (T1 : t <= 1) by (unfold t; apply Qle_shift_div_r; lra).
  assert (E : snd p + (snd q - snd p) / (fst q - fst p) * (x - fst p) == (1 - t) * snd p + t * snd q) by (unfold t; field; lra).
  rewrite E. split; nra.
Qed.
Lemma highest_ok l : ordered l -> forall r, In r l -> fst r <= highest l.
Proof.
  induction 1 as [|p l B O IH]; intros r I; [destruct I|]. unfold highest in *. destruct l as [|q l]; [destruct I as [<-|[]]; cbn; lra|].
  change (last (p :: q :: l) (0, 0)) with (last (q :: l) (0, 0)). destruct I as [<-|I]; [|apply IH, I].
  apply (Qle_trans _ (fst q)); [apply B; left; reflexivity|apply IH; left; reflexivity].
Qed.
Lemma highest_in l : l <> [] -> In (last l (0, 0)) l.
Proof. induction l as [|p l IH]; [congruence|]. intros _. destruct l as [|q l]; [left; reflexivity|]. right. apply IH. discriminate. Qed.
Lemma lowest_ok l : ordered l -> forall r, In r l -> lowest l <= fst r.
Proof. destruct 1 as [|p l B O]; intros r I; [destruct I|]. unfold lowest. cbn. destruct I as [<-|I]; [lra|apply B, I]. Qed.
Lemma lowest_in l : l <> [] -> In (hd (0, 0) l) l.
Proof. destruct l; [congruence|left; reflexivity]. Qed.
Lemma interp_between l x lo hi : ordered l -> l <> [] -> lowest l <= x -> (forall r, In r l -> lo <= snd r <= hi) -> lo <= interp l x <= hi.
Proof.
  intros O N L H. destruct (interp_spec l x O N L) as (p & I & P & M & [[A E]|(q & J & Q0 & W & E)]); rewrite E; [apply H, I|].
  apply line_between; auto.
Qed.

(** A row of the table that counts: a neutron star, or a black hole without fallback. *)
Definition counts (t : list row) (r : row) : Prop := In r t /\ (r_kind r = 13%nat \/ (r_kind r = 14%nat /\ r_fallback r == 0)).
Lemma counts_in t r : In r (filter selected t) <-> counts t r.
Proof.
  rewrite filter_In. unfold counts, selected. rewrite orb_true_iff, andb_true_iff, !PeanoNat.Nat.eqb_eq, Qeq_bool_iff. tauto.
Qed.
Lemma points_in k t p : In p (points k t) <-> exists r, counts t r /\ r_kind r = k /\ p = (r_he r, r_rem r).
Proof.
  unfold points. rewrite sorted_in, in_map_iff. split.
  - intros (r & E & I). rewrite filter_In, counts_in, PeanoNat.Nat.eqb_eq in I. exists r. destruct I. auto.
  - intros (r & C & K & E). exists r. rewrite filter_In, counts_in, PeanoNat.Nat.eqb_eq. auto.
Qed.

(** The masses that decide: the star's own if it is in a state of core collapse, else the last ones of its history. *)
Definition CC : list string := ["H-rich_Core_C_depleted"; "H-rich_Core_He_depleted"; "stripped_He_Core_He_depleted"; "stripped_He_Core_C_depleted";
  "stripped_He_non_burning"; "H-rich_non_burning"; "H-rich_Shell_H_burning"; "accreted_He_Shell_H_burning"; "accreted_He_non_burning"].
Lemma in_CC_iff st : in_CC st = true <-> In st CC.
Proof.
  unfold in_CC. rewrite existsb_exists. change CC_STATES with CC. split.
  - intros (x & I & E). apply String.eqb_eq in E. subst. exact I.
  - intro I. exists st. split; [exact I|apply String.eqb_refl].
Qed.
Theorem C87_masses : forall s,
  (In (e_state s) CC -> masses s = Ok (e_mass s, e_he s)) /\
  (forall st m h, ~ In (e_state s) CC -> e_last s = Some (st, m, h) -> In st CC -> masses s = Ok (m, h)) /\
  (forall st m h, ~ In (e_state s) CC -> e_last s = Some (st, m, h) -> ~ In st CC -> masses s = Raise ValueError).
Proof.
  intro s. unfold masses. split; [|split].
  - intro I. apply in_CC_iff in I. rewrite I. reflexivity.
  - intros st m h N -> I. apply in_CC_iff in I. rewrite I. destruct (in_CC (e_state s)) eqn:E; [apply in_CC_iff in E; contradiction|reflexivity].
  - intros st m h N -> I. destruct (in_CC (e_state s)) eqn:E; [apply in_CC_iff in E; contradiction|].
    destruct (in_CC st) eqn:F; [apply in_CC_iff in F; contradiction|reflexivity].
Qed.

(** ** C87: Sukhbold et al. *)
(** Neutron star or black hole as for a row with the nearest helium core. *)
Theorem C87_sukhbold : forall t engine s conserve o, Sukhbold16 t engine s conserve = Ok o ->
  In engine ["N20"; "S19.8"; "W15"; "W20"; "W18"] /\
  exists m_star m_he r, masses s = Ok (m_star, m_he) /\ counts t r /\ (forall r', counts t r' -> Qabs (r_he r - m_he) <= Qabs (r_he r' - m_he)) /\
  ((r_kind r = 13%nat /\ o_state o = "NS" /\ o_fb o == 0) \/ (r_kind r = 14%nat /\ o_state o = "BH" /\ o_fb o == 1)).
Proof.
  intros t engine s conserve o H. unfold Sukhbold16 in H. destruct (existsb _ _) eqn:E; [|discriminate].
  apply existsb_exists in E. destruct E as (x & I & E). apply String.eqb_eq in E. subst x. split; [exact I|].
  apply rb in H. destruct H as ([ms mh] & M & H). destruct (nearest mh (filter selected t)) as [r|] eqn:Nr; [|discriminate].
  apply nearest_spec in Nr. destruct Nr as [J D]. apply counts_in in J. exists ms, mh, r. split; [exact M|]. split; [exact J|].
  split; [intros r' C; rewrite <- !dist_abs; apply D, counts_in, C|].
  destruct (Nat.eqb_spec (r_kind r) 13) as [K|K]; [left; injection H as <-; split; [exact K|split; reflexivity]|].
  destruct (Nat.eqb_spec (r_kind r) 14) as [K'|K']; [right; injection H as <-; split; [exact K'|split; reflexivity]|discriminate].
Qed.
(** With rows in the table and a known engine there is an outcome. *)
Theorem C87_sukhbold_total : forall t engine s conserve m r, In engine ["N20"; "S19.8"; "W15"; "W20"; "W18"] -> masses s = Ok m -> counts t r ->
  exists o, Sukhbold16 t engine s conserve = Ok o.
Proof.
  intros t engine s conserve [ms mh] r I M C. unfold Sukhbold16.
  assert (E : existsb (String.eqb engine) ["N20"; "S19.8"; "W15"; "W20"; "W18"] = true) by (apply existsb_exists; exists engine; split; [exact I|apply String.eqb_refl]).
  rewrite E, M. cbn [rbind]. apply counts_in in C. destruct (nearest_some mh (filter selected t)) as (b & B); [intro X; rewrite X in C; destruct C|].
  rewrite B. apply nearest_spec in B. destruct B as [B _]. apply counts_in in B. destruct B as [_ [K|[K _]]]; rewrite K; cbn; eauto.
Qed.
Lemma sukh_ns t engine s conserve o : Sukhbold16 t engine s conserve = Ok o -> o_state o = "NS" ->
  exists ms mh, masses s = Ok (ms, mh) /\ o_mass o = extrapolate1d_NS mh (points 13 t) /\ points 13 t <> [].
Proof.
  intros H S. unfold Sukhbold16 in H. destruct (existsb _ _); [|discriminate]. apply rb in H. destruct H as ([ms mh] & M & H). exists ms, mh. split; [exact M|].
  destruct (nearest mh (filter selected t)) as [r|] eqn:Nr; [|discriminate]. apply nearest_spec in Nr. destruct Nr as [J _]. apply counts_in in J.
  destruct (Nat.eqb_spec (r_kind r) 13) as [K|K].
  - injection H as <-. split; [reflexivity|]. intro X. assert (Y : In (r_he r, r_rem r) (points 13 t)) by (apply points_in; exists r; auto). rewrite X in Y. destruct Y.
  - destruct (Nat.eqb (r_kind r) 14); [injection H as <-; discriminate S|discriminate].
Qed.
Lemma sukh_bh t engine s conserve o : Sukhbold16 t engine s conserve = Ok o -> o_state o = "BH" ->
  exists ms mh, masses s = Ok (ms, mh) /\ o_mass o = extrapolate1d_BH (if conserve then ms else mh) (points 14 t) /\ points 14 t <> [].
Proof.
  intros H S. unfold Sukhbold16 in H. destruct (existsb _ _); [|discriminate]. apply rb in H. destruct H as ([ms mh] & M & H). exists ms, mh. split; [exact M|].
  destruct (nearest mh (filter selected t)) as [r|] eqn:Nr; [|discriminate]. apply nearest_spec in Nr. destruct Nr as [J _]. apply counts_in in J.
  destruct (Nat.eqb_spec (r_kind r) 13) as [K|K]; [injection H as <-; discriminate S|].
  destruct (Nat.eqb_spec (r_kind r) 14) as [K'|K']; [|discriminate].
  injection H as <-. split; [reflexivity|]. intro X. assert (Y : In (r_he r, r_rem r) (points 14 t)) by (apply points_in; exists r; auto). rewrite X in Y. destruct Y.
Qed.
(** The mass of a neutron star never leaves the range of the neutron stars of the table. *)
Theorem C87_sukhbold_ns : forall t engine s conserve o lo hi, Sukhbold16 t engine s conserve = Ok o -> o_state o = "NS" ->
  (forall r, In r t -> r_kind r = 13%nat -> lo <= r_rem r <= hi) -> lo <= o_mass o <= hi.
Proof.
  intros t engine s conserve o lo hi H S B. destruct (sukh_ns _ _ _ _ _ H S) as (ms & mh & _ & -> & N). unfold extrapolate1d_NS.
  assert (O : ordered (points 13 t)) by apply sorted_ordered.
  assert (R : forall p, In p (points 13 t) -> lo <= snd p <= hi) by (intros p I; apply points_in in I; destruct I as (r & [C _] & K & ->); apply B; assumption).
  destruct (qle_spec (lowest (points 13 t)) mh) as [L|L]; cbn [andb].
  - destruct (qle_spec mh (highest (points 13 t))) as [L'|L'].
    + apply interp_between; assumption.
    + destruct (qlt_spec mh (lowest (points 13 t))); apply interp_between; try assumption; try lra.
      apply (lowest_ok _ O). apply highest_in, N.
  - destruct (qlt_spec mh (lowest (points 13 t))); [|lra]. apply interp_between; try assumption. lra.
Qed.
(** Between two neighbouring rows of the same kind the mass is linear in the mass looked up: the helium core mass, for a black hole with conserved
    envelope the mass of the star. *)
Lemma interp_rows k t a b x : counts t a -> counts t b -> r_kind a = k -> r_kind b = k -> r_he a <= x -> x < r_he b ->
  (forall r, counts t r -> r_kind r = k -> r = a \/ r = b \/ r_he r < r_he a \/ r_he b < r_he r) ->
  interp (points k t) x = line (r_he a, r_rem a) (r_he b, r_rem b) x /\ lowest (points k t) <= x /\ x <= highest (points k t).
Proof.
  intros A B Ka Kb L U H. assert (O : ordered (points k t)) by apply sorted_ordered.
  assert (Ia : In (r_he a, r_rem a) (points k t)) by (apply points_in; exists a; auto).
  assert (Ib : In (r_he b, r_rem b) (points k t)) by (apply points_in; exists b; auto).
  assert (Lo : lowest (points k t) <= x) by (pose proof (lowest_ok _ O _ Ia); cbn in *; lra).
  assert (Hi : x <= highest (points k t)) by (pose proof (highest_ok _ O _ Ib); cbn in *; lra).
  split; [|split; assumption].
  destruct (interp_spec (points k t) x O) as (p & I & P & M & D); [intro X; rewrite X in Ia; destruct Ia|exact Lo|].
  assert (Ep : p = (r_he a, r_rem a)).
  { pose proof (M _ Ia L) as M'. cbn in M'. apply points_in in I. destruct I as (r & C & K & ->). cbn in *.
    destruct (H r C K) as [-> |[-> |[G|G]]]; [reflexivity|lra|lra|lra]. }
  destruct D as [[D _]|(q & J & V & W & E)]; [specialize (D _ Ib); cbn in D; lra|].
  assert (Eq : q = (r_he b, r_rem b)).
  { pose proof (W _ Ib U) as W'. cbn in W'. apply points_in in J. destruct J as (r & C & K & ->). cbn in *.
    destruct (H r C K) as [-> |[-> |[G|G]]]; [lra|reflexivity|lra|lra]. }
  subst. exact E.
Qed.
Theorem C87_sukhbold_linear : forall t engine s conserve o m_star m_he a b, Sukhbold16 t engine s conserve = Ok o -> masses s = Ok (m_star, m_he) ->
  let kind := if String.eqb (o_state o) "NS" then 13%nat else 14%nat in
  let x := if String.eqb (o_state o) "NS" then m_he else if conserve then m_star else m_he in
  counts t a -> counts t b -> r_kind a = kind -> r_kind b = kind -> r_he a <= x -> x < r_he b ->
  (forall r, counts t r -> r_kind r = kind -> r = a \/ r = b \/ r_he r < r_he a \/ r_he b < r_he r) ->
  (o_mass o - r_rem a) * (r_he b - r_he a) == (r_rem b - r_rem a) * (x - r_he a).
Proof.
  intros t engine s conserve o m_star m_he a b H M kind x A B Ka Kb L U R.
  assert (F : line (r_he a, r_rem a) (r_he b, r_rem b) x - r_rem a == (r_rem b - r_rem a) / (r_he b - r_he a) * (x - r_he a)) by (unfold line; cbn [fst snd]; ring).
  destruct (interp_rows kind t a b x A B Ka Kb L U R) as (E & Lo & Hi).
  assert (D : o_mass o = interp (points kind t) x).
  { destruct (C87_sukhbold _ _ _ _ _ H) as (_ & ms & mh & r & M' & _ & _ & [(_ & S & _)|(_ & S & _)]); rewrite M in M'; injection M' as <- <-.
    - assert (K : kind = 13%nat) by (unfold kind; rewrite S; reflexivity). assert (X : x = m_he) by (unfold x; rewrite S; reflexivity).
      rewrite K, X in *. destruct (sukh_ns _ _ _ _ _ H S) as (ms & mh & M' & -> & _). rewrite M in M'. injection M' as <- <-. unfold extrapolate1d_NS.
      destruct (qle_spec (lowest (points 13 t)) m_he); [|lra]. destruct (qle_spec m_he (highest (points 13 t))); [|lra]. reflexivity.
    - assert (K : kind = 14%nat) by (unfold kind; rewrite S; reflexivity). assert (X : x = if conserve then m_star else m_he) by (unfold x; rewrite S; reflexivity).
      rewrite K, X in *. destruct (sukh_bh _ _ _ _ _ H S) as (ms & mh & M' & -> & _). rewrite M in M'. injection M' as <- <-. unfold extrapolate1d_BH.
      destruct (qle_spec (lowest (points 14 t)) (if conserve then m_star else m_he)); [|lra].
      destruct (qle_spec (if conserve then m_star else m_he) (highest (points 14 t))); [|lra]. reflexivity. }
  rewrite D, E, F. field. lra.
Qed.
(** A helium core heavier than all black hole progenitors of the table collapses entirely. *)
Theorem C87_sukhbold_above : forall t engine s o m_star m_he, Sukhbold16 t engine s false = Ok o -> o_state o = "BH" -> masses s = Ok (m_star, m_he) ->
  (forall r, counts t r -> r_kind r = 14%nat -> r_he r < m_he) -> o_mass o = m_he.
Proof.
  intros t engine s o m_star m_he H S M R. destruct (sukh_bh _ _ _ _ _ H S) as (ms & mh & M' & -> & N). rewrite M in M'. injection M' as <- <-.
  assert (O : ordered (points 14 t)) by apply sorted_ordered.
  assert (P : forall p, In p (points 14 t) -> fst p < m_he) by (intros p I; apply points_in in I; destruct I as (r & C & K & ->); apply R; assumption).
  unfold extrapolate1d_BH. pose proof (P _ (highest_in _ N)) as Hh. pose proof (P _ (lowest_in _ N)) as Hl. fold (highest (points 14 t)) in Hh. fold (lowest (points 14 t)) in Hl.
  destruct (qle_spec (lowest (points 14 t)) m_he); [|lra]. destruct (qle_spec m_he (highest (points 14 t))); [lra|]. cbn [andb].
  destruct (qlt_spec m_he (lowest (points 14 t))); [lra|reflexivity].
Qed.
(** A conserved envelope does not give a black hole of the mass of the star: the table of helium cores is read at the mass of the star. *)
Theorem C87_envelope_refuted : exists t s o, Sukhbold16 t "N20" s true = Ok o /\ o_state o = "BH" /\ In (e_state s) CC /\ e_he s < e_mass s /\ e_mass s < o_mass o.
Proof.
  exists [Row 5 6 14 0; Row 20 22 14 0], (Star "H-rich_Core_C_depleted" 12 8 6 None None None None). eexists. split; [vm_compute; reflexivity|].
  split; [reflexivity|]. split; [left; reflexivity|]. split; reflexivity.
Qed.
(** A black hole below the range of the table has the mass of the lightest one of the table, which may exceed the star's own mass. *)
Theorem C87_below_refuted : exists t s o, Sukhbold16 t "N20" s false = Ok o /\ o_state o = "BH" /\ (forall r, In r t -> r_rem r <= r_he r) /\ e_mass s < o_mass o.
Proof.
  exists [Row 5 5 14 0; Row 20 18 14 0], (Star "stripped_He_Core_C_depleted" 4 4 3 None None None None). eexists. split; [vm_compute; reflexivity|].
  split; [reflexivity|]. split; [|reflexivity]. intros r [<-|[<-|[]]]; cbn; lra.
Qed.

(** ** C87: Couch et al. *)
Theorem C87_couch : forall strength table t s conserve o, Couch20_init strength false table = Ok t -> Couch20 t s conserve = Ok o ->
  In strength ["1.0"; "1.2"; "1.23"; "1.25"; "1.27"; "1.3"; "1.4"] /\
  exists m_star m_he he E, masses s = Ok (m_star, m_he) /\ In (he, E) table /\ (forall he' E', In (he', E') table -> Qabs (he - m_he) <= Qabs (he' - m_he)) /\
  ((~ E == 0 /\ neutron_star 1.4 o) \/ (E == 0 /\ o_state o = "BH" /\ o_fb o == 1 /\ o_mass o = if conserve then m_star else m_he)).
Proof.
  intros strength table t s conserve o I H. unfold Couch20_init in I. destruct (existsb _ _) eqn:X; [|discriminate].
  apply existsb_exists in X. destruct X as (y & J & X). apply String.eqb_eq in X. subst y. split; [exact J|]. cbv iota in I.
  set (f := fun p : Q * Q => Row (fst p) 0 (if Qeq_bool (snd p) 0 then 14%nat else 13%nat) 0) in I. assert (T : t = map f table) by congruence. clear I.
  unfold Couch20 in H. apply rb in H. destruct H as ([ms mh] & M & H). destruct (nearest mh t) as [r|] eqn:N; [|discriminate].
  apply nearest_spec in N. destruct N as [R D]. rewrite T in R. apply in_map_iff in R. destruct R as ([he E] & <- & R). exists ms, mh, he, E.
  split; [exact M|]. split; [exact R|]. split.
  - intros he' E' I. assert (I' : In (f (he', E')) t) by (rewrite T; apply in_map, I). apply D in I'. rewrite !dist_abs in I'. exact I'.
  - unfold f in H. cbn [r_kind fst snd] in H. destruct (Qeq_bool E 0) eqn:Z; cbn in H; injection H as <-.
    + right. apply Qeq_bool_iff in Z. split; [exact Z|]. split; [reflexivity|]. split; reflexivity.
    + left. split; [intro K; apply Qeq_bool_iff in K; congruence|]. split; [reflexivity|]. split; reflexivity.
Qed.
(** Asking for messages makes the engine unusable. *)
Theorem C87_verbose_refuted : forall strength t, In strength ["1.0"; "1.2"; "1.23"; "1.25"; "1.27"; "1.3"; "1.4"] ->
  Couch20_init strength true t = Raise AttributeError /\ exists t', Couch20_init strength false t = Ok t'.
Proof.
  intros strength t I. unfold Couch20_init.
  assert (E : existsb (String.eqb strength) ["1.0"; "1.2"; "1.23"; "1.25"; "1.27"; "1.3"; "1.4"] = true) by (apply existsb_exists; exists strength; split; [exact I|apply String.eqb_refl]).
  rewrite E. split; [reflexivity|eauto].
Qed.

(** ** Examples *)
Definition star1 : star := Star "H-rich_Core_C_depleted" 15 7 5 (Some ("H-rich_Core_C_burning", 16, 7)) None None
  (Some [("H-rich_Core_He_burning", Some 3, Some 0.5); ("H-rich_Core_He_depleted", Some 4, Some 0.3); ("H-rich_Core_He_depleted", Some 5, Some 0.2)]).
Example C87_he_depletion_ex : values_at_He_depl star1 = (Some 4, Some 0.3).
Proof.
  apply (C87_he_depletion star1 _ [("H-rich_Core_He_burning", Some 3, Some 0.5)] _ _ [("H-rich_Core_He_depleted", Some 5, Some 0.2)] eq_refl).
  left. split; [reflexivity|]. intros r [<-|[]]. discriminate.
Qed.
Example C87_patton_ex : exists o, Patton20_corecollapse (fun x => x) (fun _ _ => 1.7) (fun _ _ => 0.1) false star1 "N20" true = Ok (o, [("M4", 1.7); ("mu4", 0.1)]) /\ black_hole star1 true 1 o.
Proof. eexists. split; [vm_compute; reflexivity|]. split; [reflexivity|split; reflexivity]. Qed.
Example C87_maltsev_ex : exists o, Maltsev25_corecollapse (fun x => x) (fun _ _ => 1.7) (fun _ _ => 0.1) (fun _ _ => 0.5) (fun _ _ => 0.95) 0.1 false star1 "M16" false
  = Ok (o, [("M4", 1.7); ("mu4", 0.1); ("Xi", 0.5); ("sc", 0.95)]) /\ black_hole star1 false 0.99 o /\ explodes 0.5 0.95 0.1 1.7 /\ ~ sure_NS 0.5 4 0.1 1.7.
Proof.
  eexists. split; [vm_compute; reflexivity|]. split; [split; [reflexivity|split; reflexivity]|]. split.
  - left. split; [right; reflexivity|]. intros [H|H]; lra.
  - intros [H|[[_ H]|H]]; [lra|lra|discriminate H].
Qed.
Example C87_sukhbold_ex : exists o, Sukhbold16 [Row 3 1.3 13 0; Row 6 5.5 14 0; Row 9 1.8 13 0; Row 12 10 14 0; Row 7 4 14 1] "W18" star1 false = Ok o
  /\ o_state o = "BH" /\ o_mass o == 6.25.
Proof. eexists. split; [vm_compute; reflexivity|]. split; reflexivity. Qed.
Example C87_couch_ex : exists t o, Couch20_init "1.25" false [(3, 0.8); (8, 0)] = Ok t /\ Couch20 t star1 true = Ok o /\ o_mass o = 15.
Proof. eexists. eexists. split; [reflexivity|]. split; vm_compute; reflexivity. Qed.

Print Assumptions C87_he_depletion.
Print Assumptions C87_core.
Print Assumptions C87_core_stripped.
Print Assumptions C87_patton.
Print Assumptions C87_patton_engine.
Print Assumptions C87_maltsev.
Print Assumptions C87_maltsev_engine.
Print Assumptions C87_masses.
Print Assumptions C87_sukhbold.
Print Assumptions C87_sukhbold_total.
Print Assumptions C87_sukhbold_ns.
Print Assumptions C87_sukhbold_linear.
Print Assumptions C87_sukhbold_above.
Print Assumptions C87_envelope_refuted.
Print Assumptions C87_below_refuted.
Print Assumptions C87_couch.
Print Assumptions C87_verbose_refuted.
