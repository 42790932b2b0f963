(** C165, C166: core collapses stored by a step with an interpolator; its construction; findings and examples for C163 and C164. *)
From Coq Require Import Reals Lra String Bool List.
From Verif Require Import PyBase PyStr OrbitModel InspiralModel StarInitModel IFStepModel FromRunProofs IFStepProps.
From Verif Require BinaryModel SNNameModel BHModel BHProps.
Import ListNotations.
Open Scope R_scope.
Open Scope list_scope.
Open Scope string_scope.

(** ** Specification: what is known about a core collapse *)
Definition SN_NUMBERS : list string := ["f_fb"; "mass"; "spin"; "m_disk_accreted"; "m_disk_radiated"; "M4"; "mu4"; "h1_mass_ej"; "he4_mass_ej"].
Definition column (k : which) (model key : string) : string := per_star k (model ++ "_" ++ key).
Definition field (key : string) (v : val) : option val :=
  match v with Lst l => dget String.eqb (flat_map (fun e => match e with Lst [Txt k; w] => [(k, w)] | _ => [] end) l) key | _ => None end.
(** [v] is what is stored for a star and a model *)
Definition collapse_value (fv : values) (c : class) (k : which) (co : bool) (model : string) (v : val) : Prop :=
  if co then v = Nil
  else exists t, c (column k model "CO_type") = Some t /\
    if String.eqb t "None" then v = Nil
    else exists kind, c (column k model "SN_type") = Some kind /\
      ((exists key, In key SN_NUMBERS /\ fv (column k model key) = None) /\ v = Nil \/
       (forall key, In key SN_NUMBERS -> field key v = fv (column k model key) /\ fv (column k model key) <> None) /\
       field "state" v = Some (Txt t) /\ field "SN_type" v = Some (Txt kind)).
Lemma sn_column_is : forall k model key, sn_column k model key = column k model key.
Proof. intros [] model key; reflexivity. Qed.
Lemma class_some : forall c k v, class_of c k = Ok v -> c k = Some v.
Proof. intros c k v. unfold class_of. destruct (c k); congruence. Qed.
Lemma sn_step : forall fv c k co om model o1, set_sn fv c k co om model = Ok o1 -> exists v, o1 model = Some v /\ collapse_value fv c k co model v.
Proof.
  intros fv c k co om model o1 H. unfold set_sn in H. destruct co.
  { apply ok_inj in H. subst. exists Nil. split; [apply set_same|reflexivity]. }
  apply bind_ok in H. destruct H as (t & T & H). rewrite sn_column_is in T. apply class_some in T. unfold collapse_value.
  destruct (String.eqb t "None") eqn:N.
  { apply ok_inj in H. subst. exists Nil. split; [apply set_same|]. exists t. rewrite N. auto. }
  apply bind_ok in H. destruct H as (d & D & H). apply ok_inj in H. subst o1. eexists. split; [apply set_same|]. exists t. split; [exact T|]. rewrite N.
  cbn [SN_KEYS collect String.eqb Ascii.eqb Bool.eqb app] in D. apply bind_ok in D. destruct D as (kind & K & D). rewrite sn_column_is in K. apply class_some in K.
  exists kind. split; [exact K|]. rewrite !sn_column_is in D.
  Ltac next D := match type of D with match ?x with Some _ => _ | None => _ end = Ok _ => destruct x eqn:? end;
    [|left; assert (d0 : forall a b : option (list (string * val)), Ok a = Ok b -> a = b) by congruence; apply d0 in D; subst; split; [eexists; split; [|eassumption]; cbn; tauto|reflexivity]].
  do 9 next D. right. assert (d0 : forall a b : option (list (string * val)), Ok a = Ok b -> a = b) by congruence. apply d0 in D. subst d.
  split; [|split; reflexivity]. intros key I. cbn [In SN_NUMBERS] in I.
  repeat (destruct I as [<- |I]; [split; [symmetry; assumption|congruence]|]). destruct I.
Qed.
Definition CORES : list string :=
  ["m_core_CE_1cent"; "m_core_CE_10cent"; "m_core_CE_30cent"; "m_core_CE_pure_He_star_10cent"; "r_core_CE_1cent"; "r_core_CE_10cent"; "r_core_CE_30cent"; "r_core_CE_pure_He_star_10cent"].
Definition DEPLETION : list string := ["avg_c_in_c_core_at_He_depletion"; "co_core_mass_at_He_depletion"].
Lemma post_step : forall fv k u om key o1, In key POST_PROCESSED -> set_post fv k u om key = Ok o1 ->
  if u && existsb (String.eqb key) DEPLETION then o1 key = Some Nil else o1 key = fv (per_star k key) /\ o1 key <> None.
Proof.
  intros fv k u om key o1 I H. unfold set_post, among in H. fold DEPLETION in H. destruct (u && existsb (String.eqb key) DEPLETION).
  - apply ok_inj in H. subst. apply set_same.
  - apply bind_ok in H. destruct H as (v & V & H). apply ok_inj in H. subst. rewrite set_same. apply col_some in V.
    assert (E : "S" ++ digit k ++ "_" ++ key = per_star k key) by (destruct k; reflexivity). rewrite E in V. split; congruence.
Qed.
Section Update.
  Variables (p : physics) (grid : string) (fv : values) (c : class) (co1 co2 : bool) (x y : StarInitModel.binary).
  Hypothesis NB : co1 && co2 = false.
  Hypothesis H : initial_final_interpolation p grid fv c co1 co2 x = Ok y.
  (** Cores at the end and at helium depletion: of the grid, if the binary does not start in overflow. *)
  Theorem C165_cores : forall k key, In key POST_PROCESSED -> exists ic, c "interpolation_class" = Some ic /\
    if pick k co1 co2 then star_of k y key = star_of k x key
    else (b_attrs y "state" = Some (Txt "initial_RLOF") /\ star_of k y key = star_of k x key) \/
         (b_attrs y "state" <> Some (Txt "initial_RLOF") /\
          if String.eqb ic "unstable_MT" && existsb (String.eqb key) DEPLETION then star_of k y key = Some Nil
          else star_of k y key = fv (per_star k key) /\ star_of k y key <> None).
  Proof using NB H.
    intros k key I. destruct (one_course p grid fv c co1 co2 x y NB H k) as (ic & E & [d]). exists ic. split; [exact E|].
    assert (N1 : ~ In key MODELS) by (apply (apart POST_PROCESSED MODELS); [reflexivity|exact I]).
    assert (N2 : ~ In key BinaryModel.STARPROPERTIES) by (apply (apart POST_PROCESSED BinaryModel.STARPROPERTIES); [reflexivity|exact I]).
    assert (A : key <> "state") by (intros ->; apply N2; cbn; tauto). assert (B : key <> "lg_mdot") by (intros ->; apply N2; cbn; tauto).
    pose proof (course_rate _ _ _ _ _ _ _ _ _ d key (or_introl B) A) as R. destruct d as [s t u v st D1 D2 D3 D4]. cbn [cu cs] in R.
    assert (S : s key = star_of k x key).
    { destruct (pick k co1 co2); [exact (proj1 (star_compact _ _ _ _ D1) key N2)|exact (proj1 (star_normal _ _ _ _ D1) key N2)]. }
    destruct D4 as [(Q & Eu & Ev & Ew)|(Q & _ & P & W)].
    - assert (Z : star_of k y key = star_of k x key) by congruence. destruct (pick k co1 co2); [exact Z|]. left. split; assumption.
    - assert (Z : star_of k y key = v key).
      { destruct (String.eqb ic "unstable_MT"); [congruence|]. exact (proj1 (each_spec _ _ _ _ models_nodup (frame_sn fv c k _) W) key N1). }
      destruct (pick k co1 co2); [congruence|]. right. split; [exact Q|].
      destruct (proj2 (each_spec _ _ _ _ post_nodup (frame_post fv k _) P) key I) as (om & o1 & _ & F & G).
      pose proof (post_step _ _ _ _ _ _ I F) as PS. rewrite Z, G. exact PS.
  Qed.
  (** Core collapses in each model *)
  Theorem C165_collapse : forall k model, In model MODELS -> exists ic, c "interpolation_class" = Some ic /\
    if String.eqb ic "unstable_MT" || is_txt (match b_attrs y "state" with Some v => v | None => Nil end) "initial_RLOF" then star_of k y model = star_of k x model
    else exists v, star_of k y model = Some v /\ collapse_value fv c k (pick k co1 co2) model v.
  Proof using NB H.
    intros k model I. destruct (one_course p grid fv c co1 co2 x y NB H k) as (ic & E & [d]). exists ic. split; [exact E|].
    assert (N1 : ~ In model POST_PROCESSED) by (apply (apart MODELS POST_PROCESSED); [reflexivity|exact I]).
    assert (N2 : ~ In model BinaryModel.STARPROPERTIES) by (apply (apart MODELS BinaryModel.STARPROPERTIES); [reflexivity|exact I]).
    assert (A : model <> "state") by (intros ->; apply N2; cbn; tauto). assert (B : model <> "lg_mdot") by (intros ->; apply N2; cbn; tauto).
    pose proof (course_rate _ _ _ _ _ _ _ _ _ d model (or_introl B) A) as R. destruct d as [s t u v st D1 D2 D3 D4]. cbn [cu cs] in R.
    assert (S : s model = star_of k x model).
    { destruct (pick k co1 co2); [exact (proj1 (star_compact _ _ _ _ D1) model N2)|exact (proj1 (star_normal _ _ _ _ D1) model N2)]. }
    destruct D4 as [(Q & Eu & Ev & Ew)|(Q & _ & P & W)].
    - rewrite Q. replace (is_txt (Txt "initial_RLOF") "initial_RLOF") with true by reflexivity. rewrite orb_true_r. congruence.
    - assert (X : is_txt (match b_attrs y "state" with Some v => v | None => Nil end) "initial_RLOF" = false).
      { destruct (is_txt _ _) eqn:T; [|reflexivity]. apply is_txt_true in T. exfalso. apply Q. destruct (b_attrs y "state"); congruence. }
      rewrite X, orb_false_r. destruct (String.eqb ic "unstable_MT").
      + assert (V : v model = u model).
        { destruct (pick k co1 co2); [congruence|]. exact (proj1 (each_spec _ _ _ _ post_nodup (frame_post fv k _) P) model N1). }
        congruence.
      + destruct (proj2 (each_spec _ _ _ _ models_nodup (frame_sn fv c k _) W) model I) as (om & o1 & _ & F & G).
        destruct (sn_step _ _ _ _ _ _ _ F) as (z & Z1 & Z2). exists z. split; [congruence|exact Z2].
  Qed.
End Update.
Print Assumptions C165_cores.
Print Assumptions C165_collapse.

(** ** A whole update: a star of 12.5 Msun with a black hole *)
Definition interpolated : values := fun key =>
  if String.eqb key "age" then Some (num 1e7)
  else if String.eqb key "star_1_mass" then Some (num 12.5)
  else if String.eqb key "star_2_mass" then Some (num 10)
  else if String.eqb key "lg_mstar_dot_2" then Some (num (-9))
  else if String.eqb key "S1_SN_MODEL_v2_03_M4" then None
  else Some (num 0.25).
Definition classes (ic : string) : class := fun key =>
  if String.eqb key "interpolation_class" then Some ic
  else if String.eqb key "S1_SN_MODEL_v2_02_CO_type" then Some "None"
  else Some "BH".
Definition some_physics : physics := Physics (fun _ co => Ok (if co then "BH" else "H-rich_Core_H_burning")) (fun _ _ _ _ => Ok (Txt "detached", Nil, Txt "None")) (fun _ _ _ => Ok 0) (fun _ _ _ => Ok 1e-7).
Definition before : StarInitModel.binary :=
  Bin (fun key => dget String.eqb [("time", num 5e6); ("eccentricity_history", Lst [num 0; num 0.1]); ("V_sys_history", Lst [num 0; num 0.1])] key)
      (fun key => dget String.eqb [("mass", num 15); ("metallicity", num 1)] key)
      (fun key => dget String.eqb [("mass", num 10); ("metallicity", num 1); ("spin", num 0.5); ("he_core_mass", num 11)] key).
Lemma ten_is_BH : infer_CO (num 10) [] = Ok "BH".
Proof. unfold infer_CO, num. destruct (Rle_dec 10 0); [lra|]. cbn. destruct (Rlt_dec 10 1.1); [lra|]. cbn. destruct (Rle_dec 10 2.5); [lra|]. reflexivity. Qed.
Lemma ten_radius : exists r, CO_log_R (num 10) "BH" = Ok r.
Proof. unfold CO_log_R, num, CO_radius. destruct (Rle_dec 10 0); [lra|]. cbn. eexists. reflexivity. Qed.
Lemma spin_ten : forall a, 0 <= a -> exists v, new_spin (num a) (num 10) (num 10) = Ok v.
Proof.
  intros a A. unfold new_spin, num, refused, BHModel.le, BHModel.lt. destruct (Rle_dec 10 0); [lra|]. cbn [rbind]. destruct (Rlt_dec a 0); [lra|]. cbn [rbind]. eexists. reflexivity.
Qed.
Lemma each_split : forall f l1 l2 o, each f (l1 ++ l2)%list o = rbind (each f l1 o) (each f l2).
Proof. intros f l1. induction l1 as [|k l1 IH]; intros l2 o; [reflexivity|]. cbn [app each]. destruct (f o k); [apply IH|reflexivity]. Qed.
Lemma each_ok : forall f (good : attrs -> Prop) l o, good o -> (forall o key, good o -> In key l -> exists o1, f o key = Ok o1 /\ good o1) -> exists o', each f l o = Ok o' /\ good o'.
Proof.
  intros f good l. induction l as [|k l IH]; intros o G F; [exists o; auto|]. destruct (F o k G (or_introl eq_refl)) as (o1 & E & G1).
  cbn [each]. rewrite E. apply IH; [exact G1|]. intros; apply F; [assumption|right; assumption].
Qed.
Lemma runs_binary : exists b, each (set_binary interpolated) BinaryModel.BINARYPROPERTIES (b_attrs before) = Ok b.
Proof.
  destruct (each_ok (set_binary interpolated) (fun o => o "time" <> None /\ (forall v, o "time" = Some v -> exists n, v = Num n) /\ o "eccentricity_history" = Some (Lst [num 0; num 0.1]) /\ o "V_sys_history" = Some (Lst [num 0; num 0.1]))
      BinaryModel.BINARYPROPERTIES (b_attrs before)) as (b & E & _); [| |eauto].
  - split; [discriminate|]. split; [|split; reflexivity]. intros v V. change (Some (num 5e6) = Some v) in V. exists (Some 5e6). unfold num in V. congruence.
  - intros o key (G1 & G1' & G2 & G3) I. cbn [In BinaryModel.BINARYPROPERTIES] in I.
    destruct (o "time") as [v|] eqn:T; [|congruence]. destruct (G1' v eq_refl) as (n & ->).
    repeat (destruct I as [<- |I]; [first [
        eexists; split; [reflexivity|]; repeat split; cbn; try assumption; try congruence; rewrite T; (discriminate || (intros; exists n; congruence)) |
        unfold set_binary; cbn [rbind mesa_of]; cbn; unfold get, hist; cbn [append]; rewrite ?G2, ?G3; cbn; eexists; split; [reflexivity|]; repeat split; cbn; try assumption; try congruence; rewrite T; (discriminate || (intros; exists n; congruence)) |
        unfold set_binary; cbn [rbind mesa_of]; cbn; unfold get; rewrite T; destruct n; cbn; eexists; (split; [reflexivity|]); repeat split; cbn; try assumption; try discriminate; intros w W; unfold num, nan in W; assert (Q : forall a b : val, Some a = Some b -> a = b) by congruence; apply Q in W; subst w; eexists; reflexivity ]|]).
    destruct I.
Qed.
Lemma runs_star1 : exists s, set_star interpolated One false (b_star1 before) = Ok s.
Proof.
  unfold set_star. change (get (b_star1 before) "mass") with (Ok (num 15) : result val). cbn [rbind].
  destruct (each_ok (set_normal interpolated One) (fun o => o "metallicity" <> None) BinaryModel.STARPROPERTIES (b_star1 before)) as (s & -> & _); [discriminate| |eauto].
  intros o key G I. cbn [In BinaryModel.STARPROPERTIES] in I. destruct (o "metallicity") as [v|] eqn:T; [|congruence].
  repeat (destruct I as [<- |I]; [first [ eexists; split; [reflexivity|]; cbn; congruence | unfold set_normal, get; cbn; rewrite T; cbn; eexists; split; [reflexivity|]; cbn; congruence ]|]). destruct I.
Qed.
Lemma runs_star2 : exists s, set_star interpolated Two true (b_star2 before) = Ok s.
Proof.
  unfold set_star. change (get (b_star2 before) "mass") with (Ok (num 10) : result val). cbn [rbind].
  destruct (spin_ten 0.5 ltac:(lra)) as (a & A). destruct ten_radius as (r10 & R10).
  change BinaryModel.STARPROPERTIES with (firstn 37 BinaryModel.STARPROPERTIES ++ "spin" :: skipn 38 BinaryModel.STARPROPERTIES)%list. rewrite each_split.
  destruct (each_ok (set_compact interpolated Two (num 10)) (fun o => o "metallicity" <> None /\ o "spin" = Some (num 0.5)) (firstn 37 BinaryModel.STARPROPERTIES) (b_star2 before)) as (s & -> & G0 & G); [split; [discriminate|reflexivity]| |].
  { intros o key [G G'] I. cbn [In firstn BinaryModel.STARPROPERTIES] in I. destruct (o "metallicity") as [v|] eqn:T; [|congruence].
    repeat (destruct I as [<- |I]; [first [ eexists; split; [reflexivity|]; cbn; split; congruence | unfold set_compact, get; cbn; rewrite T; cbn; eexists; split; [reflexivity|]; cbn; split; congruence |
          change (exists o1, rbind (infer_CO (num 10) []) (fun st => rbind (CO_log_R (num 10) st) (fun r => Ok (setattr o "log_R" r))) = Ok o1 /\ o1 "metallicity" <> None /\ o1 "spin" = Some (num 0.5)); rewrite ten_is_BH; cbn [rbind]; rewrite R10; cbn [rbind]; eexists; split; [reflexivity|]; cbn; split; congruence ]|]). destruct I. }
  cbn [rbind each].
  change (set_compact interpolated Two (num 10) s "spin") with (rbind (get s "spin") (fun z => rbind (new_spin z (num 10) (num 10)) (fun a => Ok (setattr s "spin" a)))).
  unfold get. rewrite G. cbn [rbind]. rewrite A. cbn [rbind].
  destruct (each_ok (set_compact interpolated Two (num 10)) (fun o => True) (skipn 38 BinaryModel.STARPROPERTIES) (setattr s "spin" a)) as (s' & -> & _); [exact I| |eauto].
  intros o key _ J. cbn [In skipn BinaryModel.STARPROPERTIES] in J. repeat (destruct J as [<- |J]; [eexists; split; [reflexivity|exact I]|]). destruct J.
Qed.
Lemma runs_post : forall u o, exists v, each (set_post interpolated One u) POST_PROCESSED o = Ok v.
Proof.
  intros u o0. destruct (each_ok (set_post interpolated One u) (fun _ => True) POST_PROCESSED o0) as (v1 & E & _); [exact I| |eauto].
  intros o key _ J. unfold set_post. destruct (_ && _); [eexists; split; [reflexivity|exact I]|]. cbn [In POST_PROCESSED] in J.
  repeat (destruct J as [<- |J]; [eexists; split; [reflexivity|exact I]|]). destruct J.
Qed.
Lemma runs_sn : forall ic k co o, exists v, each (set_sn interpolated (classes ic) k co) MODELS o = Ok v.
Proof.
  intros ic k co o0. destruct (each_ok (set_sn interpolated (classes ic) k co) (fun _ => True) MODELS o0) as (v1 & E & _); [exact I| |eauto].
  intros o key _ J. unfold set_sn. destruct co; [eexists; split; [reflexivity|exact I]|].
  assert (C : forall c, c <> "interpolation_class" -> exists t, class_of (classes ic) c = Ok t).
  { intros c N. unfold class_of, classes. apply String.eqb_neq in N. rewrite N. clear N. destruct (String.eqb c _); eexists; reflexivity. }
  assert (S : forall m q, sn_column k m q <> "interpolation_class") by (intros m q; destruct k; discriminate).
  destruct (C _ (S key "CO_type")) as (t & ->). cbn [rbind]. destruct (String.eqb t "None"); [eexists; split; [reflexivity|exact I]|].
  assert (L : forall keys d, exists r, collect interpolated (classes ic) k key t keys d = Ok r).
  { induction keys as [|q keys IH]; intro d; [eexists; reflexivity|]. cbn [collect]. destruct (String.eqb q "state"); [apply IH|].
    destruct (String.eqb q "SN_type"); [destruct (C _ (S key q)) as (t' & ->); apply IH|]. destruct (interpolated _); [apply IH|eexists; reflexivity]. }
  destruct (L SN_KEYS []) as (r & ->). eexists. split; [reflexivity|exact I].
Qed.
Lemma goes : forall p grid fv c x m1 m2 b s1 s2 ic mt st1 st2 bs ev mc,
  get (b_star1 x) "mass" = Ok m1 -> get (b_star2 x) "mass" = Ok m2 ->
  each (set_binary fv) BinaryModel.BINARYPROPERTIES (b_attrs x) = Ok b -> set_star fv One false (b_star1 x) = Ok s1 -> set_star fv Two true (b_star2 x) = Ok s2 ->
  class_of c "interpolation_class" = Ok ic -> class_of c "mt_history" = Ok mt -> star_state p s1 false = Ok st1 -> star_state p s2 true = Ok st2 ->
  (forall b' t1 t2, case_of p b' t1 t2 ic = Ok (bs, ev, mc)) -> is_txt bs "initial_RLOF" = false -> (forall b' t1 t2, exists u, accretion p fv b' t2 t1 Two = Ok u) ->
  (forall u t, exists v, each (set_post fv One u) POST_PROCESSED t = Ok v) -> (forall k co t, exists v, each (set_sn fv c k co) MODELS t = Ok v) ->
  exists y, initial_final_interpolation p grid fv c false true x = Ok y.
Proof.
  intros p grid fv c x m1 m2 b s1 s2 ic mt st1 st2 bs ev mc H1 H2 H3 H4 H5 H6 H7 H8 H9 H10 H11 H12 H13 H14. unfold initial_final_interpolation.
  rewrite H1. cbn [rbind]. rewrite H2. cbn [rbind]. rewrite H3. cbn [rbind]. rewrite H4. cbn [rbind]. rewrite H5. cbn [rbind]. rewrite H6. cbn [rbind]. rewrite H7. cbn [rbind].
  rewrite H8. cbn [rbind]. rewrite H9. cbn [rbind]. rewrite H10. cbn [rbind]. rewrite H11.
  match goal with |- context [accretion p fv ?b' ?t2 ?t1 Two] => destruct (H12 b' t1 t2) as (u & ->) end. cbn [rbind fst snd].
  match goal with |- context [each (set_post fv One ?u) POST_PROCESSED ?o] => destruct (H13 u o) as (v1 & ->) end. cbn [rbind].
  destruct (String.eqb ic "unstable_MT"); [eauto|].
  destruct (H14 One false v1) as (w1 & ->). cbn [rbind]. destruct (H14 Two true u) as (w2 & ->). cbn [rbind]. eauto.
Qed.
Lemma runs : forall ic, exists y, initial_final_interpolation some_physics "CO_HMS_RLO" interpolated (classes ic) false true before = Ok y.
Proof.
  intro ic. destruct runs_binary as (b & B). destruct runs_star1 as (s1 & S1). destruct runs_star2 as (s2 & S2).
  apply (goes some_physics "CO_HMS_RLO" interpolated (classes ic) before (num 15) (num 10) b s1 s2 ic "BH" "H-rich_Core_H_burning" "BH" (Txt "detached") Nil (Txt "None"));
    try assumption; try reflexivity.
  - intros b' t1 t2. eexists. reflexivity.
  - apply runs_post.
  - apply runs_sn.
Qed.
Example C163_case : forall ic, ic <> "initial_MT" -> exists y, initial_final_interpolation some_physics "CO_HMS_RLO" interpolated (classes ic) false true before = Ok y /\
  b_attrs y "time" = Some (num (5e6 + 1e7)) /\ b_attrs y "eccentricity" = Some (num 0.1) /\ b_star1 y "mass" = Some (num 12.5) /\ b_star2 y "he_core_mass" = Some (num 11) /\
  (ic <> "unstable_MT" -> b_star1 y "SN_MODEL_v2_02" = Some Nil /\ b_star1 y "SN_MODEL_v2_03" = Some Nil /\
    exists v, b_star1 y "SN_MODEL_v2_04" = Some v /\ field "state" v = Some (Txt "BH") /\ field "M4" v = Some (num 0.25)).
Proof.
  intros ic N. pose proof (runs ic) as E.
  destruct E as (y & E). exists y. split; [exact E|].
  pose proof (C163_star some_physics "CO_HMS_RLO" interpolated (classes ic) false true before y eq_refl E One "mass" eq_refl) as A1. pose proof (C164_compact some_physics "CO_HMS_RLO" interpolated (classes ic) false true before y eq_refl E Two "he_core_mass" eq_refl) as A2.
  destruct (C163_binary some_physics "CO_HMS_RLO" interpolated (classes ic) false true before y eq_refl E) as (ic' & mt & bs & ev & mc & b & s1 & s2 & B1 & B2 & B3 & B4 & B5 & B6 & B7 & B8 & B9 & _).
  pose proof (B9 "time") as T. pose proof (B9 "eccentricity") as Ec. cbn [binary_value] in T, Ec.
  split. { destruct T as (now & dt & t & T1 & T2 & T3 & T4); [cbn; tauto|intros [Q|[Q|[Q|[]]]]; discriminate|]. change (b_attrs before "time") with (Some (num 5e6)) in T1. change (interpolated "age") with (Some (num 1e7)) in T2.
    assert (now = num 5e6) by congruence. assert (dt = num 1e7) by congruence. subst. change (plus (num 5e6) (num 1e7)) with (Ok (num (5e6 + 1e7)) : result val) in T3. congruence. }
  split. { destruct Ec as (h & z & T1 & T2); [cbn; tauto|intros [Q|[Q|[Q|[]]]]; discriminate|]. cbn in T1.
    destruct h as [|h0 [|h1 [|h2 h]]]; cbn in T1; try congruence. }
  split; [apply A1; [cbn; tauto|discriminate]|]. split; [apply A2; [cbn; tauto|discriminate|discriminate]|].
  intro U. cbn in B3. assert (bs = Txt "detached") by congruence. subst bs.
  assert (G : forall model, In model MODELS -> exists v, b_star1 y model = Some v /\ collapse_value interpolated (classes ic) One false model v).
  { intros model I. destruct (C165_collapse some_physics "CO_HMS_RLO" interpolated (classes ic) false true before y eq_refl E One model I) as (ic2 & Q1 & Q2). cbn in Q1. assert (ic2 = ic) by congruence. subst.
    rewrite B4 in Q2. apply String.eqb_neq in U. rewrite U in Q2. exact Q2. }
  split; [|split].
  - destruct (G "SN_MODEL_v2_02") as (v & V & (t & T1 & T2)); [cbn; tauto|]. cbn in T1. assert (t = "None") by congruence. subst. cbn in T2. congruence.
  - destruct (G "SN_MODEL_v2_03") as (v & V & (t & T1 & T2)); [cbn; tauto|]. cbn in T1. assert (t = "BH") by congruence. subst. cbn in T2.
    destruct T2 as (kind & _ & [[_ ->]|[Q _]]); [exact V|]. destruct (Q "M4") as [_ Q']; [cbn; tauto|]. exfalso. apply Q'. reflexivity.
  - destruct (G "SN_MODEL_v2_04") as (v & V & (t & T1 & T2)); [cbn; tauto|]. cbn in T1. assert (t = "BH") by congruence. subst. cbn in T2.
    exists v. split; [exact V|]. destruct T2 as (kind & _ & [[(key & K & K') _]|[Q [Q1 _]]]).
    + exfalso. cbn [In SN_NUMBERS] in K. repeat (destruct K as [<- |K]; [discriminate K'|]). destruct K.
    + split; [exact Q1|]. destruct (Q "M4") as [Q' _]; [cbn; tauto|]. exact Q'.
Qed.
(** ** Findings *)
(** A white dwarf of 1.2 Msun gets the radius of a neutron star. *)
Theorem C164_radius_refuted : exists r, infer_CO (num 1.2) [] = Ok "NS" /\ infer_CO (num 1.2) [num 0; num 0; num 0.5; num 0.5] = Ok "WD" /\
  CO_log_R (num 1.2) "NS" = Ok (num r) /\ r = log10 (12.5e5 / Rsun).
Proof.
  eexists. unfold infer_CO, num. destruct (Rle_dec 1.2 0); [lra|]. cbn. destruct (Rlt_dec 1.2 1.1); [lra|]. destruct (Rle_dec 1.2 1.46); [|lra]. destruct (Rle_dec 1.2 2.5); [|lra].
  destruct (Rlt_dec 0 0); [lra|]. destruct (Rlt_dec 0 0.5); [|lra]. cbn. split; [reflexivity|]. split; [reflexivity|]. split; [|reflexivity].
  unfold CO_radius, num. destruct (Rle_dec 1.2 0); [lra|]. reflexivity.
Qed.
(** A compact object whose interpolated mass is a little below its own has no spin afterwards. *)
Theorem C164_spin_refuted : forall a m m', 0 <= a <= 1 -> 0 < m' < m -> new_spin (num a) (num m) (num m') = Ok nan.
Proof.
  intros a m m' A [M' M]. unfold new_spin, num, refused, BHModel.le, BHModel.lt. destruct (Rle_dec m 0); [lra|]. destruct (Rle_dec m' 0); [lra|]. destruct (Rlt_dec a 0); [lra|].
  cbn [rbind]. unfold BHModel.spin_stable_mass_transfer, BHModel.nothing, BHModel.value, BHModel.le, BHModel.lt.
  destruct (Rle_dec m 0); [lra|]. destruct (Rle_dec m' 0); [lra|]. destruct (Rlt_dec a 0); [lra|]. cbn [orb].
  assert (Q : m' / m < 1) by (apply (Rmult_lt_reg_r m); [lra|]; unfold Rdiv; rewrite Rmult_assoc, Rinv_l; lra).
  destruct (Rle_dec 1 (m' / m)); [lra|]. cbn [andb].
  assert (S : 1 <= sqrt (BHModel.r_isco a)) by (rewrite <- sqrt_1; apply sqrt_le_1_alt, BHProps.r_ge1; lra).
  destruct (Rlt_dec (sqrt (BHModel.r_isco a)) (m' / m)); [lra|]. reflexivity.
Qed.
Print Assumptions C164_radius_refuted.
Print Assumptions C164_spin_refuted.

(** ** C166: setting up a step *)
Theorem C166_new : forall keys o s, new_step keys o = Ok s <->
  s = Step o true (if in_dec string_dec (method o) ["linear_kNN"; "linear3c_kNN"; "1NN_1NN"] then true else false) /\
  (forall k, In k keys -> In k DEFAULT_KWARGS) /\
  (tracking o = true -> method o = "nearest_neighbour") /\ (stop o = "stop_at_max_time" \/ method o = "nearest_neighbour").
Proof.
  intros keys [m tr st] s. unfold new_step. cbn [method tracking stop].
  assert (K : existsb (fun k => negb (among k DEFAULT_KWARGS)) keys = false <-> (forall k, In k keys -> In k DEFAULT_KWARGS)).
  { split.
    - intros H k I. destruct (among k DEFAULT_KWARGS) eqn:E.
      + apply existsb_exists in E. destruct E as (k' & I' & E). apply String.eqb_eq in E. subst. exact I'.
      + enough (existsb (fun k => negb (among k DEFAULT_KWARGS)) keys = true) by congruence. apply existsb_exists. exists k. rewrite E. auto.
    - intros H. destruct (existsb _ keys) eqn:E; [|reflexivity]. apply existsb_exists in E. destruct E as (k & I & E). apply negb_true_iff in E.
      exfalso. apply (absent k DEFAULT_KWARGS E). apply H, I. }
  assert (S : among m SUPPORTED = if in_dec string_dec m ["linear_kNN"; "linear3c_kNN"; "1NN_1NN"] then true else false).
  { destruct (in_dec string_dec m _) as [I|N].
    - apply existsb_exists. exists m. split; [exact I|apply String.eqb_refl].
    - destruct (among m SUPPORTED) eqn:E; [|reflexivity]. exfalso. apply N. apply existsb_exists in E. destruct E as (k' & I' & E). apply String.eqb_eq in E. subst. exact I'. }
  rewrite S. set (it := if in_dec _ _ _ then true else false). clearbody it.
  destruct (existsb (fun k => negb (among k DEFAULT_KWARGS)) keys) eqn:E.
  { split; [discriminate|]. intros (_ & A & _). apply K in A. discriminate. }
  assert (A : forall k, In k keys -> In k DEFAULT_KWARGS) by (apply K; reflexivity).
  destruct (String.eqb_spec m "nearest_neighbour") as [M|M]; cbn [negb].
  - rewrite andb_false_r, orb_true_r. split; [intro Q; assert (s = Step (Options m tr st) true it) by congruence|intros (-> & _); reflexivity]. auto.
  - rewrite andb_true_r, orb_false_r. destruct tr; [split; [discriminate|intros (_ & _ & Q & _); exfalso; auto]|].
    destruct (String.eqb_spec st "stop_at_max_time") as [T|T].
    + split; [intro Q; assert (s = Step (Options m false st) true it) by congruence|intros (-> & _); reflexivity]. repeat split; auto. discriminate.
    + split; [discriminate|]. intros (_ & _ & _ & [Q|Q]); contradiction.
Qed.
(** A step which was set up cannot be taken exactly if its method is neither that of the neighbours nor one of the three interpolators. *)
Theorem C166_time : forall keys o s near fv, new_step keys o = Ok s -> fv "age" <> None ->
  ((exists t, step_time s near fv = Ok t) <-> In (method o) ["nearest_neighbour"; "linear_kNN"; "linear3c_kNN"; "1NN_1NN"]) /\
  (~ In (method o) ["nearest_neighbour"; "linear_kNN"; "linear3c_kNN"; "1NN_1NN"] -> step_time s near fv = Raise ValueError).
Proof.
  intros keys o s near fv H F. apply C166_new in H. destruct H as (-> & _). unfold step_time. cbn [opts].
  destruct (String.eqb_spec (method o) "nearest_neighbour") as [M|M].
  - rewrite M. split; [split; [intro; left; reflexivity|eauto]|]. intro N. exfalso. apply N. left. reflexivity.
  - destruct (among (method o) SUPPORTED) eqn:E.
    + assert (I : In (method o) ["nearest_neighbour"; "linear_kNN"; "linear3c_kNN"; "1NN_1NN"]).
      { right. apply existsb_exists in E. destruct E as (k' & I' & E). apply String.eqb_eq in E. subst. exact I'. }
      unfold col. destruct (fv "age") as [v|]; [|congruence]. split; [split; [intro; exact I|intro; eexists; reflexivity]|]. intro N. contradiction.
    + assert (N : ~ In (method o) ["nearest_neighbour"; "linear_kNN"; "linear3c_kNN"; "1NN_1NN"]).
      { intros [Q|I]; [congruence|]. apply (absent _ SUPPORTED E). exact I. }
      split; [split; [intros (t & T); discriminate|intro; contradiction]|reflexivity].
Qed.
(** The documented names of the interpolations are accepted and fail at the first binary; the supported ones cannot be combined with other ways to stop. *)
Theorem C166_documented_refuted : forall near fv, (exists s, new_step ["interpolation_method"] (Options "linear_knn_interpolation" false "stop_at_max_time") = Ok s /\ step_time s near fv = Raise ValueError) /\
  new_step ["interpolation_method"; "stop_method"] (Options "linear3c_kNN" false "stop_at_end") = Raise AttributeError.
Proof. intros near fv. split; [eexists; split; reflexivity|reflexivity]. Qed.
Example C166_case : new_step ["metallicity"; "interpolation_method"; "verbose"] (Options "linear3c_kNN" false "stop_at_max_time") = Ok (Step (Options "linear3c_kNN" false "stop_at_max_time") true true) /\
  new_step ["stop_method"] (Options "nearest_neighbour" true "stop_at_end") = Ok (Step (Options "nearest_neighbour" true "stop_at_end") true false) /\
  new_step ["metalicity"] (Options "nearest_neighbour" true "stop_at_end") = Raise ValueError.
Proof. repeat split. Qed.
Print Assumptions C166_new.
Print Assumptions C166_time.
