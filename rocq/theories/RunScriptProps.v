(** The script that submits the jobs of the pipeline (RunScriptModel): C192. *)
From Coq Require Import Ascii String List Bool Arith Permutation Lia.
From Verif Require Import PyBase FromRunProofs RunScriptModel.
Import ListNotations.
Open Scope list_scope.
Open Scope string_scope.

(** ** The specification *)

Definition steps : list string := ["step_1"; "step_2"; "step_3"; "step_4"; "step_5"; "step_F"; "rerun"].
Definition action_of (s : string) : string :=
  if String.eqb s "step_1" then "CREATE_GRID_SLICES" else if String.eqb s "step_2" then "COMBINE_GRID_SLICES" else if String.eqb s "step_3" then "CALCULATE_EXTRA_VALUES"
  else if String.eqb s "step_4" then "TRAIN_INTERPOLATORS" else if String.eqb s "step_5" then "TRAIN_PROFILE_INTERPOLATORS" else if String.eqb s "step_F" then "EXPORT_DATASET" else "RERUN".
(** The steps switched on in the section [pipeline setup] *)
Definition on (setup : section) (s : string) : bool := match lookup setup (action_of s) with Some v => truthy v | None => false end.
(** To wait for the last step of a list, if there is one *)
Definition after (l : list string) : waits := match rev l with [] => Nothing | s :: _ => AfterOk s end.
(** Something remains to be plotted or checked for a step after its sets have been replaced *)
Definition wanted (c : ini) (setup : section) (sets : list (string * list string)) (key flag s : string) : Prop :=
  exists sec l, lookup c s = Some sec /\ lookup sec key = Some (VList l) /\ (forall v, lookup setup flag = Some v -> truthy v = true) /\
  exists x, (In x l /\ ~ In x (map fst sets)) \/ exists n ct, In (n, ct) sets /\ In n l /\ In x ct.

(** [job] with what it waits for is one of those of step [s], which comes after the steps [l1] *)
Definition job_of_step (sn : list string) (c : ini) (setup : section) (l1 : list string) (s job : string) (w : waits) : Prop :=
  (job = s /\ on setup s = true /\ w = after (filter (on setup) l1)) \/
  (job = s ++ "_cleanup" /\ on setup s = true /\ In s ["step_2"; "step_F"; "rerun"] /\ w = AfterOk s) \/
  (exists e, ((e = "_plots" /\ wanted c setup (plotting_sets sn) "CREATE_PLOTS" "MAKE_PLOTS" s) \/ (e = "_checks" /\ wanted c setup checking_sets "DO_CHECKS" "MAKE_CHECKS" s)) /\
     ((job = s ++ e /\ w = after (filter (on setup) (l1 ++ [s])%list)) \/ (job = (s ++ e) ++ "_cleanup" /\ w = AfterOk (s ++ e)))).
(** Names of sets are listed once for a step *)
Definition tidy (sn : list string) (c : ini) : Prop :=
  forall s sec l n, In s steps -> lookup c s = Some sec ->
    (lookup sec "CREATE_PLOTS" = Some (VList l) -> In n (map fst (plotting_sets sn)) -> (count_occ string_dec l n <= 1)%nat) /\
    (lookup sec "DO_CHECKS" = Some (VList l) -> In n (map fst checking_sets) -> (count_occ string_dec l n <= 1)%nat).

(** ** The sets of plots and checks *)

Lemma remove_first_in x y l : NoDup l -> In y (remove_first x l) <-> In y l /\ y <> x.
Proof.
  induction l as [|z l IH]; intros N; cbn; [tauto|]. apply NoDup_cons_iff in N as [N1 N2]. specialize (IH N2). destruct (String.eqb_spec x z) as [->|NE].
  - split; [intros I; split; [now right|congruence]|intros [[->|I] K]; [congruence|exact I]].
  - cbn. rewrite IH. split; [intros [->|[I K]]; [split; [now left|congruence]|split; [now right|exact K]]|intros [[->|I] K]; [now left|right; now split]].
Qed.
Lemma existsb_name n l : existsb (String.eqb n) l = true <-> In n l.
Proof. rewrite existsb_exists. split; [intros (x & I & E); now destruct (String.eqb_spec n x) as [->|]|intros I; exists n; split; [exact I|apply String.eqb_refl]]. Qed.
Lemma count_remove x y l : count_occ string_dec (remove_first x l) y = if string_dec x y then pred (count_occ string_dec l y) else count_occ string_dec l y.
Proof.
  induction l as [|z l IH]; cbn; [now destruct (string_dec x y)|]. destruct (String.eqb_spec x z) as [->|NE]; destruct (string_dec z y) as [->|NY]; cbn.
  - destruct (string_dec y y); [reflexivity|congruence].
  - now destruct (string_dec z y).
  - destruct (string_dec y y); [|congruence]. rewrite IH. destruct (string_dec x y); [congruence|reflexivity].
  - destruct (string_dec z y); [congruence|exact IH].
Qed.
(** The contents of sets are not names of sets, and names of sets occur once: all names are replaced *)
Lemma expand_list : forall sets l l', (forall n ct x, In (n, ct) sets -> In x ct -> ~ In x (map fst sets)) -> NoDup (map fst sets) ->
  (forall n, In n (map fst sets) -> (count_occ string_dec l n <= 1)%nat) -> expand sets (VList l) = Ok (VList l') ->
  forall x, In x l' <-> (In x l /\ ~ In x (map fst sets)) \/ exists n ct, In (n, ct) sets /\ In n l /\ In x ct.
Proof.
  induction sets as [|[n ct] sets IH]; intros l l' NN ND ON E x; cbn in E.
  - assert (l' = l) as -> by congruence. cbn. split; [intros I; left; tauto|intros [[I _]|(m & ct & [] & _)]; exact I].
  - cbn in ND. apply NoDup_cons_iff in ND as [ND1 ND2].
    set (m := if existsb (String.eqb n) l then (remove_first n l ++ ct)%list else l) in E.
    assert (CT : forall y, In y (n :: map fst sets) -> count_occ string_dec ct y = 0%nat) by (intros y IY; apply count_occ_not_In; intros K; exact (NN n ct y (or_introl eq_refl) K IY)).
    assert (CM : forall y, In y (n :: map fst sets) -> count_occ string_dec m y = if string_dec n y then 0%nat else count_occ string_dec l y).
    { intros y IY. unfold m. destruct (existsb (String.eqb n) l) eqn:EX.
      - rewrite count_occ_app, CT, count_remove, Nat.add_0_r by exact IY. destruct (string_dec n y) as [->|]; [|reflexivity]. specialize (ON y (or_introl eq_refl)). lia.
      - destruct (string_dec n y) as [->|]; [|reflexivity]. apply count_occ_not_In. intros K. apply existsb_name in K. congruence. }
    rewrite (IH m l'); [|intros a b y I J K; apply (NN a b y); [now right|exact J|now right]|exact ND2| |exact E].
    2: { intros y IY. rewrite CM by now right. destruct (string_dec n y); [lia|]. apply ON. now right. }
    assert (NM : ~ In n m) by (intros K; apply (count_occ_In string_dec) in K; rewrite CM in K by (now left); destruct (string_dec n n); [lia|congruence]).
    assert (MI : forall y, y <> n -> In y m <-> In y l \/ (In n l /\ In y ct)).
    { intros y NY. unfold m. destruct (existsb (String.eqb n) l) eqn:EX.
      - apply existsb_name in EX. rewrite in_app_iff. assert (R : In y (remove_first n l) <-> In y l); [|rewrite R; tauto].
        rewrite !(count_occ_In string_dec), count_remove. destruct (string_dec n y); [congruence|reflexivity].
      - assert (~ In n l) by (intros K; apply existsb_name in K; congruence). tauto. }
    assert (NC : forall y, In y ct -> y <> n) by (intros y IY ->; exact (NN n ct n (or_introl eq_refl) IY (or_introl eq_refl))).
    assert (NS : forall a b, In (a, b) sets -> a <> n) by (intros a b I ->; apply ND1; apply in_map_iff; now exists (n, b)).
    cbn. split.
    + intros [[I K]|(a & b & I & J & L)].
      * destruct (string_dec x n) as [->|NX]; [contradiction|]. apply MI in I as [I|[I I2]]; [|right; exists n, ct; split; [now left|tauto]|exact NX]. left. split; [exact I|]. intros [->|Z]; [congruence|contradiction].
      * destruct (proj1 (MI a (NS a b I)) J) as [J'|[J1 J2]]; [right; exists a, b; split; [now right|tauto]|]. exfalso. apply (NN n ct a (or_introl eq_refl) J2). right. apply in_map_iff. now exists (a, b).
    + intros [[I K]|(a & b & [E'|I] & J & L)].
      * left. split; [|tauto]. apply MI; [intros ->; apply K; now left|now left].
      * assert (a = n /\ b = ct) as [-> ->] by (split; congruence). left. split; [apply MI; [now apply NC|right; tauto]|]. intros Z. apply (NN n ct x (or_introl eq_refl) L). now right.
      * right. exists a, b. split; [exact I|]. split; [apply MI; [exact (NS a b I)|now left]|exact L].
Qed.
Lemma expand_keeps_list : forall sets l, exists l', expand sets (VList l) = Ok (VList l').
Proof. induction sets as [|[n ct] sets IH]; intros l; cbn; [now exists l|apply IH]. Qed.
Lemma prefix_neq {p q : Ascii.ascii} {s t} : p <> q -> String p s <> String q t.
Proof. intros N E. congruence. Qed.
Lemma plotting_ok sn : (forall n ct x, In (n, ct) (plotting_sets sn) -> In x ct -> ~ In x (map fst (plotting_sets sn))) /\ NoDup (map fst (plotting_sets sn)).
Proof.
  split; [|cbn [plotting_sets map fst]; repeat constructor; cbn; intuition discriminate].
  intros n ct x I J K. assert (F : exists r, x = String "P"%char r) by (cbn [plotting_sets map fst] in K; cbn in K; intuition (subst; eexists; reflexivity)).
  destruct F as [r ->]. unfold plotting_sets in I. cbn [In] in I.
  assert (FM : forall (p : string -> string -> string) qs, (forall m q, exists r', p m q = String "S"%char r' \/ p m q = String "I"%char r') -> In (String "P"%char r) (flat_map (fun m => map (p m) qs) sn) -> False).
  { intros p qs HP Z. apply in_flat_map in Z as (m & _ & Z). apply in_map_iff in Z as (q & Z & _). destruct (HP m q) as (r' & [P|P]); rewrite P in Z; discriminate Z. }
  destruct I as [I|[I|[I|[I|[I|[]]]]]]; assert (C := f_equal snd I); cbn [snd] in C; subst ct; clear I.
  - exact J.
  - cbn in J. intuition discriminate.
  - apply (FM (fun m q => "S1_" ++ m ++ "_" ++ q) ["CO_type"; "SN_type"; "mass"; "spin"; "m_disk_radiated"]); [|exact J]. intros m q. eexists. left. reflexivity.
  - apply in_app_or in J as [J|J]; [unfold interp_errors in J; cbn in J; intuition discriminate|].
    apply (FM (fun m q => "INTERP_ERROR_S1_" ++ m ++ "_" ++ q) ["mass"; "spin"; "m_disk_radiated"]); [|exact J]. intros m q. eexists. right. reflexivity.
  - exact J.
Qed.
Lemma checking_ok : (forall n ct x, In (n, ct) checking_sets -> In x ct -> ~ In x (map fst checking_sets)) /\ NoDup (map fst checking_sets).
Proof.
  split; [|cbn; repeat constructor; cbn; intuition discriminate]. intros n ct x I J K. cbn in I, K.
  assert (F : exists r, x = String "C"%char (String "H"%char r)) by (intuition (subst; eexists; reflexivity)). destruct F as [r ->].
  destruct I as [I|[I|[I|[I|[I|[]]]]]]; assert (C := f_equal snd I); cbn [snd] in C; subst ct; cbn in J; intuition discriminate.
Qed.
(** After the replacement: the plots of a step are those listed by their own names and those of the sets listed *)
Theorem C192_plots : forall sn l, (forall n, In n (map fst (plotting_sets sn)) -> (count_occ string_dec l n <= 1)%nat) ->
  exists l', expand (plotting_sets sn) (VList l) = Ok (VList l') /\
  forall x, In x l' <-> (In x l /\ ~ In x (map fst (plotting_sets sn))) \/ exists n ct, In (n, ct) (plotting_sets sn) /\ In n l /\ In x ct.
Proof.
  intros sn l O. destruct (expand_keeps_list (plotting_sets sn) l) as [l' E]. exists l'. split; [exact E|]. destruct (plotting_ok sn) as [P1 P2]. now apply expand_list.
Qed.
Theorem C192_checks : forall l, (forall n, In n (map fst checking_sets) -> (count_occ string_dec l n <= 1)%nat) ->
  exists l', expand checking_sets (VList l) = Ok (VList l') /\
  forall x, In x l' <-> (In x l /\ ~ In x (map fst checking_sets)) \/ exists n ct, In (n, ct) checking_sets /\ In n l /\ In x ct.
Proof.
  intros l O. destruct (expand_keeps_list checking_sets l) as [l' E]. exists l'. split; [exact E|]. destruct checking_ok as [P1 P2]. now apply expand_list.
Qed.
(** "A set is always replaced" is false of a set listed twice: the second is taken for a plot *)
Theorem C192_twice_refuted : ~ (forall sn l l' n, expand (plotting_sets sn) (VList l) = Ok (VList l') -> In n (map fst (plotting_sets sn)) -> ~ In n l').
Proof.
  intros H. specialize (H [] ["PLOT_AFTER_CREATE"; "PLOT_AFTER_CREATE"] ["PLOT_AFTER_CREATE"] "PLOT_AFTER_CREATE" eq_refl (or_introl eq_refl)). apply H. now left.
Qed.

(** ** The arguments of a step *)

Lemma fill_other : forall attrs cfg last sec s1 k, fill cfg last sec attrs = Ok s1 -> ~ In k attrs -> lookup s1 k = lookup sec k.
Proof.
  induction attrs as [|a attrs IH]; intros cfg last sec s1 k E N; cbn in E; [congruence|].
  assert (K : forall v ls, match lookup ls a with Some v => fill cfg last (put sec a v) attrs | None => Raise KeyError end = Ok s1 -> v = VNone -> lookup s1 k = lookup sec k).
  { intros v ls E' _. destruct (lookup ls a) as [w|]; [|discriminate]. rewrite (IH _ _ _ _ k E') by (intros I; apply N; now right). rewrite (dget_dset String.eqb_spec). destruct (String.eqb_spec k a) as [->|]; [exfalso; apply N; now left|reflexivity]. }
  destruct (lookup sec a) as [[l|t|b|]|].
  - apply (IH _ _ _ _ k E). intros I; apply N; now right.
  - destruct (lookup cfg last) as [ls|]; [exact (K VNone ls E eq_refl)|discriminate].
  - destruct (lookup cfg last) as [ls|]; [exact (K VNone ls E eq_refl)|discriminate].
  - destruct (lookup cfg last) as [ls|]; [exact (K VNone ls E eq_refl)|discriminate].
  - destruct (lookup cfg last) as [ls|]; [exact (K VNone ls E eq_refl)|discriminate].
Qed.
Definition is_list (v : option value) : bool := match v with Some (VList _) => true | _ => false end.
Lemma fill_attr : forall attrs cfg last sec s1 a, NoDup attrs -> fill cfg last sec attrs = Ok s1 -> In a attrs ->
  if is_list (lookup sec a) then lookup s1 a = lookup sec a else exists ls v, lookup cfg last = Some ls /\ lookup ls a = Some v /\ lookup s1 a = Some v.
Proof.
  induction attrs as [|b attrs IH]; intros cfg last sec s1 a ND E I; [destruct I|]. apply NoDup_cons_iff in ND as [N1 N2]. cbn in E.
  assert (K : match lookup cfg last with Some ls => match lookup ls b with Some v => fill cfg last (put sec b v) attrs | None => Raise KeyError end | None => Raise KeyError end = Ok s1 -> is_list (lookup sec b) = false ->
    if is_list (lookup sec a) then lookup s1 a = lookup sec a else exists ls v, lookup cfg last = Some ls /\ lookup ls a = Some v /\ lookup s1 a = Some v).
  { intros E' L. destruct (lookup cfg last) as [ls|] eqn:LS; [|discriminate]. destruct (lookup ls b) as [v|] eqn:LB; [|discriminate]. destruct I as [->|I].
    - rewrite L. exists ls, v. split; [reflexivity|]. split; [exact LB|]. rewrite (fill_other _ _ _ _ _ _ E' N1). apply (dget_dset_same String.eqb_spec).
    - assert (NE : a <> b) by (intros ->; contradiction). specialize (IH _ _ _ _ a N2 E' I). rewrite (dget_dset_other String.eqb_spec) in IH by exact NE. rewrite LS in IH. exact IH. }
  destruct (lookup sec b) as [[l|t|b'|]|] eqn:LB; try (now apply K).
  destruct I as [->|I]; [rewrite LB; cbn; now rewrite (fill_other _ _ _ _ _ _ E N1)|]. now apply IH.
Qed.
Definition off (setup : section) (flag : string) : bool := match lookup setup flag with Some v => negb (truthy v) | None => false end.
Lemma replace_spec (cfg : ini) (setup : section) sets key flag (sec sec' : section) : lookup cfg "pipeline setup" = Some setup -> replace_sets cfg sets key flag sec = Ok sec' ->
  (forall k, k <> key -> lookup sec' k = lookup sec k) /\
  match lookup sec key with None => lookup sec' key = None | Some v => exists v', expand sets v = Ok v' /\ lookup sec' key = Some (if off setup flag then VList [] else v') end.
Proof.
  intros S E. unfold replace_sets in E. destruct (lookup sec key) as [v|] eqn:LK; [|assert (sec' = sec) as -> by congruence; split; [reflexivity|exact LK]].
  apply bind_ok in E as (v' & E1 & E2). rewrite S in E2. assert (E3 : sec' = put sec key (match lookup setup flag with Some f => if truthy f then v' else VList [] | None => v' end)) by congruence. subst sec'.
  split; [intros k N; now apply (dget_dset_other String.eqb_spec)|]. exists v'. split; [exact E1|]. rewrite (dget_dset_same String.eqb_spec). unfold off. destruct (lookup setup flag) as [f|]; [destruct (truthy f); reflexivity|reflexivity].
Qed.
Lemma get_step sn (cfg : ini) (setup : section) step last cfg' s3 (sec : section) : lookup cfg "pipeline setup" = Some setup -> lookup cfg step = Some sec -> get_step_kwargs sn cfg step last = Ok (cfg', s3) ->
  cfg' = put cfg step s3 /\
  match lookup sec "CREATE_PLOTS" with None => lookup s3 "CREATE_PLOTS" = None | Some v => exists v', expand (plotting_sets sn) v = Ok v' /\ lookup s3 "CREATE_PLOTS" = Some (if off setup "MAKE_PLOTS" then VList [] else v') end /\
  match lookup sec "DO_CHECKS" with None => lookup s3 "DO_CHECKS" = None | Some v => exists v', expand checking_sets v = Ok v' /\ lookup s3 "DO_CHECKS" = Some (if off setup "MAKE_CHECKS" then VList [] else v') end /\
  (forall a, In a attributes -> if is_list (lookup sec a) then lookup s3 a = lookup sec a else exists ls v, lookup cfg last = Some ls /\ lookup ls a = Some v /\ lookup s3 a = Some v) /\
  (forall k, k <> "CREATE_PLOTS" -> k <> "DO_CHECKS" -> ~ In k attributes -> lookup s3 k = lookup sec k).
Proof.
  intros S L E. unfold get_step_kwargs in E. rewrite L in E. apply bind_ok in E as (s1 & E1 & E). apply bind_ok in E as (s2 & E2 & E). apply bind_ok in E as (s3' & E3 & E).
  assert (s3' = s3) as -> by congruence. assert (cfg' = put cfg step s3) as -> by congruence. clear E.
  destruct (replace_spec _ _ _ _ _ _ _ S E2) as [A1 A2]. destruct (replace_spec _ _ _ _ _ _ _ S E3) as [B1 B2].
  assert (ND : NoDup attributes) by (unfold attributes; repeat constructor; cbn; intuition discriminate).
  rewrite (fill_other _ _ _ _ _ "CREATE_PLOTS" E1) in A2 by (cbn; intuition discriminate).
  rewrite (A1 "DO_CHECKS") in B2 by discriminate. rewrite (fill_other _ _ _ _ _ "DO_CHECKS" E1) in B2 by (cbn; intuition discriminate).
  split; [reflexivity|]. split; [rewrite (B1 "CREATE_PLOTS") by discriminate; exact A2|]. split; [exact B2|]. split.
  - intros a I. assert (NA : a <> "CREATE_PLOTS" /\ a <> "DO_CHECKS") by (cbn in I; intuition (subst; discriminate)). rewrite B1, A1 by tauto. exact (fill_attr _ _ _ _ _ a ND E1 I).
  - intros k N1 N2 N3. rewrite B1, A1 by assumption. exact (fill_other _ _ _ _ _ k E1 N3).
Qed.
(** The attributes of a step are its own lists, or else those of the last step that was switched on; all other entries but plots and checks are left as they are *)
Theorem C192_attributes : forall sn (cfg : ini) (setup : section) step last cfg' kw (sec : section), lookup cfg "pipeline setup" = Some setup -> lookup cfg step = Some sec -> get_step_kwargs sn cfg step last = Ok (cfg', kw) ->
  (forall a, In a ["GRID_TYPES"; "METALLICITIES"; "GRID_SLICES"; "COMPRESSIONS"] ->
     match lookup sec a with Some (VList l) => lookup kw a = Some (VList l) | _ => exists ls v, lookup cfg last = Some ls /\ lookup ls a = Some v /\ lookup kw a = Some v end) /\
  (forall k, ~ In k ["GRID_TYPES"; "METALLICITIES"; "GRID_SLICES"; "COMPRESSIONS"; "CREATE_PLOTS"; "DO_CHECKS"] -> lookup kw k = lookup sec k) /\
  lookup cfg' step = Some kw /\ forall s, s <> step -> lookup cfg' s = lookup cfg s.
Proof.
  intros sn cfg setup step last cfg' kw sec S L E. destruct (get_step _ _ _ _ _ _ _ _ S L E) as (-> & _ & _ & A & O). split; [|split; [|split]].
  - intros a I. specialize (A a I). destruct (lookup sec a) as [[l|t|b|]|]; exact A.
  - intros k N. apply O; [intros ->; apply N; cbn; tauto|intros ->; apply N; cbn; tauto|intros K; apply N; cbn in *; tauto].
  - apply (dget_dset_same String.eqb_spec).
  - intros s N. now apply (dget_dset_other String.eqb_spec).
Qed.
(** Whether a job is made for the plots or checks *)
Lemma entry_wanted (c : ini) (setup : section) sets key flag s (sec kw : section) : lookup c s = Some sec -> sets <> [] -> (forall n ct x, In (n, ct) sets -> In x ct -> ~ In x (map fst sets)) -> NoDup (map fst sets) ->
  (forall l n, lookup sec key = Some (VList l) -> In n (map fst sets) -> (count_occ string_dec l n <= 1)%nat) ->
  match lookup sec key with None => lookup kw key = None | Some v => exists v', expand sets v = Ok v' /\ lookup kw key = Some (if off setup flag then VList [] else v') end ->
  (has_entry kw key = true <-> wanted c setup sets key flag s) /\ (wanted c setup sets key flag s -> has_entry sec key = true).
Proof.
  intros L NE P1 P2 T E. split.
  - unfold has_entry, wanted. destruct (lookup sec key) as [v|] eqn:LK.
    + destruct E as (v' & X & ->). destruct v as [l|t|b|].
      * destruct (expand_keeps_list sets l) as [l' X']. assert (v' = VList l') as -> by congruence. assert (M := expand_list sets l l' P1 P2 (fun n => T l n eq_refl) X').
        unfold off. destruct (lookup setup flag) as [f|] eqn:F; [destruct (truthy f) eqn:TF|]; cbn [negb].
        -- split.
           ++ intros H. destruct l' as [|x l']; [discriminate|]. exists sec, l. split; [exact L|]. split; [exact LK|]. split; [intros v' V; congruence|]. exists x. apply M. now left.
           ++ intros (sec' & l0 & L' & K & _ & x & X2). assert (sec' = sec) as -> by congruence. assert (l0 = l) as -> by congruence. apply M in X2. destruct l'; [destruct X2|reflexivity].
        -- split; [discriminate|]. intros (sec' & l0 & _ & _ & K & _). specialize (K f eq_refl). congruence.
        -- split.
           ++ intros H. destruct l' as [|x l']; [discriminate|]. exists sec, l. split; [exact L|]. split; [exact LK|]. split; [intros v' V; congruence|]. exists x. apply M. now left.
           ++ intros (sec' & l0 & L' & K & _ & x & X2). assert (sec' = sec) as -> by congruence. assert (l0 = l) as -> by congruence. apply M in X2. destruct l'; [destruct X2|reflexivity].
      * assert (V : v' = VText t). { clear - X. induction sets as [|[n ct] sets IH]; cbn in X; [congruence|]. destruct (within n t); [discriminate|]. now apply IH. }
        subst v'. split; [destruct (off setup flag); discriminate|]. intros (sec' & l0 & L' & K & _). assert (sec' = sec) as -> by congruence. congruence.
      * destruct sets as [|[n ct] sets]; [congruence|]. cbn in X. discriminate.
      * destruct sets as [|[n ct] sets]; [congruence|]. cbn in X. discriminate.
    + rewrite E. split; [discriminate|]. intros (sec' & l0 & L' & K & _). assert (sec' = sec) as -> by congruence. congruence.
  - intros (sec' & l0 & L' & K & _ & x & X). assert (sec' = sec) as -> by congruence. unfold has_entry. rewrite K. destruct l0 as [|y l0]; [|reflexivity]. destruct X as [[[] _]|(n & ct & _ & [] & _)].
Qed.

(** ** The lines of the script *)

Lemma needs_sub s e : In s steps -> In e ["_plots"; "_checks"] -> needs_cleanup (s ++ e) false = true.
Proof. intros I J. unfold steps in I. cbn in I, J. intuition (subst; reflexivity). Qed.
Lemma needs_main s : In s steps -> needs_cleanup s false = true <-> In s ["step_2"; "step_F"; "rerun"].
Proof. intros I. unfold steps in I. repeat (destruct I as [<-|I]; [split; intros K; [vm_compute in K; first [discriminate K | cbn; tauto] | cbn in K; first [reflexivity | exfalso; intuition discriminate]]|]). destruct I. Qed.
Lemma nonempty_step s : In s steps -> s <> "".
Proof. intros I ->. cbn in I. intuition discriminate. Qed.
Lemma nonempty_sub s e : In s steps -> s ++ e <> "".
Proof. intros I E. unfold steps in I. cbn in I. intuition (subst; discriminate). Qed.
Definition sub_lines (b : bool) (job last : string) : list line := if b then [submit job last; (job ++ "_cleanup", AfterOk job)] else [].
Definition main_lines (b : bool) (s last : string) : list line := if b then submit s last :: (if needs_cleanup s false then [(s ++ "_cleanup", AfterOk s)] else []) else [].
Lemma submit_job job x : job <> "" -> submit x job = (x, AfterOk job).
Proof. intros N. unfold submit. now destruct (String.eqb_spec job ""). Qed.

Lemma sub_step_inv make (setup : section) step st key e st' (sec : section) : In step steps -> In e ["_plots"; "_checks"] -> lookup (cfg st) step = Some sec -> sub_step make setup step st (key, e) = Ok st' ->
  lines st' = (lines st ++ sub_lines (has_entry sec key) (step ++ e) (last_step st))%list /\ cfg st' = cfg st /\ last_step st' = last_step st /\ kwargs st' = kwargs st.
Proof.
  intros IS IE L E. unfold sub_step, has_substep in E. cbn [fst snd] in E. rewrite L in E. cbn [rbind existsb] in E. rewrite orb_false_r in E. unfold sub_lines. destruct (has_entry sec key).
  - destruct (kwargs st) as [kw|] eqn:KW; [|discriminate]. apply bind_ok in E as (u & _ & E). rewrite (needs_sub step e IS IE) in E. rewrite (submit_job (step ++ e)) in E by now apply nonempty_sub.
    match type of E with Ok ?r = _ => assert (R : st' = r) by congruence end. subst st'. cbn. repeat split; congruence.
  - assert (st' = st) as -> by congruence. rewrite app_nil_r. repeat split.
Qed.
Lemma one_step_inv sn make (c : ini) (setup : section) st a st' : In a actions -> tidy sn c -> lookup (cfg st) "pipeline setup" = Some setup -> lookup (cfg st) (snd a) = lookup c (snd a) -> one_step sn make setup st a = Ok st' ->
  exists p q, lines st' = (lines st ++ main_lines (on setup (snd a)) (snd a) (last_step st) ++ sub_lines p (snd a ++ "_plots") (last_step st') ++ sub_lines q (snd a ++ "_checks") (last_step st'))%list /\
  last_step st' = (if on setup (snd a) then snd a else last_step st) /\ (forall k, k <> snd a -> lookup (cfg st') k = lookup (cfg st) k) /\ lookup c (snd a) <> None /\
  (p = true <-> wanted c setup (plotting_sets sn) "CREATE_PLOTS" "MAKE_PLOTS" (snd a)) /\ (q = true <-> wanted c setup checking_sets "DO_CHECKS" "MAKE_CHECKS" (snd a)).
Proof.
  intros IA TD S LC E. assert (IS : In (snd a) steps) by (cbn in IA; intuition (subst; cbn; tauto)).
  assert (AC : fst a = action_of (snd a)) by (cbn in IA; intuition (subst; reflexivity)). destruct a as [act step]. cbn [fst snd] in *. subst act.
  unfold one_step in E. cbn [fst snd] in E. fold (on setup step) in E. apply bind_ok in E as (b & E1 & E). apply bind_ok in E as (st1 & E2 & E). apply bind_ok in E as (st2 & E3 & E).
  cbn [sub_steps fold_result] in E. apply bind_ok in E as (st3 & E4 & E). apply bind_ok in E as (st4 & E5 & E). assert (st4 = st') as -> by congruence. clear E.
  destruct (lookup c step) as [sec|] eqn:LS.
  2: { exfalso. destruct (on setup step); [assert (b = true) as -> by congruence; unfold get_step_kwargs in E2; rewrite LC in E2; discriminate E2|]. unfold has_substep in E1. rewrite LC in E1. discriminate E1. }
  assert (T := TD step sec). destruct (plotting_ok sn) as [P1 P2]. destruct checking_ok as [Q1 Q2].
  assert (HB : exists sec1, lookup (cfg st1) step = Some sec1 /\ lines st1 = lines st /\ last_step st1 = last_step st /\ (forall k, k <> step -> lookup (cfg st1) k = lookup (cfg st) k) /\
    (has_entry sec1 "CREATE_PLOTS" = true <-> wanted c setup (plotting_sets sn) "CREATE_PLOTS" "MAKE_PLOTS" step) /\ (has_entry sec1 "DO_CHECKS" = true <-> wanted c setup checking_sets "DO_CHECKS" "MAKE_CHECKS" step)).
  { destruct b.
    - apply bind_ok in E2 as ([cfg' s3] & G & E2). cbn [fst snd] in E2. match type of E2 with Ok ?r = _ => assert (R : st1 = r) by congruence end. subst st1. cbn.
      destruct (get_step _ _ _ _ _ _ _ _ S LC G) as (-> & GP & GC & _ & _). exists s3. split; [apply (dget_dset_same String.eqb_spec)|]. split; [reflexivity|]. split; [reflexivity|].
      split; [intros k N; now apply (dget_dset_other String.eqb_spec)|]. split.
      + apply (entry_wanted c setup (plotting_sets sn) "CREATE_PLOTS" "MAKE_PLOTS" step sec s3 LS); [discriminate|exact P1|exact P2|intros l n A B; exact (proj1 (T l n IS LS) A B)|exact GP].
      + apply (entry_wanted c setup checking_sets "DO_CHECKS" "MAKE_CHECKS" step sec s3 LS); [discriminate|exact Q1|exact Q2|intros l n A B; exact (proj2 (T l n IS LS) A B)|exact GC].
    - assert (st1 = st) as -> by congruence. destruct (on setup step); [discriminate|]. unfold has_substep in E1. rewrite LC in E1. cbn [map fst sub_steps existsb] in E1.
      assert (HE : has_entry sec "CREATE_PLOTS" || (has_entry sec "DO_CHECKS" || false) = false) by congruence. apply orb_false_iff in HE as [H1 H2]. rewrite orb_false_r in H2.
      exists sec. split; [exact LC|]. repeat split; try reflexivity.
      + rewrite H1. discriminate.
      + intros (sec' & l0 & L' & K & _ & x & X). assert (sec' = sec) as -> by congruence. unfold has_entry in *. rewrite K in *. destruct l0; [|discriminate]. destruct X as [[[] _]|(n & ct & _ & [] & _)].
      + rewrite H2. discriminate.
      + intros (sec' & l0 & L' & K & _ & x & X). assert (sec' = sec) as -> by congruence. unfold has_entry in *. rewrite K in *. destruct l0; [|discriminate]. destruct X as [[[] _]|(n & ct & _ & [] & _)]. }
  destruct HB as (sec1 & L1 & LI1 & LA1 & O1 & W1 & W2).
  assert (H2 : cfg st2 = cfg st1 /\ last_step st2 = (if on setup step then step else last_step st) /\ lines st2 = (lines st ++ main_lines (on setup step) step (last_step st))%list).
  { unfold main_lines. destruct (on setup step).
    - destruct (kwargs st1) as [kw|]; [|discriminate]. apply bind_ok in E3 as (u & _ & E3). match type of E3 with Ok ?r = _ => assert (R : st2 = r) by congruence end. subst st2. cbn [cfg last_step lines].
      split; [reflexivity|]. split; [reflexivity|]. rewrite LI1, LA1. rewrite (submit_job step) by now apply nonempty_step. reflexivity.
    - assert (st2 = st1) as -> by congruence. rewrite app_nil_r. repeat split; assumption. }
  destruct H2 as (C2 & LA2 & LI2). destruct (sub_step_inv make setup step st2 "CREATE_PLOTS" "_plots" st3 sec1) as (LI3 & C3 & LA3 & _); [exact IS|cbn; tauto|congruence|exact E4|].
  destruct (sub_step_inv make setup step st3 "DO_CHECKS" "_checks" st' sec1) as (LI4 & C4 & LA4 & _); [exact IS|cbn; tauto|congruence|exact E5|].
  exists (has_entry sec1 "CREATE_PLOTS"), (has_entry sec1 "DO_CHECKS"). split; [rewrite LI4, LI3, LI2, LA4, LA3, !app_assoc; reflexivity|]. split; [congruence|]. split; [intros k N; rewrite C4, C3, C2; now apply O1|].
  split; [discriminate|]. split; assumption.
Qed.

(** ** C192 *)

Definition lastn (setup : section) (l : list string) : string := match rev (filter (on setup) l) with [] => "" | s :: _ => s end.
Lemma lastn_snoc setup l s : lastn setup (l ++ [s])%list = if on setup s then s else lastn setup l.
Proof. unfold lastn. rewrite filter_app. cbn. destruct (on setup s); [now rewrite rev_app_distr|now rewrite app_nil_r]. Qed.
Lemma submit_last setup l j : (forall s, In s l -> In s steps) -> submit j (lastn setup l) = (j, after (filter (on setup) l)).
Proof.
  intros I. unfold submit, lastn, after. destruct (rev (filter (on setup) l)) as [|s r] eqn:R; [reflexivity|]. destruct (String.eqb_spec s "") as [->|]; [|reflexivity]. exfalso.
  apply (nonempty_step ""); [|reflexivity]. apply I. assert (K : In "" (rev (filter (on setup) l))) by (rewrite R; now left). apply in_rev, filter_In in K. tauto.
Qed.
Lemma block_jobs sn c setup l1 s p q j w : In s steps -> (forall x, In x l1 -> In x steps) ->
  (p = true <-> wanted c setup (plotting_sets sn) "CREATE_PLOTS" "MAKE_PLOTS" s) -> (q = true <-> wanted c setup checking_sets "DO_CHECKS" "MAKE_CHECKS" s) ->
  In (j, w) (main_lines (on setup s) s (lastn setup l1) ++ sub_lines p (s ++ "_plots") (lastn setup (l1 ++ [s])) ++ sub_lines q (s ++ "_checks") (lastn setup (l1 ++ [s])))%list <->
  job_of_step sn c setup l1 s j w.
Proof.
  intros IS IL HP HQ. assert (IL' : forall x, In x (l1 ++ [s])%list -> In x steps) by (intros x I; apply in_app_or in I as [I|[<-|[]]]; auto).
  assert (SUB : forall b e, In (j, w) (sub_lines b (s ++ e) (lastn setup (l1 ++ [s])%list)) <-> b = true /\ ((j = s ++ e /\ w = after (filter (on setup) (l1 ++ [s])%list)) \/ (j = (s ++ e) ++ "_cleanup" /\ w = AfterOk (s ++ e)))).
  { intros b e. unfold sub_lines. destruct b; [|split; [intros []|intros [K _]; discriminate]]. rewrite (submit_last _ _ _ IL'). cbn [In]. split.
    - intros [E|[E|[]]]; (split; [reflexivity|]); [left|right]; split; congruence.
    - intros [_ [[-> ->]|[-> ->]]]; [now left|right; now left]. }
  assert (MAIN : In (j, w) (main_lines (on setup s) s (lastn setup l1)) <-> (j = s /\ on setup s = true /\ w = after (filter (on setup) l1)) \/ (j = s ++ "_cleanup" /\ on setup s = true /\ In s ["step_2"; "step_F"; "rerun"] /\ w = AfterOk s)).
  { unfold main_lines. destruct (on setup s); [|split; [intros []|intros [(_ & K & _)|(_ & K & _)]; discriminate]]. rewrite (submit_last _ _ _ IL). rewrite <- (needs_main s IS). cbn [In]. split.
    - intros [E|E]; [left; split; [congruence|split; [reflexivity|congruence]]|]. destruct (needs_cleanup s false); [|destruct E]. destruct E as [E|[]]. right. split; [congruence|]. split; [reflexivity|]. split; [reflexivity|congruence].
    - intros [(-> & _ & ->)|(-> & _ & -> & ->)]; [now left|right; now left]. }
  rewrite !in_app_iff, MAIN, !SUB, HP, HQ. unfold job_of_step. split.
  - intros [[M|M]|[[W M]|[W M]]]; [now left|right; now left| |]; right; right; [exists "_plots"|exists "_checks"]; (split; [|exact M]); [left|right]; (split; [reflexivity|exact W]).
  - intros [M|[M|(e & [[-> W]|[-> W]] & M)]]; tauto.
Qed.
Definition ordered (L : list line) : Prop := forall l1 j d l2, L = (l1 ++ (j, AfterOk d) :: l2)%list -> In d (map fst l1).
Lemma ordered_snoc L j w : ordered L -> (forall d, w = AfterOk d -> In d (map fst L)) -> ordered (L ++ [(j, w)])%list.
Proof.
  intros O H l1 j' d l2 E. destruct (rev l2) as [|x r] eqn:R.
  - assert (l2 = []) as -> by (rewrite <- (rev_involutive l2), R; reflexivity). apply app_inj_tail in E as [-> E]. apply H. congruence.
  - assert (L2 : l2 = (rev r ++ [x])%list) by (rewrite <- (rev_involutive l2), R; reflexivity). subst l2. rewrite app_comm_cons, app_assoc in E. apply app_inj_tail in E as [-> _]. exact (O l1 j' d (rev r) eq_refl).
Qed.
Lemma submit_dep j last d : snd (submit j last) = AfterOk d -> d = last /\ last <> "".
Proof. unfold submit. destruct (String.eqb_spec last "") as [->|N]; cbn; [discriminate|]. intros E. split; [congruence|exact N]. Qed.
Lemma ordered_sub L b job last : ordered L -> (last = "" \/ In last (map fst L)) -> ordered (L ++ sub_lines b job last)%list.
Proof.
  intros O H. unfold sub_lines. destruct b; [|now rewrite app_nil_r]. change [submit job last; (job ++ "_cleanup", AfterOk job)] with ([submit job last] ++ [((job ++ "_cleanup")%string, AfterOk job)])%list. rewrite app_assoc.
  apply ordered_snoc; [apply ordered_snoc; [exact O|]|].
  - intros d E. destruct (submit_dep job last d) as [-> N]; [exact E|]. tauto.
  - intros d E. assert (d = job) as -> by congruence. rewrite map_app. apply in_or_app. right. now left.
Qed.
Lemma ordered_main L b s last : ordered L -> (last = "" \/ In last (map fst L)) -> ordered (L ++ main_lines b s last)%list.
Proof.
  intros O H. unfold main_lines. destruct b; [|now rewrite app_nil_r]. assert (O1 : ordered (L ++ [submit s last])%list).
  { apply ordered_snoc; [exact O|]. intros d E. destruct (submit_dep s last d) as [-> N]; [exact E|]. tauto. }
  destruct (needs_cleanup s false); [|exact O1]. change (submit s last :: [(s ++ "_cleanup", AfterOk s)]) with ([submit s last] ++ [((s ++ "_cleanup")%string, AfterOk s)])%list. rewrite app_assoc.
  apply ordered_snoc; [exact O1|]. intros d E. assert (d = s) as -> by congruence. rewrite map_app. apply in_or_app. right. now left.
Qed.
(** All names of jobs a step may have *)
Definition names (s : string) : list string := [s; s ++ "_cleanup"; s ++ "_plots"; (s ++ "_plots") ++ "_cleanup"; s ++ "_checks"; (s ++ "_checks") ++ "_cleanup"].
Lemma names_nodup : NoDup ("pipeline_cleanup" :: flat_map names steps).
Proof.
  assert (E : nodup string_dec ("pipeline_cleanup" :: flat_map names steps) = "pipeline_cleanup" :: flat_map names steps) by (vm_compute; reflexivity). rewrite <- E. apply NoDup_nodup.
Qed.
Lemma block_names s b p q last last' : In s steps ->
  let L := map fst (main_lines b s last ++ sub_lines p (s ++ "_plots") last' ++ sub_lines q (s ++ "_checks") last')%list in NoDup L /\ forall n, In n L -> In n (names s).
Proof.
  intros I. cbv zeta. split.
  - assert (ND : forall l, nodup string_dec l = l -> NoDup l) by (intros l <-; apply NoDup_nodup). apply ND.
    unfold steps in I. cbn [In] in I. destruct I as [<-|[<-|[<-|[<-|[<-|[<-|[<-|[]]]]]]]]; destruct b, p, q; vm_compute; reflexivity.
  - intros n J. rewrite !map_app, !in_app_iff in J. unfold main_lines, sub_lines, names in *. cbn [In].
    destruct J as [J|[J|J]]; [destruct b; [destruct (needs_cleanup s false)|]|destruct p|destruct q]; cbn in J; intuition.
Qed.
Lemma fold_inv sn make (c : ini) (setup : section) : tidy sn c -> forall acts l1 st st', (forall a, In a acts -> In a actions) -> steps = (l1 ++ map snd acts)%list ->
  lookup (cfg st) "pipeline setup" = Some setup -> (forall s, In s (map snd acts) -> lookup (cfg st) s = lookup c s) -> last_step st = lastn setup l1 ->
  (lastn setup l1 = "" \/ In (lastn setup l1) (map fst (lines st))) -> ordered (lines st) -> NoDup (map fst (lines st)) -> (forall n, In n (map fst (lines st)) -> In n (flat_map names l1)) ->
  fold_result (one_step sn make setup) acts st = Ok st' ->
  (forall s, In s (map snd acts) -> lookup c s <> None) /\ ordered (lines st') /\ NoDup (map fst (lines st')) /\ (forall n, In n (map fst (lines st')) -> In n (flat_map names steps)) /\
  (forall j w, In (j, w) (lines st') <-> In (j, w) (lines st) \/ exists l2 s l3, map snd acts = (l2 ++ s :: l3)%list /\ job_of_step sn c setup (l1 ++ l2)%list s j w).
Proof.
  intros TD. induction acts as [|a acts IH]; intros l1 st st' IA ST S LC LA LL O ND NN E.
  - cbn in E. assert (st' = st) as -> by congruence. cbn in ST. rewrite app_nil_r in ST. split; [intros s []|]. split; [exact O|]. split; [exact ND|]. split; [rewrite ST; exact NN|].
    intros j w. split; [now left|]. intros [I|(l2 & s & l3 & K & _)]; [exact I|]. destruct l2; discriminate K.
  - cbn [fold_result] in E. apply bind_ok in E as (st1 & E1 & E). cbn [map] in ST.
    assert (IS : In (snd a) steps) by (rewrite ST; apply in_or_app; right; now left). assert (IL : forall x, In x l1 -> In x steps) by (intros x I; rewrite ST; apply in_or_app; now left).
    assert (NS : NoDup (l1 ++ snd a :: map snd acts)%list) by (rewrite <- ST; unfold steps; repeat constructor; cbn; intuition discriminate).
    destruct (one_step_inv sn make c setup st a st1 (IA a (or_introl eq_refl)) TD S (LC (snd a) (or_introl eq_refl)) E1) as (p & q & LI & LA1 & OT & LN & WP & WQ).
    assert (LA' : last_step st1 = lastn setup (l1 ++ [snd a])%list) by (rewrite lastn_snoc, LA1, LA; reflexivity). rewrite LA' in LI. rewrite LA in LI.
    destruct (block_names (snd a) (on setup (snd a)) p q (lastn setup l1) (lastn setup (l1 ++ [snd a])%list) IS) as [BN1 BN2].
    assert (LAST : lastn setup (l1 ++ [snd a])%list = "" \/ In (lastn setup (l1 ++ [snd a])%list) (map fst (lines st ++ main_lines (on setup (snd a)) (snd a) (lastn setup l1))%list)).
    { rewrite lastn_snoc, map_app, in_app_iff. unfold main_lines. destruct (on setup (snd a)); [right; right; now left|tauto]. }
    destruct (IH (l1 ++ [snd a])%list st1 st') as (R1 & R2 & R3 & R4 & R5).
    + intros x I. apply IA. now right.
    + rewrite <- app_assoc. exact ST.
    + rewrite OT; [exact S|]. intros K. rewrite <- K in IS. cbn in IS. intuition discriminate.
    + intros s I. rewrite OT; [apply LC; now right|]. intros ->. apply NoDup_remove_2 in NS. apply NS. apply in_or_app. now right.
    + exact LA'.
    + rewrite LI, app_assoc, map_app, in_app_iff. tauto.
    + rewrite LI, !app_assoc. apply ordered_sub; [apply ordered_sub; [apply ordered_main; [exact O|exact LL]|exact LAST]|]. destruct LAST as [LAST|LAST]; [now left|right]. rewrite map_app. apply in_or_app. now left.
    + rewrite LI, map_app. assert (NF := names_nodup). apply NoDup_cons_iff in NF as [_ NF]. rewrite ST, flat_map_app in NF. cbn [flat_map] in NF.
      assert (DJ : forall x, In x (flat_map names l1) -> ~ In x (names (snd a))).
      { intros x I J. clear - NF I J. induction (flat_map names l1) as [|y l IHl]; [destruct I|]. rewrite <- app_comm_cons in NF. apply NoDup_cons_iff in NF as [N1 N2]. destruct I as [->|I]; [|now apply IHl]. apply N1. apply in_or_app. right. apply in_or_app. now left. }
      assert (AP : forall A (x y : list A), NoDup x -> NoDup y -> (forall z, In z x -> ~ In z y) -> NoDup (x ++ y)%list).
      { intros A x y NX NY D. induction NX as [|z x N1 N2 IHx]; [exact NY|]. cbn. constructor; [|apply IHx; intros u I; apply D; now right]. rewrite in_app_iff. intros [K|K]; [contradiction|]. exact (D z (or_introl eq_refl) K). }
      apply AP; [exact ND|exact BN1|]. intros z I J. exact (DJ z (NN z I) (BN2 z J)).
    + intros n. rewrite LI, map_app, in_app_iff, flat_map_app, in_app_iff. cbn [flat_map]. rewrite app_nil_r. intros [I|I]; [left; now apply NN|right; now apply BN2].
    + exact E.
    + split; [intros s [<-|I]; [exact LN|now apply R1]|]. split; [exact R2|]. split; [exact R3|]. split; [exact R4|]. intros j w. rewrite R5, LI, in_app_iff.
      rewrite (block_jobs sn c setup l1 (snd a) p q j w IS IL WP WQ). split.
      * intros [[I|B]|(l2 & s & l3 & K & B)]; [now left|right; exists [], (snd a), (map snd acts); rewrite app_nil_r; now split|].
        right. exists (snd a :: l2), s, l3. cbn. rewrite K. split; [reflexivity|]. rewrite <- app_assoc in B. exact B.
      * intros [I|(l2 & s & l3 & K & B)]; [left; now left|]. destruct l2 as [|x l2]; cbn in K.
        -- assert (s = snd a) as -> by congruence. rewrite app_nil_r in B. left. now right.
        -- assert (x = snd a) as -> by congruence. right. exists l2, s, l3. split; [congruence|]. rewrite <- app_assoc. exact B.
Qed.
(** The jobs of the script, with what they wait for *)
Theorem C192 : forall sn make c ls account setup, script sn make c = Ok ls -> lookup c "account" = Some account -> lookup c "pipeline setup" = Some setup -> tidy sn c ->
  (forall s, In s steps -> lookup c s <> None) /\
  (forall j w, j <> "pipeline_cleanup" -> In (j, w) ls <-> exists l1 s l2, steps = (l1 ++ s :: l2)%list /\ job_of_step sn c setup l1 s j w) /\
  (forall l1 j d l2, ls = (l1 ++ (j, AfterOk d) :: l2)%list -> In d (map fst l1)) /\ NoDup (map fst ls) /\
  (forall w, In ("pipeline_cleanup", w) ls -> exists l, ls = (l ++ [("pipeline_cleanup", w)])%list /\ w = AfterAny (map fst l)).
Proof.
  intros sn make c ls account setup E LA LS TD. unfold script in E. rewrite LA, LS in E. apply bind_ok in E as (st & F & E).
  destruct (fold_inv sn make c setup TD actions [] {| cfg := c; lines := []; last_step := ""; kwargs := None |} st) as (R1 & R2 & R3 & R4 & R5);
    [intros a I; exact I|reflexivity|exact LS|reflexivity|reflexivity|now left|intros l1 j d l2 K; destruct l1; discriminate K|constructor|intros n []|exact F|].
  assert (JOBS : forall j w, In (j, w) (lines st) <-> exists l1 s l2, steps = (l1 ++ s :: l2)%list /\ job_of_step sn c setup l1 s j w).
  { intros j w. rewrite R5. cbn [lines app]. change (map snd actions) with steps. split; [intros [[]|H]; exact H|now right]. }
  assert (NP : ~ In "pipeline_cleanup" (map fst (lines st))) by (intros K; apply R4 in K; assert (N := names_nodup); apply NoDup_cons_iff in N as [N _]; contradiction).
  split; [exact R1|]. destruct (kwargs st) as [kw|]; [|discriminate].
  destruct (needs_cleanup "pipeline" (given_group (merged (merged kw setup) account))).
  - assert (ls = lines st ++ [("pipeline_cleanup", AfterAny (map fst (lines st)))])%list as -> by congruence. split; [|split; [|split]].
    + intros j w N. rewrite in_app_iff, <- JOBS. cbn [In]. split; [intros [I|[K|[]]]; [exact I|congruence]|now left].
    + apply ordered_snoc; [exact R2|]. intros d K. discriminate.
    + rewrite map_app. cbn. apply (Permutation_NoDup (Permutation_cons_append _ _)). now constructor.
    + intros w I. exists (lines st). rewrite in_app_iff in I. destruct I as [I|[I|[]]]; [exfalso; apply NP; apply in_map_iff; now exists ("pipeline_cleanup", w)|]. assert (w = AfterAny (map fst (lines st))) as -> by congruence. now split.
  - assert (ls = lines st) as -> by (rewrite app_nil_r in E; congruence). split; [intros j w _; apply JOBS|]. split; [exact R2|]. split; [exact R3|].
    intros w I. exfalso. apply NP. apply in_map_iff. now exists ("pipeline_cleanup", w).
Qed.
(** All seven sections must be there, even those of steps switched off *)
Theorem C192_sections : forall sn make c s, In s steps -> lookup c s = None -> tidy sn c -> forall ls, script sn make c <> Ok ls.
Proof.
  intros sn make c s I L TD ls E. destruct (lookup c "account") as [account|] eqn:A; [|unfold script in E; rewrite A in E; discriminate]. destruct (lookup c "pipeline setup") as [setup|] eqn:S; [|unfold script in E; rewrite A, S in E; discriminate].
  destruct (C192 sn make c ls account setup E A S TD) as (K & _). exact (K s I L).
Qed.
(** With nothing to do, the end is an error about a variable *)
Theorem C192_nothing : forall sn make c account setup, lookup c "account" = Some account -> lookup c "pipeline setup" = Some setup ->
  (forall s, In s steps -> on setup s = false /\ exists sec, lookup c s = Some sec /\ (forall l k, In k ["CREATE_PLOTS"; "DO_CHECKS"] -> lookup sec k = Some (VList l) -> l = [])) ->
  script sn make c = Raise (OtherError "UnboundLocalError").
Proof.
  intros sn make c account setup A S H. unfold script. rewrite A, S. remember {| cfg := c; lines := []; last_step := ""; kwargs := None |} as st eqn:ST. assert (CST : cfg st = c) by now rewrite ST.
  assert (ONE : forall a, In a actions -> one_step sn make setup st a = Ok st).
  { intros a I. assert (IS : In (snd a) steps) by (cbn in I; intuition (subst; cbn; tauto)). destruct (H (snd a) IS) as (OFF & sec & L & NL).
    assert (AC : fst a = action_of (snd a)) by (cbn in I; intuition (subst; reflexivity)). destruct a as [act step]. cbn [fst snd] in *. subst act.
    assert (NE : forall k, In k ["CREATE_PLOTS"; "DO_CHECKS"] -> has_entry sec k = false).
    { intros k K. unfold has_entry. destruct (lookup sec k) as [[l|t|b|]|] eqn:E; try reflexivity. now rewrite (NL l k K E). }
    assert (HS : forall ks, has_substep (cfg st) step ks = Ok (existsb (has_entry sec) ks)) by (intros ks; unfold has_substep; rewrite CST; now rewrite L).
    unfold one_step. cbn [fst snd]. fold (on setup step). rewrite OFF, HS. cbn [map fst sub_steps existsb rbind]. rewrite (NE "CREATE_PLOTS"), (NE "DO_CHECKS") by (cbn; tauto). cbn [orb rbind fold_result].
    unfold sub_steps. cbn [fold_result]. unfold sub_step at 1. cbn [fst snd]. rewrite !HS. cbn [existsb rbind]. rewrite (NE "CREATE_PLOTS") by (cbn; tauto). cbn [orb rbind]. unfold sub_step. cbn [fst snd]. rewrite !HS. cbn [existsb rbind]. rewrite (NE "DO_CHECKS") by (cbn; tauto). reflexivity. }
  assert (FOLD : forall acts, (forall a, In a acts -> In a actions) -> fold_result (one_step sn make setup) acts st = Ok st).
  { induction acts as [|a acts IH]; intros I; [reflexivity|]. cbn [fold_result]. rewrite (ONE a (I a (or_introl eq_refl))). cbn [rbind]. apply IH. intros x J. apply I. now right. }
  rewrite (FOLD actions (fun a I => I)). cbn [rbind]. rewrite ST. reflexivity.
Qed.

(** ** A concrete pipeline: steps 2 and 4 are switched on, with plots after steps 1 and 2 *)
Definition lists : section := [("GRID_TYPES", VList ["HMS-HMS"]); ("METALLICITIES", VList ["1e+00_Zsun"]); ("GRID_SLICES", VList ["grid_0"]); ("COMPRESSIONS", VList ["LITE"])].
Definition example_ini : ini :=
  [("account", [("GROUP", VText "astro")]); ("pipeline setup", [("COMBINE_GRID_SLICES", VBool true); ("TRAIN_INTERPOLATORS", VBool true)]);
   ("step_1", (lists ++ [("CREATE_PLOTS", VList ["termination_flag_1"])])%list); ("step_2", (lists ++ [("CREATE_PLOTS", VList ["PLOT_AFTER_COMBINE"]); ("DO_CHECKS", VList ["CHECK_AFTER_CREATE"])])%list);
   ("step_3", []); ("step_4", []); ("step_5", []); ("step_F", []); ("rerun", [])].
Example script_case : script [] (fun _ _ => Ok tt) example_ini =
  Ok [("step_1_plots", Nothing); ("step_1_plots_cleanup", AfterOk "step_1_plots"); ("step_2", Nothing); ("step_2_cleanup", AfterOk "step_2");
      ("step_2_plots", AfterOk "step_2"); ("step_2_plots_cleanup", AfterOk "step_2_plots"); ("step_4", AfterOk "step_2");
      ("pipeline_cleanup", AfterAny ["step_1_plots"; "step_1_plots_cleanup"; "step_2"; "step_2_cleanup"; "step_2_plots"; "step_2_plots_cleanup"; "step_4"])].
Proof. vm_compute. reflexivity. Qed.
Example tidy_case : tidy [] example_ini.
Proof.
  intros s sec l n I L.
  assert (K : forall k, In k ["CREATE_PLOTS"; "DO_CHECKS"] -> lookup sec k = Some (VList l) -> (List.length l <= 1)%nat).
  { intros k IK E. unfold steps in I. cbn [In] in I, IK.
    destruct I as [<-|[<-|[<-|[<-|[<-|[<-|[<-|[]]]]]]]]; cbn in L; (assert (LS := f_equal (fun o => match o with Some x => x | None => [] end) L)); cbn in LS; subst sec; destruct IK as [<-|[<-|[]]]; cbn in E;
      try discriminate E; assert (LL := f_equal (fun o => match o with Some (VList x) => x | _ => [] end) E); cbn in LL; subst l; cbn; lia. }
  split; intros E _; [specialize (K "CREATE_PLOTS" (or_introl eq_refl) E)|specialize (K "DO_CHECKS" (or_intror (or_introl eq_refl)) E)]; assert (C := count_occ_bound string_dec n l); lia.
Qed.

Print Assumptions C192.
Print Assumptions C192_plots.
Print Assumptions C192_checks.
Print Assumptions C192_twice_refuted.
Print Assumptions C192_attributes.
Print Assumptions C192_sections.
Print Assumptions C192_nothing.
