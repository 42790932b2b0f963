(** C153: writing the columns of the post-processing to a grid; cases for C151-C152. *)
From Coq Require Import String Ascii List Bool ZArith QArith Lia Permutation.
From Verif Require Import PyBase PyStr PyReplace TFlagModel SNNameModel PostModel PostProofs PostProps PostRowProps.
Import ListNotations.
Open Scope string_scope.
Open Scope nat_scope.
Open Scope list_scope.

(** ** Specification *)
(** How a value is stored: text of at most 70 characters, None as 'None'; floats, None as NaN *)
Definition is_stored (show : val -> string) (text : bool) (v v' : val) : Prop :=
  if text then v' = Txt (substring 0 70 (match v with Txt s => s | Nil => "None" | _ => show v end))
  else match v with Flt x => v' = Flt x | Nil => v' = Flt None | _ => False end.
Definition stored_column (show : val -> string) (text : bool) (before after : option (list val)) : Prop :=
  match before, after with Some l, Some l' => Forall2 (is_stored show text) l l' | None, None => True | _, _ => False end.
Definition text_quantities : list string := [ "state"; "CO_type"; "SN_type"; "CO_interpolation_class" ].
Definition module_names : list string := map fst SN_MODELS.
(** A column of the module's models *)
Definition known_column (c : string) : Prop := exists single, is_column single module_names c.

(** ** Lemmas *)
Lemma take_substring : forall n s, take n s = substring 0 n s.
Proof. induction n as [|n IH]; intros [|c s]; cbn; try reflexivity. rewrite IH. reflexivity. Qed.
Lemma convert_ok : forall show kv kv', convert show kv = Ok kv' -> fst kv' = fst kv /\ Forall2 (is_stored show (text_column (fst kv))) (snd kv) (snd kv').
Proof.
  intros show [c l] kv' H. unfold convert in H. cbn [fst snd] in H. unfold is_stored. destruct (text_column c) eqn:T; cbn [fst snd]; rewrite T.
  - assert (E : kv' = (c, map (as_text show) l)) by congruence. subst kv'. split; [reflexivity|]. cbn [snd]. induction l as [|v l IH]; constructor; [unfold as_text; rewrite take_substring; reflexivity|].
    apply IH. reflexivity.
  - apply rbind_ok in H as [l' [L H]]. assert (E : kv' = (c, l')) by congruence. subst kv'. split; [reflexivity|]. cbn [snd]. clear H. revert l' L. induction l as [|v l IH]; intros l' L; cbn [traverse] in L.
    + assert (l' = []) by congruence. subst. constructor.
    + apply rbind_ok in L as [v' [V L]]. apply rbind_ok in L as [r [R L]]. assert (l' = v' :: r) by congruence. subst l'. constructor; [|exact (IH _ R)]. destruct v; cbn in V; try discriminate V; congruence.
Qed.
Lemma converted_get : forall show extra cols c, traverse (convert show) extra = Ok cols -> stored_column show (text_column c) (dget String.eqb extra c) (dget String.eqb cols c).
Proof.
  intros show extra. induction extra as [|kv extra IH]; intros cols c H; cbn [traverse] in H.
  - assert (cols = []) by congruence. subst. exact I.
  - apply rbind_ok in H as [kv' [V H]]. apply rbind_ok in H as [r [R H]]. assert (cols = kv' :: r) by congruence. subst cols. apply convert_ok in V as [E F]. destruct kv as [k l], kv' as [k' l']. cbn [fst snd] in *. subst k'.
    cbn [dget]. destruct (String.eqb_spec c k) as [->|]; [exact F|exact (IH _ _ R)].
Qed.
Lemma converted_keys : forall show extra cols, traverse (convert show) extra = Ok cols -> map fst cols = map fst extra.
Proof.
  intros show extra. induction extra as [|kv extra IH]; intros cols H; cbn [traverse] in H.
  - assert (cols = []) by congruence. subst. reflexivity.
  - apply rbind_ok in H as [kv' [V H]]. apply rbind_ok in H as [r [R H]]. assert (cols = kv' :: r) by congruence. subst cols. apply convert_ok in V as [E _]. cbn [map]. rewrite E, (IH _ R). reflexivity.
Qed.
Lemma get_filter : forall (P : string -> bool) (d : columns) c, dget String.eqb (filter (fun kv => P (fst kv)) d) c = if P c then dget String.eqb d c else None.
Proof.
  intros P d c. induction d as [|[k l] d IH]; cbn [filter dget fst]; [destruct (P c); reflexivity|]. destruct (P k) eqn:E; cbn [dget]; rewrite IH; destruct (String.eqb_spec c k) as [->|]; try rewrite E; reflexivity.
Qed.
Lemma get_app : forall (d e : columns) c, dget String.eqb (d ++ e) c = match dget String.eqb d c with Some l => Some l | None => dget String.eqb e c end.
Proof. intros d e c. induction d as [|[k l] d IH]; cbn [app dget]; [reflexivity|]. destruct (String.eqb c k); [reflexivity|exact IH]. Qed.
Lemma get_moved : forall (P : string -> bool) (g : string -> string) (d : columns) c c0, (forall k, In k (map fst d) -> P k = true -> (g k = c <-> k = c0)) -> P c0 = true ->
  dget String.eqb (map (fun kv => (g (fst kv), snd kv)) (filter (fun kv => P (fst kv)) d)) c = dget String.eqb d c0.
Proof.
  intros P g d c c0 H HP. induction d as [|[k l] d IH]; [reflexivity|]. cbn [filter fst]. assert (IH' := IH (fun k' K => H k' (or_intror K))). destruct (P k) eqn:E; cbn [map dget fst snd].
  - specialize (H k (or_introl eq_refl) E). destruct (String.eqb_spec c (g k)) as [A|A], (String.eqb_spec c0 k) as [B|B]; try reflexivity; try exact IH'.
    + exfalso. apply B. symmetry. apply H. symmetry. exact A.
    + exfalso. apply A. symmetry. apply H. symmetry. exact B.
  - destruct (String.eqb_spec c0 k) as [->|]; [congruence|exact IH'].
Qed.
Lemma same_dirs_len : forall a b, length a = length b -> forallb (fun p => String.eqb (fst p) (snd p)) (combine a b) = true <-> a = b.
Proof.
  induction a as [|x a IH]; intros [|y b] L; try discriminate L; [split; reflexivity|]. cbn [combine forallb fst snd]. rewrite andb_true_iff, IH by (cbn in L; lia).
  rewrite String.eqb_eq. split; [intros [-> ->]; reflexivity|intros E; split; congruence].
Qed.

(** ** Facts on the names of the module, by computation *)
Lemma names_in : forallb (fun n => forallb (fun n' => forallb (fun i => forallb (fun q => Bool.eqb (py_in (n' ++ "_") (sn_col i n q)) (String.eqb n n')) collapsed) [false; true]) module_names) module_names = true.
Proof. vm_compute. reflexivity. Qed.
Lemma names_replace : forallb (fun n => forallb (fun i => forallb (fun q => String.eqb (py_replace (n ++ "_") "" (sn_col i n q)) (col i q) && py_in "SN_MODEL" (sn_col i n q)
  && Bool.eqb (text_column (sn_col i n q)) (inpool q text_quantities)) collapsed) [false; true]) module_names = true.
Proof. vm_compute. reflexivity. Qed.
Lemma plain_names : forallb (fun i => forallb (fun q => negb (py_in "SN_MODEL" (col i q)) && Bool.eqb (text_column (col i q)) (inpool q text_quantities)) plain) [false; true] = true.
Proof. vm_compute. reflexivity. Qed.
Lemma both : forall i : bool, In i [false; true]. Proof. intros []; cbn; tauto. Qed.
Lemma name_facts : forall n i q, In n module_names -> In q collapsed ->
  (forall n', In n' module_names -> py_in (n' ++ "_") (sn_col i n q) = String.eqb n n') /\ py_replace (n ++ "_") "" (sn_col i n q) = col i q
  /\ py_in "SN_MODEL" (sn_col i n q) = true /\ text_column (sn_col i n q) = inpool q text_quantities.
Proof.
  intros n i q N Q. split.
  - intros n' N'. pose proof names_in as H. rewrite forallb_forall in H. specialize (H n N). cbv beta in H. rewrite forallb_forall in H. specialize (H n' N'). cbv beta in H. rewrite forallb_forall in H.
    specialize (H i (both i)). cbv beta in H. rewrite forallb_forall in H. specialize (H q Q). cbv beta in H. apply eqb_prop in H. exact H.
  - pose proof names_replace as H. rewrite forallb_forall in H. specialize (H n N). cbv beta in H. rewrite forallb_forall in H. specialize (H i (both i)). cbv beta in H. rewrite forallb_forall in H.
    specialize (H q Q). cbv beta in H. apply andb_true_iff in H as [H C]. apply andb_true_iff in H as [A B]. split; [apply String.eqb_eq; exact A|]. split; [exact B|apply eqb_prop; exact C].
Qed.
Lemma plain_facts : forall i q, In q plain -> py_in "SN_MODEL" (col i q) = false /\ text_column (col i q) = inpool q text_quantities.
Proof.
  intros i q Q. pose proof plain_names as H. rewrite forallb_forall in H. specialize (H i (both i)). cbv beta in H. rewrite forallb_forall in H. specialize (H q Q). cbv beta in H.
  apply andb_true_iff in H as [A B]. split; [apply negb_true_iff; exact A|apply eqb_prop; exact B].
Qed.
Lemma names_nodup : NoDup module_names.
Proof. apply nodupb_ok. vm_compute. reflexivity. Qed.
Lemma collapsed_final : forall q, In q collapsed -> In q final_quantities.
Proof. intros q Q. destruct (collapsed_cases q Q) as [-> |[H _]]; [apply CO_new|apply CC_final; exact H]. Qed.

(** ** The properties *)
(** The columns are only written to the grid they were computed from: the directories agree, or one of the lists has one element and the other is made of copies of it. *)
Theorem C153_dirs : forall show f dirs extra f', add_post_processed_quantities show f dirs extra = Ok f' ->
  f_dirs f = dirs \/ (length (f_dirs f) <> length dirs /\ exists x, (f_dirs f = [x] /\ forall y, In y dirs -> y = x) \/ (dirs = [x] /\ forall y, In y (f_dirs f) -> y = x)).
Proof.
  intros show f dirs extra f' H. unfold add_post_processed_quantities in H. destruct (same_dirs (f_dirs f) dirs) eqn:E; [|discriminate H]. clear H. unfold same_dirs in E.
  destruct (Nat.eqb_spec (length (f_dirs f)) (length dirs)) as [L|L]; [left; apply same_dirs_len; assumption|]. right. split; [exact L|].
  assert (A : forall x l, forallb (String.eqb x) l = true -> forall y, In y l -> y = x) by (intros x l F y Y; rewrite forallb_forall in F; symmetry; apply String.eqb_eq, F, Y).
  destruct (f_dirs f) as [|x [|x' a]]; destruct dirs as [|y [|y' b]]; try discriminate E; cbn in L; try lia;
    solve [eexists; left; split; [reflexivity|]; first [exact (A _ _ E)|intros ? [] ] | eexists; right; split; [reflexivity|]; first [exact (A _ _ E)|intros ? [] ]].
Qed.
(** The final values: the old ones, with the columns of no supernova model replaced or added. *)
Theorem C153_final : forall show f dirs extra f', add_post_processed_quantities show f dirs extra = Ok f' -> forall c,
  if py_in "SN_MODEL" c then dget String.eqb (f_final f') c = dget String.eqb (f_final f) c
  else match dget String.eqb extra c with
       | Some l => stored_column show (text_column c) (Some l) (dget String.eqb (f_final f') c)
       | None => dget String.eqb (f_final f') c = dget String.eqb (f_final f) c
       end.
Proof.
  intros show f dirs extra f' H c. unfold add_post_processed_quantities in H. destruct (same_dirs (f_dirs f) dirs); [|discriminate H].
  destruct extra as [|kv0 extra0]; [assert (f' = f) by congruence; subst; cbn; destruct (py_in "SN_MODEL" c); reflexivity|].
  remember (kv0 :: extra0) as extra eqn:EX. apply rbind_ok in H as [cols [C H]]. cbv zeta in H.
  match type of H with Ok (GFile _ ?a _) = _ => assert (F : f_final f' = a) by (apply (f_equal (fun x => match x with Ok y => f_final y | Raise _ => [] end)) in H; symmetry; exact H) end.
  rewrite F. clear H F. set (rest := filter (fun kv => negb (py_in "SN_MODEL" (fst kv))) cols).
  assert (G : dget String.eqb rest c = if py_in "SN_MODEL" c then None else dget String.eqb cols c) by (unfold rest; rewrite (get_filter (fun k => negb (py_in "SN_MODEL" k))); destruct (py_in "SN_MODEL" c); reflexivity).
  assert (IP : inpool c (map fst rest) = match dget String.eqb rest c with Some _ => true | None => false end).
  { destruct (inpool c (map fst rest)) eqn:I; [apply inpool_in in I; destruct (get_some rest c I) as [v V]; rewrite V; reflexivity|]. rewrite get_none; [reflexivity|]. intros J. apply inpool_in in J. congruence. }
  rewrite get_app, (get_filter (fun k => negb (inpool k (map fst rest)))), IP, G. pose proof (converted_get show extra cols c C) as S1. unfold stored_column in *.
  destruct (py_in "SN_MODEL" c); cbn [negb]; [destruct (dget String.eqb (f_final f) c); reflexivity|].
  destruct (dget String.eqb extra c) as [l|], (dget String.eqb cols c) as [l'|]; try contradiction; cbn [negb]; [exact S1|]. destruct (dget String.eqb (f_final f) c); reflexivity.
Qed.
(** Each model of the module gets a dataset with its columns and no other; there are no other datasets. *)
Theorem C153_models : forall show f dirs extra f', (forall c, In c (map fst extra) -> known_column c) -> extra <> [] ->
  add_post_processed_quantities show f dirs extra = Ok f' ->
  (forall n, In n (map fst (f_sn f')) <-> In n module_names /\ exists i q, In q collapsed /\ In (of_model i n q) (map fst extra))
  /\ (forall n ds, In (n, ds) (f_sn f') -> forall c, (exists i q, In q collapsed /\ c = of_star i q /\ stored_column show (inpool q text_quantities) (dget String.eqb extra (of_model i n q)) (dget String.eqb ds c))
                                            \/ ((forall i q, In q collapsed -> c <> of_star i q) /\ dget String.eqb ds c = None)).
Proof.
  intros show f dirs extra f' KN NE H. unfold add_post_processed_quantities in H. destruct (same_dirs (f_dirs f) dirs); [|discriminate H]. destruct extra as [|kv0 extra0]; [contradiction|].
  remember (kv0 :: extra0) as extra eqn:EX. apply rbind_ok in H as [cols [C H]]. cbv zeta in H. set (sn := filter (fun kv => py_in "SN_MODEL" (fst kv)) cols) in *.
  assert (F : f_sn f' = flat_map (fun m => sn_dataset sn (fst m)) SN_MODELS) by (apply (f_equal (fun x => match x with Ok y => f_sn y | Raise _ => [] end)) in H; symmetry; exact H).
  assert (KC : map fst cols = map fst extra) by exact (converted_keys _ _ _ C).
  assert (SNK : forall k, In k (map fst sn) -> exists i n q, In n module_names /\ In q collapsed /\ k = sn_col i n q).
  { intros k K. apply in_map_iff in K as [[k' l] [E K]]. cbn in E. subst k'. apply filter_In in K as [K P]. cbn [fst] in P. apply (in_map fst) in K. cbn [fst] in K. rewrite KC in K.
    destruct (KN k K) as [single [[_ E]|[i [_ [[q [Q E]]|[n [q [NI [Q E]]]]]]]]]; subst k; [vm_compute in P; discriminate P| |].
    - rewrite of_star_col in P. destruct (plain_facts i q Q) as [A _]. congruence.
    - exists i, n, q. rewrite of_model_col. auto. }
  assert (SNI : forall i n q, In n module_names -> In q collapsed -> dget String.eqb sn (sn_col i n q) = dget String.eqb cols (sn_col i n q)).
  { intros i n q NI Q. unfold sn. rewrite (get_filter (fun k => py_in "SN_MODEL" k)). destruct (name_facts n i q NI Q) as [_ [_ [A _]]]. rewrite A. reflexivity. }
  assert (ND : forall n ds, In (n, ds) (f_sn f') <-> In n module_names /\ sn_dataset sn n = [(n, ds)]).
  { intros n ds. rewrite F, in_flat_map. split.
    - intros [m [M I1]]. unfold sn_dataset in I1. destruct (filter (fun kv => py_in (fst m ++ "_") (fst kv)) sn) as [|x xs] eqn:FL; [contradiction|]. destruct I1 as [I1|[]].
      assert (E : n = fst m) by congruence. subst n. split; [apply in_map; exact M|]. unfold sn_dataset. rewrite FL. f_equal. exact I1.
    - intros [NI E]. apply in_map_iff in NI as [m [MF M]]. exists m. split; [exact M|]. rewrite MF, E. left. reflexivity. }
  assert (SEL : forall n, In n module_names -> sn_dataset sn n <> [] <-> exists i q, In q collapsed /\ In (of_model i n q) (map fst extra)).
  { intros n NI. unfold sn_dataset. destruct (filter (fun kv => py_in (n ++ "_") (fst kv)) sn) as [|[k l] xs] eqn:FL.
    - split; [intros Q; contradiction|]. intros [i [q [Q I1]]] _. rewrite of_model_col, <- KC in I1. apply in_map_iff in I1 as [[k l] [E I1]]. cbn in E. subst k.
      destruct (name_facts n i q NI Q) as [A [_ [B _]]]. assert (J : In (sn_col i n q, l) (filter (fun kv => py_in (n ++ "_") (fst kv)) sn)).
      { apply filter_In. split; [apply filter_In; split; [exact I1|exact B]|]. cbn [fst]. rewrite (A n NI). apply String.eqb_refl. }
      rewrite FL in J. contradiction.
    - split; [intros _|discriminate]. assert (J : In (k, l) (filter (fun kv => py_in (n ++ "_") (fst kv)) sn)) by (rewrite FL; left; reflexivity). apply filter_In in J as [J P]. cbn [fst] in P.
      assert (JK : In k (map fst sn)) by (apply (in_map fst) in J; exact J). destruct (SNK k JK) as [i [n' [q [N' [Q E]]]]]. subst k. destruct (name_facts n' i q N' Q) as [A _]. rewrite (A n NI) in P.
      apply String.eqb_eq in P. subst n'. exists i, q. split; [exact Q|]. rewrite of_model_col, <- KC. apply filter_In in J as [J _]. apply (in_map fst) in J. exact J. }
  split.
  - intros n. rewrite in_map_iff. split.
    + intros [[n' ds] [E I1]]. cbn in E. subst n'. apply ND in I1 as [NI E]. split; [exact NI|]. apply SEL; [exact NI|]. rewrite E. discriminate.
    + intros [NI X]. apply (SEL n NI) in X. unfold sn_dataset in X. destruct (filter (fun kv => py_in (n ++ "_") (fst kv)) sn) as [|x xs] eqn:FL; [contradiction|].
      eexists. split; [|apply ND; split; [exact NI|unfold sn_dataset; rewrite FL; reflexivity]]. reflexivity.
  - intros n ds I1 c. apply ND in I1 as [NI E].
    assert (DS : ds = map (fun kv => (py_replace (n ++ "_") "" (fst kv), snd kv)) (filter (fun kv => py_in (n ++ "_") (fst kv)) sn)).
    { unfold sn_dataset in E. destruct (filter (fun kv => py_in (n ++ "_") (fst kv)) sn) as [|x xs]; [discriminate E|]. congruence. }
    assert (T : (exists i q, In q collapsed /\ c = of_star i q) \/ (forall i q, In q collapsed -> c <> of_star i q)).
    { destruct (in_dec string_dec c (map (of_star false) collapsed)) as [J|J]; [left; apply in_map_iff in J as [q [EQ Q]]; exists false, q; auto|].
      destruct (in_dec string_dec c (map (of_star true) collapsed)) as [J2|J2]; [left; apply in_map_iff in J2 as [q [EQ Q]]; exists true, q; auto|].
      right. intros [] q Q EQ; [apply J2|apply J]; apply in_map_iff; exists q; auto. }
    destruct T as [[i [q [Q EQ]]]|NT]; [left|right].
    + exists i, q. split; [exact Q|]. split; [exact EQ|]. rewrite DS.
      assert (GM : dget String.eqb (map (fun kv => (py_replace (n ++ "_") "" (fst kv), snd kv)) (filter (fun kv => py_in (n ++ "_") (fst kv)) sn)) c = dget String.eqb sn (sn_col i n q)).
      { apply (get_moved (fun k => py_in (n ++ "_") k) (py_replace (n ++ "_") "")); [|destruct (name_facts n i q NI Q) as [A _]; rewrite (A n NI); apply String.eqb_refl].
        intros k K P. destruct (SNK k K) as [j [n' [q' [N' [Q' EK]]]]]. subst k. destruct (name_facts n' j q' N' Q') as [A [B _]]. rewrite (A n NI) in P. apply String.eqb_eq in P. subst n'.
        rewrite B, EQ, of_star_col. split; [intros X; apply col_inj in X as [-> ->]; reflexivity|]. intros X. apply sn_col_inj in X as [-> [_ ->]]; [reflexivity|apply collapsed_final; exact Q'|apply collapsed_final; exact Q]. }
      rewrite GM, (SNI i n q NI Q), of_model_col. destruct (name_facts n i q NI Q) as [_ [_ [_ TX]]]. rewrite <- TX. exact (converted_get _ _ _ _ C).
    + split; [exact NT|]. rewrite DS. apply get_none. intros J. rewrite map_map in J. cbn [fst] in J. apply in_map_iff in J as [[k l] [EQ J]]. cbn [fst] in EQ. apply filter_In in J as [J P]. cbn [fst] in P.
      assert (JK : In k (map fst sn)) by (apply (in_map fst) in J; exact J). destruct (SNK k JK) as [i [n' [q [N' [Q EK]]]]]. subst k. destruct (name_facts n' i q N' Q) as [A [B _]]. rewrite (A n NI) in P.
      apply String.eqb_eq in P. subst n'. apply (NT i q Q). rewrite of_star_col, <- B. symmetry. exact EQ.
Qed.
(** Writing the same columns again changes nothing. *)
Theorem C153_twice : forall show f dirs extra f', add_post_processed_quantities show f dirs extra = Ok f' -> add_post_processed_quantities show f' dirs extra = Ok f'.
Proof.
  intros show f dirs extra f' H. unfold add_post_processed_quantities in H |- *. destruct (same_dirs (f_dirs f) dirs) eqn:SD; [|discriminate H].
  destruct extra as [|kv0 extra0]; [assert (f' = f) by congruence; subst; rewrite SD; reflexivity|]. remember (kv0 :: extra0) as extra. apply rbind_ok in H as [cols [C H]]. cbv zeta in H.
  match type of H with Ok ?a = _ => assert (F : f' = a) by congruence end. rewrite F. cbn [f_dirs f_final f_sn]. rewrite SD, C. cbn [rbind]. f_equal. f_equal.
  set (rest := filter (fun kv => negb (py_in "SN_MODEL" (fst kv))) cols). rewrite filter_app. f_equal.
  set (P := fun kv : string * list val => negb (inpool (fst kv) (map fst rest))).
  assert (FF : forall d, filter P (filter P d) = filter P d) by (induction d as [|x d IH]; [reflexivity|]; cbn [filter]; destruct (P x) eqn:PX; [cbn [filter]; rewrite PX, IH; reflexivity|exact IH]).
  assert (FR : forall d, incl d rest -> filter P d = []).
  { induction d as [|x d IH]; intros I1; [reflexivity|]. cbn [filter]. assert (PX : P x = false) by (unfold P; apply negb_false_iff, inpool_in, in_map, I1; left; reflexivity). rewrite PX. apply IH. intros y Y. apply I1. right. exact Y. }
  rewrite FF, (FR rest (incl_refl _)), app_nil_r. reflexivity.
Qed.
(** The columns are accepted if those which are not text hold floats or None. *)
Theorem C153_accepted : forall show f extra, (forall c l v, In (c, l) extra -> text_column c = false -> In v l -> v = Nil \/ number v) ->
  exists f', add_post_processed_quantities show f (f_dirs f) extra = Ok f' /\ f_dirs f' = f_dirs f.
Proof.
  intros show f extra H. unfold add_post_processed_quantities.
  assert (SD : same_dirs (f_dirs f) (f_dirs f) = true) by (unfold same_dirs; rewrite Nat.eqb_refl; apply same_dirs_len; reflexivity). rewrite SD.
  assert (T : exists cols, traverse (convert show) extra = Ok cols).
  { induction extra as [|[c l] extra IH]; [exists []; reflexivity|]. destruct IH as [r R]; [intros c' l' v I1; apply H; right; exact I1|]. cbn [traverse].
    assert (CV : exists y, convert show (c, l) = Ok y).
    { unfold convert. cbn [fst snd]. destruct (text_column c) eqn:TC; [eexists; reflexivity|]. assert (L : exists l', traverse as_float l = Ok l').
      { assert (HL : forall v, In v l -> v = Nil \/ number v) by (intros v V; exact (H c l v (or_introl eq_refl) TC V)). clear - HL. induction l as [|v l IH]; [exists []; reflexivity|].
        destruct IH as [l' L]; [intros w W; apply HL; right; exact W|]. cbn [traverse]. rewrite L. destruct (HL v (or_introl eq_refl)) as [->|[x ->]]; cbn; eexists; reflexivity. }
      destruct L as [l' L]. rewrite L. eexists. reflexivity. }
    destruct CV as [y Y]. rewrite Y, R. eexists. reflexivity. }
  destruct extra as [|kv0 extra0]; [exists f; split; reflexivity|]. destruct T as [cols T]. rewrite T. eexists. split; reflexivity.
Qed.

(** ** Cases and refutations *)
Definition giant : star := fun q => if String.eqb q "state" then Txt "H-rich_Core_C_depleted" else if String.eqb q "center_gamma" then Flt (Some 20%Q) else Flt (Some (1 # 10)%Q).
Definition hole : star := fun q => if String.eqb q "state" then Txt "BH" else if String.eqb q "SN_type" then Txt "CCSN" else if String.eqb q "spin" then Nil else Flt (Some 8%Q).
Definition chk (s : star) (co : bool) : result val := if co then Ok (Txt "NS") else Ok (s "state").
Definition sn_ok (m : SNNameModel.dict) : result (star -> result star) := Ok (fun s => if exploding s then Ok hole else Raise ValueError).
Definition post (grid : list run) (ix : index) (co : bool) (models : list (string * nat)) (single : bool) := post_process_grid chk (fun s => Ok s) (fun s => s) sn_ok grid ix co models single.
Definition run_a := Run "a" "stable_MT" "Secondary has depleted central carbon" "case_A1/B2" giant giant.
Definition run_b := Run "b" "unstable_MT" "Reached maximum mass transfer rate: 1d-1" "case_B1" giant giant.
Example C151_case : exists dirs cols, post [run_a; run_b] Every false [("SN_MODEL_v2_01", 0)] false = Ok (dirs, cols) /\ dirs = [ "a"; "b" ]
  /\ dget String.eqb cols "S2_SN_MODEL_v2_01_CO_type" = Some [Txt "BH"; Nil] /\ dget String.eqb cols "S2_SN_MODEL_v2_01_CO_interpolation_class" = Some [Txt "BH_reverse_MT"; Nil]
  /\ dget String.eqb cols "S1_SN_MODEL_v2_01_mass" = Some [Nil; Nil] /\ dget String.eqb cols "mt_history" = Some [Txt "Stable reverse mass-transfer phase"; Txt "Unstable RLOF during postMS"]
  /\ dget String.eqb cols "S1_surface_other" = Some [Flt (Some (1 - (1 # 10) - (1 # 10) - (1 # 10) - (1 # 10) - (1 # 10))%Q); Flt (Some (1 - (1 # 10) - (1 # 10) - (1 # 10) - (1 # 10) - (1 # 10))%Q)].
Proof. eexists. eexists. split; [vm_compute; reflexivity|]. repeat split; vm_compute; reflexivity. Qed.
Example C152_case : in_row (Between [1%Z; 2%Z]) [run_a; run_b] 0 run_b /\ collapses false run_a giant giant true /\ explosive giant /\ sound hole
  /\ collapses true run_a giant giant false /\ outcome sn_ok "SN_MODEL_v2_01" giant (Some hole).
Proof.
  assert (SH : sound hole) by (apply well_typed_iff; reflexivity).
  split; [exists 1%Z; split; [lia|]; split; [reflexivity|lia]|]. split; [split; [right; left; reflexivity|]; split; [reflexivity|]; left; left; reflexivity|].
  split; [exists "H-rich_Core_C_depleted"; split; [reflexivity|left; reflexivity]|]. split; [exact SH|]. split; [split; [right; left; reflexivity|]; left; reflexivity|].
  exists (fun s => if exploding s then Ok hole else Raise ValueError). split; [reflexivity|]. change (exploding giant) with true. left. split; [exact SH|reflexivity].
Qed.
(** A range with a negative end is taken as such for the directories, and as empty for the values. *)
Theorem C151_slice_refuted : exists cols, post [run_a; run_b] (Between [0%Z; (-1)%Z]) false [("SN_MODEL_v2_01", 0)] false = Ok ([ "a" ], cols) /\ dget String.eqb cols "S1_state" = Some [].
Proof. eexists. split; vm_compute; reflexivity. Qed.
(** One run whose sequence of mass transfers has no text in the legend stops the processing of the grid: two phases of case A before unstable mass transfer. *)
Theorem C152_history_refuted : post [run_a; Run "c" "unstable_MT" "Reached maximum mass transfer rate: 1d-1" "case_A1/B1/A1" giant giant] Every false [("SN_MODEL_v2_01", 0)] false = Raise KeyError
  /\ (exists x, post [run_a; Run "c" "stable_MT" "Primary has depleted central carbon" "case_A1/B1/A1" giant giant] Every false [("SN_MODEL_v2_01", 0)] false = Ok x).
Proof. split; [vm_compute; reflexivity|]. eexists. vm_compute. reflexivity. Qed.
(** A model with a name unknown to the module is computed with the default settings, whatever the settings given with it. *)
Theorem C152_unknown : forall n, ~ In n module_names -> get_SN_MODEL n = DEFAULT_SN_MODEL.
Proof. intros n H. unfold get_SN_MODEL. rewrite get_none by exact H. reflexivity. Qed.
Definition file0 := GFile [ "a" ] [("S1_state", [Txt "old"]); ("age", [Flt (Some 1%Q)])] [].
Example C153_case : add_post_processed_quantities (fun _ => "") file0 [ "a" ] [("S1_state", [Nil]); ("S1_SN_MODEL_v2_01_mass", [Nil]); ("S2_SN_MODEL_v2_10_CO_type", [Txt "BH"])]
  = Ok (GFile [ "a" ] [("age", [Flt (Some 1%Q)]); ("S1_state", [Txt "None"])] [("SN_MODEL_v2_01", [("S1_mass", [Flt None])]); ("SN_MODEL_v2_10", [("S2_CO_type", [Txt "BH"])])])
  /\ known_column "S1_SN_MODEL_v2_01_mass".
Proof.
  split; [vm_compute; reflexivity|]. exists true. right. exists false. split; [reflexivity|]. right. exists "SN_MODEL_v2_01", "mass". split; [left; reflexivity|]. split; [right; right; right; left; reflexivity|reflexivity].
Qed.
(** The columns of a model whose name is not one of the module are not stored, and nothing is said. *)
Theorem C153_lost_refuted : add_post_processed_quantities (fun _ => "") file0 [ "a" ] [("S1_SN_MODEL_mine_mass", [Flt (Some 3%Q)])] = Ok file0.
Proof. vm_compute. reflexivity. Qed.
(** An empty list of directories is accepted for a grid with one run. *)
Theorem C153_empty_refuted : exists f', add_post_processed_quantities (fun _ => "") file0 [] [("S1_state", [])] = Ok f' /\ dget String.eqb (f_final f') "S1_state" = Some [].
Proof. eexists. split; vm_compute; reflexivity. Qed.

Print Assumptions C151_columns.
Print Assumptions C151_dirs.
Print Assumptions C151_failure.
Print Assumptions C152_settings.
Print Assumptions C152_binary.
Print Assumptions C152_single.
Print Assumptions C152_one.
Print Assumptions C153_dirs.
Print Assumptions C153_final.
Print Assumptions C153_models.
Print Assumptions C153_twice.
Print Assumptions C153_accepted.
