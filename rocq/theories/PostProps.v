(** C151-C152: the columns of the post-processing, the star which collapses and the values given for it. *)
From Coq Require Import String Ascii List Bool ZArith QArith Lia Permutation.
From Verif Require Import PyBase PyStr PyReplace TFlagModel SNNameModel PostModel PostProofs.
Import ListNotations.
Open Scope string_scope.
Open Scope nat_scope.
Open Scope list_scope.

(** ** Specification *)
(** Names of columns *)
Definition of_star (second : bool) (q : string) : string := ("S" ++ (if second then "2" else "1") ++ "_" ++ q)%string.
Definition of_model (second : bool) (name q : string) : string := of_star second (name ++ "_" ++ q)%string.
Definition plain : list string :=
  [ "state"; "avg_c_in_c_core_at_He_depletion"; "co_core_mass_at_He_depletion"; "surface_other"; "center_other"; "lambda_CE_1cent"; "lambda_CE_10cent"; "lambda_CE_30cent";
    "lambda_CE_pure_He_star_10cent"; "m_core_CE_1cent"; "m_core_CE_10cent"; "m_core_CE_30cent"; "m_core_CE_pure_He_star_10cent"; "r_core_CE_1cent"; "r_core_CE_10cent";
    "r_core_CE_30cent"; "r_core_CE_pure_He_star_10cent" ].
Definition envelope : list string := skipn 5 plain.
Definition collapsed : list string :=
  [ "CO_type"; "SN_type"; "f_fb"; "mass"; "spin"; "m_disk_accreted"; "m_disk_radiated"; "CO_interpolation_class"; "M4"; "mu4"; "h1_mass_ej"; "he4_mass_ej" ].
(** The column [c] is one of the result *)
Definition is_column (single : bool) (names : list string) (c : string) : Prop :=
  (single = false /\ c = "mt_history")
  \/ (exists second, (single = true -> second = false) /\ ((exists q, In q plain /\ c = of_star second q) \/ (exists n q, In n names /\ In q collapsed /\ c = of_model second n q))).
(** The indices which are processed *)
Definition chosen (ix : index) (n : nat) (i : Z) : Prop :=
  match ix with Every => (0 <= i < Z.of_nat n)%Z | One k => i = k | Between [a; b] => (a <= i < b)%Z | _ => False end.
(** A value of a row of the result *)
Definition cell (cols : columns) (c : string) (k : nat) : option val := match dget String.eqb cols c with Some l => nth_error l k | None => None end.

(** ** Proofs *)
Lemma of_star_col : forall i q, of_star i q = col i q.
Proof. intros [] q; reflexivity. Qed.
Lemma of_model_col : forall i n q, of_model i n q = sn_col i n q.
Proof. intros [] n q; reflexivity. Qed.
Lemma plain_in : forall q, In q plain <-> In q (base_quantities ++ CE_names).
Proof. intros q. assert (P : Permutation plain (base_quantities ++ CE_names)) by (apply perm_names_ok; vm_compute; reflexivity). split; intros H; [exact (Permutation_in _ P H)|exact (Permutation_in _ (Permutation_sym P) H)]. Qed.
Definition was (q : string) : string := if String.eqb q "CO_type" then "state" else q.
Lemma collapsed_cases : forall q, In q collapsed -> q = "CO_type" \/ (In q CC_quantities /\ q <> "state" /\ q <> "CO_type").
Proof. intros q [<-|H]; [left; reflexivity|right]. split; [right; exact H|]. cbn in H. repeat (destruct H as [<-|H]; [split; discriminate|]). contradiction. Qed.
Lemma CC_cases : forall q, In q CC_quantities -> q = "state" \/ In q collapsed.
Proof. intros q [<-|H]; [left; reflexivity|right; right; exact H]. Qed.
Lemma in_star_columns : forall i names c, In c (star_columns i names) <-> (exists q, In q plain /\ c = of_star i q) \/ (exists n q, In n names /\ In q CC_quantities /\ c = of_model i n q).
Proof.
  intros i names c. rewrite star_columns_eq, in_app_iff, in_cc, in_map_iff. split; (intros [H|H]; [left|right]).
  - destruct H as [q [E Q]]. exists q. split; [apply plain_in; exact Q|]. rewrite of_star_col. symmetry. exact E.
  - destruct H as [n [q [N [Q E]]]]. exists n, q. rewrite of_model_col. auto.
  - destruct H as [q [Q E]]. exists q. rewrite of_star_col in E. split; [symmetry; exact E|apply plain_in; exact Q].
  - destruct H as [n [q [N [Q E]]]]. exists n, q. rewrite of_model_col in E. auto.
Qed.

Section Props.
Context (check_state : star -> bool -> result val) (patton : star -> result star) (cee : star -> star) (step_SN : SNNameModel.dict -> result (star -> result star)).
Notation run_writes := (run_writes check_state patton cee step_SN).
Notation selected := (selected check_state patton cee step_SN).
Notation post_process_grid := (post_process_grid check_state patton cee step_SN).
Notation ok_columns := (fun (single : bool) (names : list string) c => In c (all_columns single names)).

Definition indices_of (ix : index) (n : nat) : option (list Z) :=
  match ix with Every => Some (py_range 0 (Z.of_nat n)) | One i => Some (py_range i (i + 1)) | Between [a; b] => Some (py_range a b) | _ => None end.
Lemma post_eq : forall {M} grid ix co (models : list (string * M)) single, NoDup (map fst models) ->
  post_process_grid grid ix co models single
  = rbind (match ix with
           | Every => Ok (py_range 0 (Z.of_nat (length grid)), map r_dir grid)
           | One i => Ok (py_range i (i + 1), py_slice (map r_dir grid) i (i + 1))
           | Between [a; b] => Ok (py_range a b, py_slice (map r_dir grid) a b)
           | Between _ => Raise ValueError
           | OtherIndex => Raise TypeError
           end) (fun sel => rbind (selected single co (map fst models) grid (fst sel)) (fun rows =>
    Ok (snd sel, fold_left rename_model (map fst models) (table (all_columns single (map fst models)) rows)))).
Proof.
  intros M grid ix co models single N. unfold PostModel.post_process_grid. cbv zeta. match goal with |- rbind ?x _ = rbind ?x _ => destruct x as [sel|e]; cbn [rbind]; [|reflexivity] end.
  rewrite start_eq by (apply all_nodup; exact N). rewrite (process_eq check_state patton cee step_SN) by exact N. destruct (selected single co (map fst models) grid (fst sel)) as [rows|e]; reflexivity.
Qed.
Lemma post_rows : forall {M} grid ix co (models : list (string * M)) single dirs cols, NoDup (map fst models) ->
  post_process_grid grid ix co models single = Ok (dirs, cols) ->
  exists inds rows, indices_of ix (length grid) = Some inds /\ selected single co (map fst models) grid inds = Ok rows
    /\ cols = fold_left rename_model (map fst models) (table (all_columns single (map fst models)) rows)
    /\ dirs = match ix with Every => map r_dir grid | One i => py_slice (map r_dir grid) i (i + 1) | Between [a; b] => py_slice (map r_dir grid) a b | _ => [] end.
Proof.
  intros M grid ix co models single dirs cols N H. rewrite post_eq in H by exact N. apply rbind_ok in H as [sel [E H]]. apply rbind_ok in H as [rows [R H]].
  assert (H1 : dirs = snd sel) by congruence. assert (H2 : cols = fold_left rename_model (map fst models) (table (all_columns single (map fst models)) rows)) by congruence.
  exists (fst sel), rows. assert (S2 : sel = (fst sel, snd sel)) by apply surjective_pairing.
  destruct ix as [|i|l|]; [| |destruct l as [|a [|b [|c l]]]; try discriminate E|discriminate E]; cbn [indices_of];
    (split; [f_equal; congruence|]; split; [exact R|]; split; [exact H2|]; congruence).
Qed.
(** The values of the final columns in terms of those written *)
Lemma final_get : forall single names rows c, NoDup names ->
  let cols := fold_left rename_model names (table (all_columns single names) rows) in
  (forall second n, In n names -> (single = true -> second = false) -> c = sn_col second n "CO_type" -> dget String.eqb cols c = Some (map (fun w => lookup w (sn_col second n "state")) rows))
  /\ (forall second n, In n names -> c = sn_col second n "state" -> dget String.eqb cols c = None)
  /\ ((forall second n, In n names -> c <> sn_col second n "CO_type" /\ c <> sn_col second n "state") -> dget String.eqb cols c = dget String.eqb (table (all_columns single names) rows) c).
Proof.
  intros single names rows c N cols. unfold cols. rewrite rename_models. destruct (get_renamed _ (table (all_columns single names) rows) c (pairs_nodup _ N)) as [A [B C]].
  assert (IP : forall i n, In n names -> In ((i, n) : bool * string) (flat_map (fun n : string => [(false, n); (true, n)]) names))
    by (intros i n I; apply in_flat_map; exists n; split; [exact I|destruct i; cbn; tauto]).
  split; [|split].
  - intros i n I S1 E. rewrite (A (i, n) (IP i n I) E). cbn [fst snd]. unfold table. rewrite (get_map (fun k => map (fun w => lookup w k) rows)); [reflexivity|].
    assert (J : In (sn_col i n "state") (star_columns i names)) by (apply in_star_columns; right; exists n, "state"; rewrite of_model_col; split; [exact I|split; [left; reflexivity|reflexivity]]).
    destruct single; cbn [all_columns]; [rewrite (S1 eq_refl) in *; exact J|]. right. apply in_or_app. destruct i; [right|left]; exact J.
  - intros i n I E. exact (B (i, n) (IP i n I) E).
  - intros D. apply C. intros [i n] P. apply in_flat_map in P as [m [I P]]. apply D. destruct P as [P|[P|[]]]; assert (m = n) by congruence; subst; exact I.
Qed.
Lemma table_get : forall single names rows c, In c (all_columns single names) -> dget String.eqb (table (all_columns single names) rows) c = Some (map (fun w => lookup w c) rows).
Proof. intros single names rows c H. unfold table. apply (get_map (fun k => map (fun w => lookup w k) rows)). exact H. Qed.
Lemma table_get_none : forall single names rows c, ~ In c (all_columns single names) -> dget String.eqb (table (all_columns single names) rows) c = None.
Proof. intros single names rows c H. apply get_none. unfold table. rewrite map_map. cbn [fst]. rewrite map_id. exact H. Qed.
Lemma plain_kept : forall single names rows i q, NoDup names -> In q plain -> (single = true -> i = false) ->
  dget String.eqb (fold_left rename_model names (table (all_columns single names) rows)) (col i q) = Some (map (fun w => lookup w (col i q)) rows).
Proof.
  intros single names rows i q N Q S1. destruct (final_get single names rows (col i q) N) as [_ [_ C]]. rewrite C.
  - apply table_get. assert (J : In (col i q) (star_columns i names)) by (apply in_star_columns; left; exists q; split; [exact Q|symmetry; apply of_star_col]).
    destruct single; cbn [all_columns]; [rewrite (S1 eq_refl) in *; exact J|]. right. apply in_or_app. destruct i; [right|left]; exact J.
  - intros j n _. apply plain_in in Q. split; apply base_not_sn; try exact Q; [apply CO_new|apply state_old].
Qed.
Lemma model_kept : forall single names rows i n q, NoDup names -> In n names -> In q collapsed -> (single = true -> i = false) ->
  dget String.eqb (fold_left rename_model names (table (all_columns single names) rows)) (sn_col i n q) = Some (map (fun w => lookup w (sn_col i n (was q))) rows).
Proof.
  intros single names rows i n q N I Q S1. destruct (final_get single names rows (sn_col i n q) N) as [A [_ C]]. destruct (collapsed_cases q Q) as [E | [QC [NS NC]]].
  - subst q. exact (A i n I S1 eq_refl).
  - unfold was. destruct (String.eqb_spec q "CO_type"); [contradiction|]. rewrite C.
    + apply table_get. assert (J : In (sn_col i n q) (star_columns i names)) by (apply in_star_columns; right; exists n, q; rewrite of_model_col; auto).
      destruct single; cbn [all_columns]; [rewrite (S1 eq_refl) in *; exact J|]. right. apply in_or_app. destruct i; [right|left]; exact J.
    + intros j m _. split; intros E; apply sn_col_inj in E as [_ [_ E]]; try contradiction; try (apply CC_final; exact QC); [apply CO_new|apply state_old].
Qed.
Lemma history_kept : forall names rows, NoDup names ->
  dget String.eqb (fold_left rename_model names (table (all_columns false names) rows)) "mt_history" = Some (map (fun w => lookup w "mt_history") rows).
Proof.
  intros names rows N. destruct (final_get false names rows "mt_history" N) as [_ [_ C]]. rewrite C; [apply table_get; left; reflexivity|]. intros j n _. split; apply history_not_col.
Qed.
Lemma traverse_length : forall {A B} (f : A -> result B) l l', traverse f l = Ok l' -> length l' = length l.
Proof.
  induction l as [|a l IH]; intros l' H; cbn in H; [assert (l' = []) by congruence; subst; reflexivity|]. apply rbind_ok in H as [b [_ H]]. apply rbind_ok in H as [bs [BS H]].
  assert (l' = b :: bs) by congruence. subst. cbn. rewrite (IH _ BS). reflexivity.
Qed.
Lemma traverse_nth : forall {A B} (f : A -> result B) l l' k a, traverse f l = Ok l' -> nth_error l k = Some a -> exists b, nth_error l' k = Some b /\ f a = Ok b.
Proof.
  induction l as [|x l IH]; intros l' k a H K; [destruct k; discriminate K|]. cbn in H. apply rbind_ok in H as [b [FB H]]. apply rbind_ok in H as [bs [BS H]].
  assert (l' = b :: bs) by congruence. subst. destruct k as [|k]; cbn in *; [exists b; split; [reflexivity|congruence]|exact (IH _ _ _ BS K)].
Qed.
Lemma traverse_raise : forall {A B} (f : A -> result B) l e, traverse f l = Raise e -> exists a, In a l /\ f a = Raise e.
Proof.
  induction l as [|x l IH]; intros e H; cbn in H; [discriminate H|]. destruct (f x) as [b|e'] eqn:F; cbn [rbind] in H.
  - destruct (traverse f l) as [bs|e'']; cbn [rbind] in H; [discriminate H|]. destruct (IH e) as [a [I E]]; [congruence|]. exists a. split; [right; exact I|exact E].
  - exists x. split; [left; reflexivity|]. congruence.
Qed.
Lemma range_nth : forall a b k i, nth_error (py_range a b) k = Some i <-> (i = a + Z.of_nat k /\ i < b)%Z.
Proof.
  intros a b k i. unfold py_range. rewrite nth_error_map. destruct (le_lt_dec (Z.to_nat (b - a)) k) as [L|L].
  - assert (E : nth_error (seq 0 (Z.to_nat (b - a))) k = None) by (apply nth_error_None; rewrite seq_length; exact L). rewrite E. cbn [option_map]. split; [discriminate|]. intros [A B]. exfalso. lia.
  - assert (E : nth_error (seq 0 (Z.to_nat (b - a))) k = Some k) by (rewrite (nth_error_nth' _ 0) by (rewrite seq_length; exact L); rewrite seq_nth by exact L; reflexivity).
    rewrite E. cbn [option_map]. split; [intros H; assert (i = (a + Z.of_nat k)%Z) by congruence; lia|intros [-> _]; reflexivity].
Qed.
Lemma range_length : forall a b, length (py_range a b) = Z.to_nat (b - a).
Proof. intros. unfold py_range. rewrite map_length, seq_length. reflexivity. Qed.
Lemma range_in : forall a b i, In i (py_range a b) <-> (a <= i < b)%Z.
Proof.
  intros a b i. split.
  - intros H. apply In_nth_error in H as [k K]. apply range_nth in K. lia.
  - intros H. apply (nth_error_In _ (Z.to_nat (i - a))). apply range_nth. lia.
Qed.
Lemma chosen_in : forall ix n inds, indices_of ix n = Some inds -> forall i, In i inds <-> chosen ix n i.
Proof.
  intros ix n inds E i. destruct ix as [|k|l|]; cbn in E; [| |destruct l as [|a [|b [|c l]]]; try discriminate E|discriminate E];
    match type of E with Some ?l = _ => assert (EE : inds = l) by congruence end; subst inds; rewrite range_in; cbn [chosen]; lia.
Qed.

(** Every column has one value for each run processed, there are no other columns. *)
Theorem C151_columns : forall {M} grid ix co (models : list (string * M)) single dirs cols, NoDup (map fst models) ->
  post_process_grid grid ix co models single = Ok (dirs, cols) ->
  exists inds, (forall i, In i inds <-> chosen ix (length grid) i) /\ (forall k i, nth_error inds (S k) = Some (i + 1)%Z -> nth_error inds k = Some i)
    /\ (forall i, In i inds -> (0 <= i < Z.of_nat (length grid))%Z)
    /\ (forall c, is_column single (map fst models) c -> exists l, dget String.eqb cols c = Some l /\ length l = length inds)
    /\ (forall c, ~ is_column single (map fst models) c -> dget String.eqb cols c = None).
Proof.
  intros M grid ix co models single dirs cols N H. destruct (post_rows grid ix co models single dirs cols N H) as [inds [rows [I [R [C _]]]]]. exists inds.
  split; [exact (chosen_in ix _ inds I)|]. split.
  { intros k i K. destruct ix as [|j|l|]; cbn in I; [| |destruct l as [|a [|b [|c l]]]; try discriminate I|discriminate I];
      match type of I with Some ?l = _ => assert (EE : inds = l) by congruence end; subst inds; apply range_nth in K; apply range_nth; lia. }
  split.
  { intros i J. apply In_nth_error in J as [k K]. destruct (traverse_nth _ _ _ _ _ R K) as [w [_ W]]. cbv beta in W. apply rbind_ok in W as [r [G _]]. unfold get_run in G.
    destruct (Z.ltb_spec i 0); [discriminate G|]. destruct (nth_error grid (Z.to_nat i)) eqn:NE; [|discriminate G]. assert (Z.to_nat i < length grid) by (apply nth_error_Some; congruence). lia. }
  assert (L : length rows = length inds) by exact (traverse_length _ _ _ R). split.
  - intros c [[S1 E]|[i [S1 [[q [Q E]]|[n [q [NI [Q E]]]]]]]].
    + subst single c. eexists. split; [rewrite C; apply history_kept; exact N|]. rewrite map_length. exact L.
    + rewrite of_star_col in E. subst c. eexists. split; [rewrite C; apply plain_kept; assumption|]. rewrite map_length. exact L.
    + rewrite of_model_col in E. subst c. eexists. split; [rewrite C; apply model_kept; assumption|]. rewrite map_length. exact L.
  - intros c NC. rewrite C. destruct (final_get single (map fst models) rows c N) as [_ [B D]].
    assert (T : (exists i n, In n (map fst models) /\ c = sn_col i n "state") \/ ~ (exists i n, In n (map fst models) /\ c = sn_col i n "state")).
    { clear. induction (map fst models) as [|m l IH]; [right; intros [i [n [[] _]]]|]. destruct IH as [[i [n [I E]]]|K]; [left; exists i, n; split; [right; exact I|exact E]|].
      destruct (string_dec c (sn_col true m "state")) as [E|NE]; [left; exists true, m; split; [left; reflexivity|exact E]|].
      destruct (string_dec c (sn_col false m "state")) as [E|NE2]; [left; exists false, m; split; [left; reflexivity|exact E]|].
      right. intros [i [n [[->|I] E]]]; [destruct i; contradiction|]. apply K. exists i, n. split; assumption. }
    destruct T as [[i [n [I2 E]]]|T]; [exact (B i n I2 E)|].
    assert (NA : ~ In c (all_columns single (map fst models))).
    { intros A. assert (SC : exists i, (single = true -> i = false) /\ In c (star_columns i (map fst models)) \/ (single = false /\ c = "mt_history")).
      { destruct single; cbn [all_columns] in A; [exists false; left; auto|]. destruct A as [A|A]; [exists false; right; auto|]. apply in_app_or in A as [A|A]; [exists false|exists true]; left; split; try exact A; discriminate. }
      destruct SC as [i [[S1 A']|[S1 E]]]; [|apply NC; left; auto]. apply in_star_columns in A' as [[q [Q E]]|[n [q [NI [Q E]]]]].
      - apply NC. right. exists i. split; [exact S1|]. left. exists q. auto.
      - destruct (CC_cases q Q) as [-> |Q']; [apply T; exists i, n; rewrite <- of_model_col; auto|]. apply NC. right. exists i. split; [exact S1|]. right. exists n, q. auto. }
    destruct (List.existsb (fun p => String.eqb c (sn_col (fst p) (snd p) "CO_type")) (flat_map (fun n : string => [(false, n); (true, n)]) (map fst models))) eqn:X.
    + apply existsb_exists in X as [[i n] [P X]]. apply String.eqb_eq in X. cbn [fst snd] in X. apply in_flat_map in P as [m [I2 P]]. assert (m = n) by (destruct P as [P|[P|[]]]; congruence). subst m.
      destruct (bool_dec single true) as [S1|S1].
      * destruct i; [|exfalso; apply NC; right; exists false; split; [reflexivity|]; right; exists n, "CO_type"; rewrite of_model_col; split; [exact I2|split; [left; reflexivity|exact X]]].
        subst single c. rewrite rename_models. destruct (get_renamed _ (table (all_columns true (map fst models)) rows) (sn_col true n "CO_type") (pairs_nodup _ N)) as [A _].
        rewrite (A (true, n)); [|apply in_flat_map; exists n; split; [exact I2|cbn; tauto]|reflexivity]. cbn [fst snd].
        assert (NSt : ~ In (sn_col true n "state") (all_columns true (map fst models))).
        { cbn [all_columns]. intros K. apply star_cols_col in K as [q K]. unfold sn_col in K. apply col_inj in K as [K _]. discriminate K. }
        rewrite table_get_none by exact NSt. apply table_get_none. exact NA.
      * exfalso. apply NC. right. exists i. split; [intros; contradiction|]. right. exists n, "CO_type". rewrite of_model_col. split; [exact I2|split; [left; reflexivity|exact X]].
    + rewrite D; [apply table_get_none; exact NA|]. intros i n I2. split; [|intros E; apply T; exists i, n; auto]. intros E.
      assert (F : existsb (fun p => String.eqb c (sn_col (fst p) (snd p) "CO_type")) (flat_map (fun n : string => [(false, n); (true, n)]) (map fst models)) = true).
      { apply existsb_exists. exists (i, n). split; [apply in_flat_map; exists n; split; [exact I2|destruct i; cbn; tauto]|]. cbn [fst snd]. rewrite E. apply String.eqb_refl. }
      congruence.
Qed.
(** The directories returned are those of the runs processed, unless the range ends with a negative number. *)
Lemma slice_range : forall {A} (l : list A) (a b : Z), (0 <= a)%Z -> (a <= b <= Z.of_nat (length l))%Z -> forall k, nth_error (py_slice l a b) k = match nth_error (py_range a b) k with Some i => nth_error l (Z.to_nat i) | None => None end.
Proof.
  intros A l a b P Q k. unfold py_slice, clip. destruct (Z.ltb_spec a 0); [lia|]. destruct (Z.ltb_spec b 0); [lia|]. rewrite !Z.min_r by lia.
  assert (SK : forall (m : list A) x y, nth_error (skipn x m) y = nth_error m (x + y)) by (induction m as [|z m IH]; intros [|x] y; try reflexivity; [destruct y; reflexivity|cbn [skipn Nat.add nth_error]; apply IH]).
  assert (FK : forall (m : list A) x y, y < x -> nth_error (firstn x m) y = nth_error m y) by (induction m as [|z m IH]; intros [|x] [|y] L; cbn; try reflexivity; try lia; apply IH; lia).
  rewrite SK. destruct (nth_error (py_range a b) k) as [i|] eqn:E.
  - apply range_nth in E. rewrite FK by lia. f_equal. lia.
  - apply nth_error_None. rewrite firstn_length. apply nth_error_None in E. rewrite range_length in E. lia.
Qed.
Theorem C151_dirs : forall {M} grid ix co (models : list (string * M)) single dirs cols, NoDup (map fst models) ->
  (forall a b, ix = Between [a; b] -> (0 <= b)%Z \/ (a < 0)%Z) ->
  post_process_grid grid ix co models single = Ok (dirs, cols) ->
  forall k, (exists l, dget String.eqb cols "S1_state" = Some l /\ length l = length dirs)
  /\ (k < length dirs -> exists i r, chosen ix (length grid) i /\ (match ix with Every => i = Z.of_nat k | One j => i = j | Between (a :: _) => i = a + Z.of_nat k | _ => False end)%Z
       /\ nth_error grid (Z.to_nat i) = Some r /\ nth_error dirs k = Some (r_dir r)).
Proof.
  intros M grid ix co models single dirs cols N HX H k. destruct (post_rows grid ix co models single dirs cols N H) as [inds [rows [I [R [C D]]]]].
  assert (L : length rows = length inds) by exact (traverse_length _ _ _ R).
  assert (BD : forall i, In i inds -> (0 <= i < Z.of_nat (length grid))%Z).
  { intros i J. apply In_nth_error in J as [j K]. destruct (traverse_nth _ _ _ _ _ R K) as [w [_ W]]. cbv beta in W. apply rbind_ok in W as [r [G _]]. unfold get_run in G.
    destruct (Z.ltb_spec i 0); [discriminate G|]. destruct (nth_error grid (Z.to_nat i)) eqn:NE; [|discriminate G]. assert (Z.to_nat i < length grid) by (apply nth_error_Some; congruence). lia. }
  assert (DI : forall j, nth_error dirs j = match nth_error inds j with Some i => nth_error (map r_dir grid) (Z.to_nat i) | None => None end).
  { intros j. destruct ix as [|i|l|]; cbn in I; [| |destruct l as [|a [|b [|c l]]]; try discriminate I|discriminate I];
      match type of I with Some ?l = _ => assert (EE : inds = l) by congruence end; subst inds dirs.
    - destruct (nth_error (py_range 0 (Z.of_nat (length grid))) j) as [i|] eqn:E; [apply range_nth in E; f_equal; lia|]. apply nth_error_None in E. rewrite range_length in E. apply nth_error_None. rewrite map_length. lia.
    - assert (0 <= i < Z.of_nat (length grid))%Z by (apply BD, range_in; lia). apply slice_range; rewrite ?map_length; lia.
    - destruct (Z.le_gt_cases b a) as [LE|GT].
      + assert (E : py_range a b = []) by (unfold py_range; replace (Z.to_nat (b - a)) with 0 by lia; reflexivity). rewrite E. replace (nth_error (@nil Z) j) with (@None Z) by (destruct j; reflexivity).
        assert (SE : py_slice (map r_dir grid) a b = []).
        { unfold py_slice. apply length_zero_iff_nil. rewrite skipn_length, firstn_length. unfold clip. rewrite !map_length. destruct (HX a b eq_refl) as [P|P].
          - destruct (Z.ltb_spec a 0); [lia|]. destruct (Z.ltb_spec b 0); lia.
          - destruct (Z.ltb_spec a 0); [|lia]. destruct (Z.ltb_spec b 0); lia. }
        rewrite SE. destruct j; reflexivity.
      + assert (0 <= a < Z.of_nat (length grid))%Z by (apply BD, range_in; lia). assert (0 <= b - 1 < Z.of_nat (length grid))%Z by (apply BD, range_in; lia).
        apply slice_range; rewrite ?map_length; lia. }
  assert (DL : length dirs = length inds).
  { assert (forall j, j < length dirs <-> j < length inds).
    { intros j. rewrite <- !nth_error_Some, DI. destruct (nth_error inds j) as [i|] eqn:E; [|tauto]. split; intros _; [discriminate|]. rewrite nth_error_map.
      assert (B : (0 <= i < Z.of_nat (length grid))%Z) by (apply BD; apply nth_error_In in E; exact E). destruct (nth_error grid (Z.to_nat i)) eqn:G; [discriminate|]. apply nth_error_None in G. lia. }
    pose proof (H0 (length dirs)). pose proof (H0 (length inds)). lia. }
  split.
  - exists (map (fun w => lookup w "S1_state") rows). split; [rewrite C; apply (plain_kept single (map fst models) rows false "state" N); [left; reflexivity|reflexivity]|]. rewrite map_length, DL. exact L.
  - intros K. rewrite DL in K. apply nth_error_Some in K. destruct (nth_error inds k) as [i|] eqn:E; [|contradiction]. exists i.
    assert (B : (0 <= i < Z.of_nat (length grid))%Z) by (apply BD; apply nth_error_In in E; exact E). destruct (nth_error grid (Z.to_nat i)) as [r|] eqn:G; [|apply nth_error_None in G; lia].
    exists r. split; [apply (chosen_in ix _ inds I); apply nth_error_In in E; exact E|]. split; [|split; [reflexivity|rewrite DI, E, nth_error_map, G; reflexivity]].
    destruct ix as [|j|l|]; cbn in I; [| |destruct l as [|a [|b [|c l]]]; try discriminate I|discriminate I];
      match type of I with Some ?l = _ => assert (EE : inds = l) by congruence end; subst inds; apply range_nth in E; lia.
Qed.
(** A failure is that of the argument or of one of the runs: the test that the columns are complete never fails. *)
Theorem C151_failure : forall {M} grid ix co (models : list (string * M)) single e, NoDup (map fst models) ->
  post_process_grid grid ix co models single = Raise e ->
  (ix = OtherIndex /\ e = TypeError) \/ (exists l, ix = Between l /\ length l <> 2 /\ e = ValueError)
  \/ (exists i, chosen ix (length grid) i /\ ((e = IndexError /\ (i < 0 \/ Z.of_nat (length grid) <= i)%Z)
        \/ exists r, (0 <= i)%Z /\ nth_error grid (Z.to_nat i) = Some r /\ run_writes single co (map fst models) r = Raise e)).
Proof.
  intros M grid ix co models single e N H. rewrite post_eq in H by exact N.
  assert (G : forall inds, indices_of ix (length grid) = Some inds -> selected single co (map fst models) grid inds = Raise e ->
    exists i, chosen ix (length grid) i /\ ((e = IndexError /\ (i < 0 \/ Z.of_nat (length grid) <= i)%Z)
        \/ exists r, (0 <= i)%Z /\ nth_error grid (Z.to_nat i) = Some r /\ run_writes single co (map fst models) r = Raise e)).
  { intros inds I S1. apply traverse_raise in S1 as [i [J E]]. exists i. split; [apply (chosen_in ix _ inds I); exact J|]. unfold get_run in E. destruct (Z.ltb_spec i 0) as [Neg|Pos].
    - left. cbn [rbind] in E. split; [congruence|left; exact Neg].
    - destruct (nth_error grid (Z.to_nat i)) as [r|] eqn:Nr; cbn [rbind] in E.
      + right. exists r. auto.
      + left. split; [congruence|]. right. apply nth_error_None in Nr. lia. }
  destruct ix as [|j|l|]; [| |destruct l as [|a [|b [|c l]]]|]; cbn [rbind fst snd] in H; try (right; left; eexists; split; [reflexivity|]; split; [cbn; lia|congruence]);
    try (left; split; [reflexivity|congruence]); right; right; (destruct (selected single co (map fst models) grid _) as [rows|e'] eqn:S1 in H; cbn [rbind] in H; [discriminate H|]);
    assert (e' = e) by congruence; subst e'; (eapply G; [reflexivity|exact S1]).
Qed.
(** The settings given with the models are not used, only their names. *)
Theorem C152_settings : forall {M M'} grid ix co (models : list (string * M)) (models' : list (string * M')) single, map fst models = map fst models' ->
  post_process_grid grid ix co models single = post_process_grid grid ix co models' single.
Proof. intros M M' grid ix co models models' single E. unfold PostModel.post_process_grid. rewrite E. reflexivity. Qed.
End Props.
