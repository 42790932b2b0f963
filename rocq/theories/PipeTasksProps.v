(** The tasks of the steps of the pipeline (PipeTasksModel): C193. *)
From Coq Require Import String List Bool Arith Lia.
From Verif Require Import PyBase FromRunProofs RunScriptModel PipeTasksModel.
Import ListNotations.
Open Scope list_scope.
Open Scope string_scope.
Local Infix "+++" := (@app _) (at level 60, right associativity).

(** ** The specification *)

(** Type number [l] with a metallicity, the slice number [i] and a compression *)
Definition given (a : args) (l i : nat) (t m s c : string) : Prop :=
  nth_error (types a) l = Some t /\ In m (nth l (mets a) []) /\ nth_error (nth l (slices a) []) i = Some s /\ In c (nth l (comps a) []).
(** The directory of a metallicity *)
Definition place (a : args) (t m : string) : path := [root a; t] +++ (if String.eqb (version a) "" then [] else [version a]) +++ [m].
Definition tag (c : string) : string := if within "RLO" c then "_RLO" else "".
(** The paths in a column *)
Definition at_ (r : row) (c : string) (p : path) : Prop := lookup r c = Some (P p).
Fixpoint sum (l : list nat) : nat := match l with [] => 0 | x :: r => x + sum r end.

(** ** The rows *)

Lemma type_in k s a l t x r : type_rows k s a l t = Ok x -> In r x <->
  exists m i c, In m (nth l (mets a) []) /\ (i < List.length (nth l (slices a) []))%nat /\ In c (nth l (comps a) []) /\
  In r (rows_of k s a (nth l (originals a) []) {| gt := t; met := m; slice := nth i (nth l (slices a) []) ""; shown := shown_of k (nth i (nth l (slices a) []) "") (nth i (nth l (control a) []) "");
                                                  comp := c; first := hd "" (nth l (comps a) []) |}).
Proof.
  intros E. unfold type_rows in E. apply bind_ok in E as (orig & O & E).
  assert (OR : orig = nth l (originals a) []).
  { destruct (originals a) as [|o os] eqn:OS; [destruct l; cbn; congruence|]. destruct (nth_error (o :: os) l) as [y|] eqn:N; [|discriminate]. rewrite (nth_error_nth _ _ _ N). congruence. }
  subst orig. destruct (needs_control k s && negb (Nat.eqb (List.length (nth l (slices a) [])) (List.length (nth l (control a) []))) && negb (Nat.eqb (List.length (nth l (mets a) []) * List.length (nth l (slices a) []) * List.length (nth l (comps a) [])) 0)); [discriminate|].
  match type of E with Ok ?y = _ => assert (X : x = y) by congruence end. rewrite X. rewrite in_flat_map. split.
  - intros (m & M & I). apply in_flat_map in I as (i & II & I). apply in_flat_map in I as (c & C & I). apply in_seq in II. exists m, i, c. repeat split; try assumption. lia.
  - intros (m & i & c & M & II & C & I). exists m. split; [exact M|]. apply in_flat_map. exists i. split; [apply in_seq; lia|]. apply in_flat_map. now exists c.
Qed.
Lemma all_in k s a : forall ts l x r, all_types k s a l ts = Ok x -> In r x <-> exists j t y, nth_error ts j = Some t /\ type_rows k s a (l + j) t = Ok y /\ In r y.
Proof.
  induction ts as [|t ts IH]; intros l x r E; cbn in E.
  - assert (x = []) as -> by congruence. split; [intros []|]. intros (j & t & y & N & _). destruct j; discriminate N.
  - apply bind_ok in E as (y & E1 & E). apply bind_ok in E as (z & E2 & E). assert (x = y +++ z) as -> by congruence. rewrite in_app_iff, (IH _ _ r E2). split.
    + intros [I|(j & t' & y' & N & Y & I)]; [exists 0%nat, t, y; rewrite Nat.add_0_r; now split|]. exists (S j), t', y'. rewrite Nat.add_succ_r. now split.
    + intros (j & t' & y' & N & Y & I). destruct j as [|j]; cbn in N.
      * assert (t' = t) as -> by congruence. rewrite Nat.add_0_r in Y. left. assert (y' = y) as -> by congruence. exact I.
      * right. exists j, t', y'. rewrite Nat.add_succ_r in Y. now split.
Qed.
Lemma all_ok k s a : forall ts l x, all_types k s a l ts = Ok x -> forall j t, nth_error ts j = Some t -> exists y, type_rows k s a (l + j) t = Ok y.
Proof.
  induction ts as [|t ts IH]; intros l x E j t' N; [destruct j; discriminate N|]. cbn in E. apply bind_ok in E as (y & E1 & E). apply bind_ok in E as (z & E2 & _). destruct j as [|j]; cbn in N.
  - assert (t' = t) as -> by congruence. rewrite Nat.add_0_r. now exists y.
  - rewrite Nat.add_succ_r. exact (IH (S l) z E2 j t' N).
Qed.
Lemma table_all k s a rows : table k s a = Ok rows -> all_types k s a 0 (types a) = Ok rows.
Proof.
  unfold table. intros E. destruct (negb (Nat.eqb (List.length (types a)) (List.length (mets a)) && Nat.eqb (List.length (types a)) (List.length (slices a)) && Nat.eqb (List.length (types a)) (List.length (comps a)))); [discriminate|].
  match type of E with (if ?b then _ else _) = _ => destruct b end; [discriminate|]. apply bind_ok in E as (x & E1 & E). cbv zeta in E. match type of E with (if ?b then _ else _) = _ => destruct b end; [discriminate|]. congruence.
Qed.
Notation the_point k a l i t m s c := {| gt := t; met := m; slice := s; shown := shown_of k s (nth i (nth l (control a) []) ""); comp := c; first := hd "" (nth l (comps a) []) |}.
Lemma table_in k s a rows r : table k s a = Ok rows -> In r rows <-> exists l i t m n c, given a l i t m n c /\ In r (rows_of k s a (nth l (originals a) []) (the_point k a l i t m n c)).
Proof.
  intros E. apply table_all in E. rewrite (all_in _ _ _ _ _ _ r E). split.
  - intros (l & t & y & N & Y & I). cbn [plus] in Y. apply (type_in _ _ _ _ _ _ r Y) in I as (m & i & c & M & II & C & I). exists l, i, t, m, (nth i (nth l (slices a) []) ""), c. split; [|exact I].
    repeat split; try assumption. now apply nth_error_nth'.
  - intros (l & i & t & m & n & c & (N & M & SN & C) & I). destruct (all_ok _ _ _ _ _ _ E l t N) as [y Y]. cbn [plus] in Y. exists l, t, y. split; [exact N|]. split; [exact Y|].
    apply (type_in _ _ _ _ _ _ r Y). exists m, i, c. split; [exact M|]. split; [apply nth_error_Some; congruence|]. split; [exact C|]. now rewrite (nth_error_nth _ _ "" SN).
Qed.

(** ** C193: what is read and made *)

(** Step 1 has one task for each combination, reading the directory of the slice *)
Theorem C193_step1 : forall a rows, table S1 Main a = Ok rows -> forall r, In r rows <-> exists l i t m s c, given a l i t m s c /\
  r = [("path_to_grid", P (place a t m +++ [s])); ("compression", T c); ("grid_type", T t); ("stop_before_carbon_depletion", T (stop a))].
Proof.
  intros a rows E r. rewrite (table_in _ _ _ _ r E). split; intros (l & i & t & m & s & c & G & I); exists l, i, t, m, s, c; (split; [exact G|]).
  - cbn in I. destruct I as [I|[]]. rewrite <- I. reflexivity.
  - left. rewrite I. reflexivity.
Qed.
(** Step 3 reads a grid and the one of the same slice with the original compression, and makes the processed grid beside the first *)
Theorem C193_step3 : forall a rows, table S3 Main a = Ok rows -> forall r, In r rows <-> exists l i t m s c, given a l i t m s c /\
  r = [("path_to_grid", P (place a t m +++ [c; s ++ ".h5"])); ("grid_type", T t);
       ("path_to_grid_ORIGINAL", P (place a t m +++ [hd "ORIGINAL" (nth l (originals a) []) ++ tag c; s ++ ".h5"]));
       ("path_to_processed_grid", P (place a t m +++ [c; (s ++ "_processed") ++ ".h5"]))].
Proof.
  intros a rows E r. rewrite (table_in _ _ _ _ r E). split; intros (l & i & t & m & s & c & G & I); exists l, i, t, m, s, c; (split; [exact G|]).
  - cbn in I. destruct I as [I|[]]. rewrite <- I. destruct (nth l (originals a) []); reflexivity.
  - left. rewrite I. destruct (nth l (originals a) []); reflexivity.
Qed.
(** Step 4 trains each method on each grid; step 5 needs the interpolators of step 4 *)
Theorem C193_step4 : forall a rows, table S4 Main a = Ok rows -> forall r, In r rows <-> exists l i t m s c x, given a l i t m s c /\ In x (methods a) /\
  r = [("path_to_grid", P (place a t m +++ [c; s ++ ".h5"])); ("grid_type", T t); ("interpolation_method", T (x ++ tag c));
       ("path_to_interpolator", P (place a t m +++ ["interpolation_objects"; "IF_" ++ x ++ tag c ++ ".pkl"]))].
Proof.
  intros a rows E r. rewrite (table_in _ _ _ _ r E). split.
  - intros (l & i & t & m & s & c & G & I). cbn [rows_of main_rows] in I. apply in_map_iff in I as (x & I & X). exists l, i, t, m, s, c, x. split; [exact G|]. split; [exact X|]. rewrite <- I. reflexivity.
  - intros (l & i & t & m & s & c & x & G & X & I). exists l, i, t, m, s, c. split; [exact G|]. cbn [rows_of main_rows]. apply in_map_iff. exists x. split; [rewrite I; reflexivity|exact X].
Qed.
Theorem C193_step5 : forall a rows4 rows5, table S4 Main a = Ok rows4 -> table S5 Main a = Ok rows5 -> forall r p, In r rows5 -> at_ r "path_to_IF_interpolator" p ->
  exists r', In r' rows4 /\ at_ r' "path_to_interpolator" p /\ lookup r' "path_to_grid" = lookup r "path_to_grid".
Proof.
  intros a rows4 rows5 E4 E5 r p I AT. apply (table_in _ _ _ _ r E5) in I as (l & i & t & m & s & c & G & I). cbn [rows_of main_rows] in I. destruct (profiles a) as [|pn pns]; [destruct I|]. apply in_map_iff in I as (x & I & X).
  eexists. split; [apply (C193_step4 a rows4 E4); exists l, i, t, m, s, c, x; split; [exact G|split; [exact X|reflexivity]]|]. subst r. unfold at_ in *. cbn in AT. split; [|reflexivity]. cbn. rewrite <- AT. reflexivity.
Qed.
(** Plots of steps 4 and 5 use interpolators which these steps make *)
Theorem C193_plots4 : forall a rows plots_, table S4 Main a = Ok rows -> table S4 Plots a = Ok plots_ -> forall r p, In r plots_ -> at_ r "path_to_interpolator" p ->
  exists r', In r' rows /\ at_ r' "path_to_interpolator" p.
Proof.
  intros a rows plots_ E EP r p I AT. apply (table_in _ _ _ _ r EP) in I as (l & i & t & m & s & c & G & I). cbn [rows_of] in I. unfold plot_rows in I.
  destruct (String.eqb _ ""); [destruct I|]. destruct (negb _ && negb _); [destruct I|]. destruct (plots a) as [|q qs]; [destruct I|]. cbn [methods_of] in I. apply in_map_iff in I as (x & I & X).
  eexists. split; [apply (C193_step4 a rows E); exists l, i, t, m, s, c, x; split; [exact G|split; [exact X|reflexivity]]|]. subst r. unfold at_ in *. destruct (String.eqb x ""); cbn in AT; [discriminate|]. cbn. rewrite <- AT. reflexivity.
Qed.
Theorem C193_plots5 : forall a rows plots_, table S5 Main a = Ok rows -> table S5 Plots a = Ok plots_ -> profiles a <> [] -> forall r p, In r plots_ -> at_ r "path_to_interpolator" p ->
  exists r', In r' rows /\ at_ r' "path_to_profile_interpolator" p.
Proof.
  intros a rows plots_ E EP NP r p I AT. apply (table_in _ _ _ _ r EP) in I as (l & i & t & m & s & c & G & I). cbn [rows_of] in I. unfold plot_rows in I.
  destruct (String.eqb _ ""); [destruct I|]. destruct (negb _ && negb _); [destruct I|]. destruct (plots a) as [|q qs]; [destruct I|]. cbn [methods_of] in I. apply in_map_iff in I as (x & I & X).
  destruct (profiles a) as [|pn pns] eqn:PR; [congruence|].
  eexists. split; [apply (table_in _ _ _ _ _ E); exists l, i, t, m, s, c; split; [exact G|]; cbn [rows_of main_rows]; rewrite PR; apply in_map_iff; exists x; split; [reflexivity|exact X]|].
  subst r. unfold at_ in *. destruct (String.eqb x ""); cbn in AT; [discriminate|]. cbn. rewrite <- AT. reflexivity.
Qed.

(** The number of tasks of a step *)
Definition per_combination (k : step) (a : args) : nat :=
  match k with S1 | S3 | RR => 1 | S4 => List.length (methods a) | S5 => match profiles a with [] => 0 | _ => List.length (methods a) end | SF => 3 end.
Lemma flat_map_const {A B} (f : A -> list B) n l : (forall x, List.length (f x) = n) -> List.length (flat_map f l) = (List.length l * n)%nat.
Proof. intros H. induction l as [|x l IH]; [reflexivity|]. cbn. now rewrite app_length, H, IH. Qed.
Theorem C193_count : forall k a rows, table k Main a = Ok rows ->
  List.length rows = sum (map (fun l => List.length (nth l (mets a) []) * List.length (nth l (slices a) []) * List.length (nth l (comps a) []) * per_combination k a)%nat (seq 0 (List.length (types a)))).
Proof.
  intros k a rows E. apply table_all in E. revert E. generalize 0%nat at 1 2 as l. revert rows. induction (types a) as [|t ts IH]; intros rows l E; cbn in E; [assert (rows = []) as -> by congruence; reflexivity|].
  apply bind_ok in E as (y & E1 & E). apply bind_ok in E as (z & E2 & E). assert (rows = y +++ z) as -> by congruence. rewrite app_length, (IH z (S l) E2). cbn [List.length seq map sum]. f_equal.
  unfold type_rows in E1. apply bind_ok in E1 as (orig & O & E1). match type of E1 with (if ?b then _ else _) = _ => destruct b end; [discriminate|]. match type of E1 with Ok ?w = _ => assert (Y : y = w) by congruence end. rewrite Y.
  erewrite flat_map_const; [|intros m; erewrite flat_map_const; [|intros i; apply (flat_map_const _ (per_combination k a)); intros c; cbn [rows_of]; unfold main_rows, per_combination; destruct k; cbn; rewrite ?map_length; try reflexivity; destruct (profiles a); [reflexivity|apply map_length]]; reflexivity].
  rewrite seq_length. lia.
Qed.

(** ** Dropped tasks *)

Lemma kept_spec there r : forall cs b, kept there r cs = Ok b -> (b = true <-> forall c, In c cs -> exists p, at_ r c p /\ there p = true).
Proof.
  induction cs as [|c cs IH]; intros b E; cbn in E; [assert (b = true) as -> by congruence; split; [intros _ c []|reflexivity]|].
  apply bind_ok in E as (x & E1 & E). unfold present, path_in in E1. destruct (lookup r c) as [[p|t|l]|] eqn:LK; try discriminate. assert (x = there p) as -> by congruence. destruct (there p) eqn:TP.
  - rewrite (IH b E). split; [intros H c' [<-|I]; [now exists p|now apply H]|intros H c' I; apply H; now right].
  - assert (b = false) as -> by congruence. split; [discriminate|]. intros H. destruct (H c (or_introl eq_refl)) as (p' & A & TR). unfold at_ in A. assert (p' = p) as -> by congruence. congruence.
Qed.
Lemma drop_spec there cs : forall rows left, drop there cs rows = Ok left -> exists f, left = filter f rows /\ forall r, In r rows -> (f r = true <-> forall c, In c cs -> exists p, at_ r c p /\ there p = true).
Proof.
  intros rows left E. exists (fun r => match kept there r cs with Ok b => b | Raise _ => false end). revert left E.
  induction rows as [|r rows IH]; intros left E; cbn in E; [assert (left = []) as -> by congruence; split; [reflexivity|intros r []]|].
  apply bind_ok in E as (b & E1 & E). apply bind_ok in E as (x & E2 & E). destruct (IH x E2) as [-> IH2]. cbn [filter]. rewrite E1. split; [destruct b; congruence|].
  intros r' [<-|I]; [rewrite E1; now apply kept_spec|now apply IH2].
Qed.
(** The files a task reads: its grid; step 3 also the original grid; step 5 the interpolator of step 4; plots and checks of steps 4 and 5 the interpolator shown *)
Inductive reads : step -> part -> string -> Prop :=
| reads_grid k s : reads k s "path_to_grid"
| reads_original : reads S3 Main "path_to_grid_ORIGINAL"
| reads_trained : reads S5 Main "path_to_IF_interpolator"
| reads_shown k s : k = S4 \/ k = S5 -> s <> Main -> reads k s "path_to_interpolator".
Lemma needs_reads k s c : In c (needs k s) <-> reads k s c.
Proof.
  split.
  - destruct k, s; cbn; intros H; repeat (destruct H as [<-|H]); try (destruct H); try (apply reads_grid); try apply reads_original; try apply reads_trained; apply reads_shown; auto; discriminate.
  - intros [k' s'| | |k' s' K S]; [now left|right; now left|right; now left|]. destruct K as [-> | ->]; destruct s'; try congruence; right; now left.
Qed.
(** With DROP_MISSING_FILES the tasks left, in their order, are those whose files are there or are made by an earlier step *)
Theorem C193_drop : forall new_name there previous k s a rows left made, table k s a = Ok rows -> create_csv new_name there previous true k s a = Ok (left, made) ->
  exists f, left = filter f rows /\ forall r, In r rows -> (f r = true <-> forall c, reads k s c -> exists p, at_ r c p /\ (there p = true \/ In p previous)).
Proof.
  intros new_name there previous k s a rows left made E C. unfold create_csv in C. rewrite E in C. cbn [rbind] in C. apply bind_ok in C as (x & D & C). assert (x = left) as -> by congruence.
  destruct (drop_spec _ _ _ _ D) as (f & L & F). exists f. split; [exact L|]. intros r I. rewrite (F r I).
  assert (EX : forall p, there p || existsb (path_eqb p) previous = true <-> there p = true \/ In p previous).
  { intros p. rewrite orb_true_iff, existsb_exists. split; [intros [T|(q & Q & PE)]; [now left|right; unfold path_eqb in PE; destruct (list_eq_dec string_dec p q) as [->|]; [exact Q|discriminate]]|].
    intros [T|Q]; [now left|right; exists p; split; [exact Q|]]. unfold path_eqb. now destruct (list_eq_dec string_dec p p). }
  split; intros H c J; apply needs_reads in J; destruct (H c J) as (p & A & T); exists p; (split; [exact A|]); now apply EX.
Qed.
(** Without it all tasks are written *)
Theorem C193_keep : forall new_name there previous k s a rows left made, table k s a = Ok rows -> create_csv new_name there previous false k s a = Ok (left, made) -> left = rows.
Proof. intros new_name there previous k s a rows left made E C. unfold create_csv in C. rewrite E in C. cbn [rbind] in C. congruence. Qed.
(** The files made are those of the tasks left *)
Theorem C193_made : forall new_name there previous d k a left made, create_csv new_name there previous d k Main a = Ok (left, made) -> k <> S1 ->
  forall p, In p made <-> exists r, In r left /\ at_ r (match k with S3 => "path_to_processed_grid" | S4 => "path_to_interpolator" | S5 => "path_to_profile_interpolator" | SF => "export_path" | _ => "rerun_path" end) p.
Proof.
  intros new_name there previous d k a left made C N p. unfold create_csv in C. apply bind_ok in C as (rows & E & C). apply bind_ok in C as (x & D & C). assert (x = left) as -> by congruence.
  assert (M : made = flat_map (makes new_name k Main) left) by congruence. rewrite M, in_flat_map. assert (K : forall r c, In p (match path_in r c with Some q => [q] | None => [] end) <-> at_ r c p).
  { intros r c. unfold path_in, at_. destruct (lookup r c) as [[q|t|l]|]; cbn; split; try (intros []; fail); try discriminate; [intros [->|[]]; reflexivity|intros H; left; congruence]. }
  split; intros (r & I & H); exists r; (split; [exact I|]); destruct k; try congruence; cbn [makes] in *; now apply K.
Qed.
(** A step without tasks is a ValueError; the array of jobs has one for each row *)
Theorem C193_array : forall rows, array_end rows = match List.length rows with O => Raise ValueError | S n => Ok n end.
Proof. intros [|r rows]; reflexivity. Qed.

(** ** Findings *)
Definition example_args (ss ctl : list string) : args :=
  {| types := ["HMS-HMS"]; mets := [["1e+00_Zsun"; "1e-01_Zsun"]]; slices := [ss]; comps := [["LITE"; "LITE_RLO"]]; originals := []; methods := ["linear"; "1NN"]; profiles := ["radius"];
     control := [ctl]; stop := "0"; rerun_type := ""; cluster := ""; plots := ["age"]; checks := ["rate"]; extension := "pdf"; version := "v2"; root := "/grids"; out := "." |}.
Example tasks_case : exists rows, table S4 Main (example_args ["a"] ["b"]) = Ok rows /\ List.length rows = 8%nat /\
  nth 2 rows [] = [("path_to_grid", P ["/grids"; "HMS-HMS"; "v2"; "1e+00_Zsun"; "LITE_RLO"; "a.h5"]); ("grid_type", T "HMS-HMS"); ("interpolation_method", T "linear_RLO");
                   ("path_to_interpolator", P ["/grids"; "HMS-HMS"; "v2"; "1e+00_Zsun"; "interpolation_objects"; "IF_linear_RLO.pkl"])].
Proof. eexists. split; [vm_compute; reflexivity|]. split; reflexivity. Qed.
Example plots_case : exists rows, table S4 Plots (example_args ["a"] ["b"]) = Ok rows /\ List.length rows = 8%nat.
Proof. eexists. split; [vm_compute; reflexivity|]. reflexivity. Qed.
Example step5_case : exists rows, table S5 Main (example_args ["a"] ["b"]) = Ok rows /\ List.length rows = 8%nat.
Proof. eexists. split; [vm_compute; reflexivity|]. reflexivity. Qed.
Example drop_case : exists left made, create_csv (fun p _ => p) (fun _ => false) [["/grids"; "HMS-HMS"; "v2"; "1e-01_Zsun"; "LITE"; "a.h5"]] true S4 Main (example_args ["a"] ["b"]) = Ok (left, made) /\ List.length left = 2%nat.
Proof. eexists. eexists. split; [vm_compute; reflexivity|]. reflexivity. Qed.
(** "The checks of step 4 use interpolators which the step makes" is false: they look for those of step 5 *)
Theorem C193_checks4_refuted : ~ (forall a rows checks_, table S4 Main a = Ok rows -> table S4 Checks a = Ok checks_ -> forall r p, In r checks_ -> at_ r "path_to_interpolator" p ->
  exists r', In r' rows /\ at_ r' "path_to_interpolator" p).
Proof.
  intros H. destruct (table S4 Main (example_args ["a"] ["b"])) as [rows|] eqn:E; [|vm_compute in E; discriminate E]. destruct (table S4 Checks (example_args ["a"] ["b"])) as [cs|] eqn:EC; [|vm_compute in EC; discriminate EC].
  assert (I : exists r, In r cs /\ at_ r "path_to_interpolator" ["/grids"; "HMS-HMS"; "v2"; "1e+00_Zsun"; "interpolation_objects"; "profile_linear.pkl"]).
  { vm_compute in EC. match type of EC with Ok (?r :: ?l) = _ => exists r; assert (X : cs = r :: l) by congruence; rewrite X; split; [now left|reflexivity] end. }
  destruct I as (r & I & A). destruct (H _ _ _ E EC r _ I A) as (r' & I' & A'). apply (C193_step4 _ _ E) in I' as (l & i & t & m & s & c & x & G & X & ->). unfold at_ in A'. cbn in A'.
  assert (K := f_equal (fun o => match o with Some (P p) => last p "" | _ => "" end) A'). cbn in K. discriminate K.
Qed.
(** "The checks of step 5 use interpolators which the step makes" is false: they look for those of step 4 *)
Theorem C193_checks5_refuted : ~ (forall a rows checks_, table S5 Main a = Ok rows -> table S5 Checks a = Ok checks_ -> forall r p, In r checks_ -> at_ r "path_to_interpolator" p ->
  exists r', In r' rows /\ at_ r' "path_to_profile_interpolator" p).
Proof.
  intros H. destruct (table S5 Main (example_args ["a"] ["b"])) as [rows|] eqn:E; [|vm_compute in E; discriminate E]. destruct (table S5 Checks (example_args ["a"] ["b"])) as [cs|] eqn:EC; [|vm_compute in EC; discriminate EC].
  assert (I : exists r, In r cs /\ at_ r "path_to_interpolator" ["/grids"; "HMS-HMS"; "v2"; "1e+00_Zsun"; "interpolation_objects"; "IF_linear.pkl"]).
  { vm_compute in EC. match type of EC with Ok (?r :: ?l) = _ => exists r; assert (X : cs = r :: l) by congruence; rewrite X; split; [now left|reflexivity] end. }
  destruct I as (r & I & A). destruct (H _ _ _ E EC r _ I A) as (r' & I' & A'). apply (table_in _ _ _ _ _ E) in I' as (l & i & t & m & s & c & G & I'). cbn [rows_of main_rows example_args profiles methods] in I'.
  apply in_map_iff in I' as (x & <- & X). unfold at_ in A'. cbn in A'. assert (K := f_equal (fun o => match o with Some (P p) => last p "" | _ => "" end) A'). cbn in K. discriminate K.
Qed.
(** "Two tasks of step 4 make different files" is false for two slices: the interpolators have no name of a slice *)
Theorem C193_overwrite_refuted : ~ (forall a rows i j r r' p, table S4 Main a = Ok rows -> nth_error rows i = Some r -> nth_error rows j = Some r' -> at_ r "path_to_interpolator" p -> at_ r' "path_to_interpolator" p -> i = j).
Proof.
  intros H. destruct (table S4 Main (example_args ["a"; "b"] [])) as [rows|] eqn:E; [|vm_compute in E; discriminate E].
  assert (K : 0%nat = 4%nat); [|discriminate K]. assert (E0 := E). vm_compute in E.
  apply (H (example_args ["a"; "b"] []) rows 0%nat 4%nat (nth 0 rows []) (nth 4 rows []) ["/grids"; "HMS-HMS"; "v2"; "1e+00_Zsun"; "interpolation_objects"; "IF_linear.pkl"]).
  - exact E0.
  - match type of E with Ok ?l = _ => assert (X : rows = l) by congruence end. rewrite X. reflexivity.
  - match type of E with Ok ?l = _ => assert (X : rows = l) by congruence end. rewrite X. reflexivity.
  - match type of E with Ok ?l = _ => assert (X : rows = l) by congruence end. rewrite X. reflexivity.
  - match type of E with Ok ?l = _ => assert (X : rows = l) by congruence end. rewrite X. reflexivity.
Qed.

Print Assumptions C193_count.
Print Assumptions C193_step1.
Print Assumptions C193_step3.
Print Assumptions C193_step4.
Print Assumptions C193_step5.
Print Assumptions C193_plots4.
Print Assumptions C193_plots5.
Print Assumptions C193_drop.
Print Assumptions C193_keep.
Print Assumptions C193_made.
Print Assumptions C193_array.
Print Assumptions C193_checks4_refuted.
Print Assumptions C193_checks5_refuted.
Print Assumptions C193_overwrite_refuted.
