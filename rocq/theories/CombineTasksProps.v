(** The tasks of step_2 of the pipeline (CombineTasksModel): C194. *)
From Coq Require Import String List Bool Arith Lia.
From Verif Require Import PyBase FromRunProofs RunScriptModel PipeTasksModel PipeTasksProps CombineTasksModel.
Import ListNotations.
Open Scope list_scope.
Open Scope string_scope.
Local Infix "+++" := (@app _) (at level 60, right associativity).

(** ** The specification *)

(** Type number [l] with a metallicity, the batch number [i] with the name of its combined grid, and a compression *)
Definition given2 (a : args2) (l : nat) (t m : string) (b : list string) (n c : string) : Prop :=
  nth_error (types (common a)) l = Some t /\ In m (nth l (mets (common a)) []) /\ (exists i, nth_error (nth l (batches a) []) i = Some b /\ nth_error (nth l (combined a) []) i = Some n) /\ In c (nth l (comps (common a)) []).

Lemma type2_in a l t x col : type_columns a l t = Ok x -> In col x <-> exists m i c, In m (nth l (mets (common a)) []) /\ (i < List.length (nth l (batches a) []))%nat /\ In c (nth l (comps (common a)) []) /\
  col = (directory (common a) t m +++ [c; nth i (nth l (combined a) []) "" ++ ".h5"], map (fun s => directory (common a) t m +++ [c; s ++ ".h5"]) (nth i (nth l (batches a) []) [])).
Proof.
  intros E. unfold type_columns in E. match type of E with (if ?b then _ else _) = _ => destruct b end; [discriminate|]. match type of E with Ok ?y = _ => assert (X : x = y) by congruence end. rewrite X, in_flat_map. split.
  - intros (m & M & I). apply in_flat_map in I as (i & II & I). apply in_map_iff in I as (c & I & C). apply in_seq in II. exists m, i, c. repeat split; try assumption; [lia|congruence].
  - intros (m & i & c & M & II & C & ->). exists m. split; [exact M|]. apply in_flat_map. exists i. split; [apply in_seq; lia|]. apply in_map_iff. now exists c.
Qed.
Lemma type2_lengths a l t x : type_columns a l t = Ok x -> forall m c i, In m (nth l (mets (common a)) []) -> In c (nth l (comps (common a)) []) -> (i < List.length (nth l (batches a) []))%nat ->
  List.length (nth l (batches a) []) = List.length (nth l (combined a) []).
Proof.
  intros E m c i M C I. unfold type_columns in E. destruct (Nat.eqb_spec (List.length (nth l (batches a) [])) (List.length (nth l (combined a) []))) as [Q|Q]; [exact Q|]. exfalso. cbn [negb andb] in E.
  destruct (Nat.eqb_spec (List.length (nth l (mets (common a)) []) * List.length (nth l (batches a) []) * List.length (nth l (comps (common a)) [])) 0) as [Z|Z]; cbn [negb] in E; [|discriminate].
  destruct (nth l (mets (common a)) []); [destruct M|]. destruct (nth l (comps (common a)) []); [destruct C|]. cbn [List.length] in *. nia.
Qed.
Lemma all2_in a : forall ts l x col, all_columns a l ts = Ok x -> In col x <-> exists j t y, nth_error ts j = Some t /\ type_columns a (l + j) t = Ok y /\ In col y.
Proof.
  induction ts as [|t ts IH]; intros l x r E; cbn in E.
  - assert (x = []) as -> by congruence. split; [intros []|]. intros (j & t & y & N & _). destruct j; discriminate N.
  - apply bind_ok in E as (y & E1 & E). apply bind_ok in E as (z & E2 & E). assert (x = y +++ z) as -> by congruence. rewrite in_app_iff, (IH _ _ r E2). split.
    + intros [I|(j & t' & y' & N & Y & I)]; [exists 0%nat, t, y; rewrite Nat.add_0_r; now split|]. exists (S j), t', y'. rewrite Nat.add_succ_r. now split.
    + intros (j & t' & y' & N & Y & I). destruct j as [|j]; cbn in N.
      * assert (t' = t) as -> by congruence. rewrite Nat.add_0_r in Y. left. assert (y' = y) as -> by congruence. exact I.
      * right. exists j, t', y'. rewrite Nat.add_succ_r in Y. now split.
Qed.
Lemma all2_ok a : forall ts l x, all_columns a l ts = Ok x -> forall j t, nth_error ts j = Some t -> exists y, type_columns a (l + j) t = Ok y.
Proof.
  induction ts as [|t ts IH]; intros l x E j t' N; [destruct j; discriminate N|]. cbn in E. apply bind_ok in E as (y & E1 & E). apply bind_ok in E as (z & E2 & _). destruct j as [|j]; cbn in N.
  - assert (t' = t) as -> by congruence. rewrite Nat.add_0_r. now exists y.
  - rewrite Nat.add_succ_r. exact (IH (S l) z E2 j t' N).
Qed.
(** ** C194 *)

(** The columns: for each type, metallicity, batch and compression the combined grid, made of the slices of the batch in their order *)
Theorem C194 : forall a cols, table2 a = Ok cols -> forall name files, In (name, files) cols <-> exists l t m b n c, given2 a l t m b n c /\
  name = place (common a) t m +++ [c; n ++ ".h5"] /\ files = map (fun s => place (common a) t m +++ [c; s ++ ".h5"]) b.
Proof.
  intros a cols E name files. unfold table2 in E. match type of E with (if ?b then _ else _) = _ => destruct b end; [|discriminate]. rewrite (all2_in _ _ _ _ (name, files) E). split.
  - intros (l & t & y & N & Y & I). cbn [plus] in Y. apply (type2_in _ _ _ _ _ Y) in I as (m & i & c & M & II & C & Q). assert (LL := type2_lengths _ _ _ _ Y m c i M C II).
    exists l, t, m, (nth i (nth l (batches a) []) []), (nth i (nth l (combined a) []) ""), c. split; [|split; [unfold place; unfold directory in Q; congruence|unfold place; unfold directory in Q; congruence]].
    split; [exact N|]. split; [exact M|]. split; [|exact C]. exists i. split; apply nth_error_nth'; lia.
  - intros (l & t & m & b & n & c & (N & M & (i & B & NN) & C) & -> & ->). destruct (all2_ok _ _ _ _ E l t N) as [y Y]. cbn [plus] in Y. exists l, t, y. split; [exact N|]. split; [exact Y|].
    apply (type2_in _ _ _ _ _ Y). exists m, i, c. split; [exact M|]. split; [apply nth_error_Some; congruence|]. split; [exact C|]. rewrite (nth_error_nth _ _ "" NN), (nth_error_nth _ _ [] B). reflexivity.
Qed.
(** The table is made just if the lists are as long as the list of types, and each type with a task has as many names as batches; else there is a ValueError *)
Definition matching (a : args2) : Prop :=
  (forall k, In k [List.length (mets (common a)); List.length (batches a); List.length (comps (common a)); List.length (combined a)] -> k = List.length (types (common a))) /\
  forall l m b c, (l < List.length (types (common a)))%nat -> In m (nth l (mets (common a)) []) -> In b (nth l (batches a) []) -> In c (nth l (comps (common a)) []) ->
    List.length (nth l (batches a) []) = List.length (nth l (combined a) []).
Lemma type2_total a l t : (forall m b c, In m (nth l (mets (common a)) []) -> In b (nth l (batches a) []) -> In c (nth l (comps (common a)) []) -> List.length (nth l (batches a) []) = List.length (nth l (combined a) [])) ->
  exists y, type_columns a l t = Ok y.
Proof.
  intros H. unfold type_columns. destruct (Nat.eqb_spec (List.length (nth l (batches a) [])) (List.length (nth l (combined a) []))) as [Q|Q]; [cbn [negb andb]; eexists; reflexivity|].
  destruct (Nat.eqb_spec (List.length (nth l (mets (common a)) []) * List.length (nth l (batches a) []) * List.length (nth l (comps (common a)) [])) 0) as [Z|Z]; [cbn [negb andb]; eexists; reflexivity|]. exfalso. apply Q.
  destruct (nth l (mets (common a)) []) as [|m ?]; [now cbn in Z|]. destruct (nth l (batches a) []) as [|b ?] eqn:BB; [cbn in Z; lia|]. destruct (nth l (comps (common a)) []) as [|c ?]; [cbn in Z; lia|].
  apply (H m b c); now left.
Qed.
Lemma all2_error a : forall ts l e, all_columns a l ts = Raise e -> e = ValueError /\ exists j t, nth_error ts j = Some t /\ forall y, type_columns a (l + j) t <> Ok y.
Proof.
  induction ts as [|t ts IH]; intros l e E; cbn in E; [discriminate|]. destruct (type_columns a l t) as [x|e'] eqn:T; cbn [rbind] in E.
  - destruct (all_columns a (S l) ts) as [z|e2] eqn:A; cbn [rbind] in E; [discriminate|]. destruct (IH _ _ A) as (V & j & t' & N & Y). split; [congruence|]. exists (S j), t'. split; [exact N|]. now rewrite Nat.add_succ_r.
  - split; [|exists 0%nat, t; split; [reflexivity|]; intros y; rewrite Nat.add_0_r; congruence]. unfold type_columns in T. match type of T with (if ?b then _ else _) = _ => destruct b end; congruence.
Qed.
Theorem C194_total : forall a, (matching a -> exists cols, table2 a = Ok cols) /\ (~ matching a -> table2 a = Raise ValueError).
Proof.
  intros a. split.
  - intros [L M]. destruct (table2 a) as [cols|e] eqn:E; [now exists cols|]. exfalso. unfold table2 in E.
    assert (L1 := L _ (or_introl eq_refl)). assert (L2 := L _ (or_intror (or_introl eq_refl))). assert (L3 := L _ (or_intror (or_intror (or_introl eq_refl)))). assert (L4 := L _ (or_intror (or_intror (or_intror (or_introl eq_refl))))).
    rewrite L1, L2, L3, L4, Nat.eqb_refl in E. cbn [andb] in E. destruct (all2_error _ _ _ _ E) as (_ & j & t & N & Y). cbn [plus] in Y.
    destruct (type2_total a j t) as [y Q]; [|exact (Y y Q)]. intros m b c. apply M. apply nth_error_Some. congruence.
  - intros N. destruct (table2 a) as [cols|e] eqn:E.
    + exfalso. apply N. unfold table2 in E. match type of E with (if ?b then _ else _) = _ => destruct b eqn:B end; [|discriminate]. rewrite !andb_true_iff, !Nat.eqb_eq in B. destruct B as [[[B1 B2] B3] B4]. split.
      * intros k [<-|[<-|[<-|[<-|[]]]]]; congruence.
      * intros l m b c LL M I C. destruct (nth_error (types (common a)) l) as [t|] eqn:T; [|apply nth_error_None in T; lia]. destruct (all2_ok _ _ _ _ E l t T) as [y Y]. cbn [plus] in Y.
        apply In_nth_error in I as (i & I). apply (type2_lengths _ _ _ _ Y m c i M C). apply nth_error_Some. congruence.
    + unfold table2 in E. match type of E with (if ?b then _ else _) = _ => destruct b end; [|congruence]. apply all2_error in E as [-> _]. reflexivity.
Qed.
Lemma previous_spec there previous p : there p || existsb (path_eqb p) previous = true <-> there p = true \/ In p previous.
Proof.
  rewrite orb_true_iff, existsb_exists. split; [intros [T|(q & Q & PE)]; [now left|right; unfold path_eqb in PE; destruct (list_eq_dec string_dec p q) as [->|]; [exact Q|discriminate]]|].
  intros [T|Q]; [now left|right; exists p; split; [exact Q|]]. unfold path_eqb. now destruct (list_eq_dec string_dec p p).
Qed.
(** With DROP_MISSING_FILES each grid is combined from those of its slices which are there or made by earlier steps, in their order; a grid with none is left out *)
Theorem C194_drop : forall there previous a cols left made, table2 a = Ok cols -> create_csv2 there previous true a = Ok (left, made) ->
  exists f, (forall p, f p = true <-> there p = true \/ In p previous) /\ made = map fst left /\
  forall name files, In (name, files) left <-> files <> [] /\ exists all, In (name, all) cols /\ files = filter f all.
Proof.
  intros there previous a cols left made E C. unfold create_csv2 in C. rewrite E in C. cbn [rbind] in C. apply bind_ok in C as (x & D & C). assert (x = left) as -> by congruence.
  exists (fun p => there p || existsb (path_eqb p) previous). split; [intros p; apply previous_spec|]. split; [congruence|]. unfold drop2 in D. match type of D with (if ?b then _ else _) = _ => destruct b end; [discriminate|].
  match type of D with Ok ?y = _ => assert (X : left = y) by congruence end. rewrite X. intros name files. rewrite filter_In, in_map_iff. split.
  - intros [([n all] & Q & I) S]. cbn [fst snd] in Q. assert (n = name) as -> by congruence. split; [intros ->; discriminate S|]. exists all. split; [exact I|congruence].
  - intros [N (all & I & ->)]. split; [now exists (name, all)|]. unfold some_cell. cbn [snd]. match goal with |- context [match ?u with [] => _ | _ => _ end] => destruct u eqn:U end; [congruence|reflexivity].
Qed.
(** Without it all columns are written *)
Theorem C194_keep : forall there previous a cols left made, table2 a = Ok cols -> create_csv2 there previous false a = Ok (left, made) -> left = cols /\ made = map fst cols.
Proof. intros there previous a cols left made E C. unfold create_csv2 in C. rewrite E in C. cbn [rbind] in C. split; congruence. Qed.

(** The slices of step 2 are among those step 1 makes, if they are slices of step 1 and the normal form of a path of step 1 is the path itself *)
Lemma removelast_snoc {A} (l : list A) x : removelast (l +++ [x]) = l.
Proof. now rewrite removelast_app, app_nil_r by discriminate. Qed.
Theorem C194_chain : forall norm there previous a a2 rows left made cols, common a2 = a -> (forall t m s, norm (place a t m +++ [s]) = place a t m +++ [s]) ->
  (forall l b s, In b (nth l (batches a2) []) -> In s b -> In s (nth l (slices a) [])) -> table S1 Main a = Ok rows -> create_csv (new_grid_name norm) there previous false S1 Main a = Ok (left, made) -> table2 a2 = Ok cols ->
  forall name files p, In (name, files) cols -> In p files -> In p made.
Proof.
  intros norm there previous a a2 rows left made cols CM NORM SUB E C E2 name files p I J. assert (LR := C193_keep _ _ _ _ _ _ _ _ _ E C). subst left.
  assert (M : made = flat_map (makes (new_grid_name norm) S1 Main) rows) by (unfold create_csv in C; rewrite E in C; cbn [rbind] in C; congruence).
  apply (C194 a2 cols E2) in I as (l & t & m & b & n & c & (N & MT & (i & B & _) & CC) & _ & ->). rewrite CM in *. apply in_map_iff in J as (s & <- & S).
  assert (IS : In s (nth l (slices a) [])) by (apply (SUB l b s); [exact (nth_error_In _ _ B)|exact S]). apply In_nth_error in IS as (k & K).
  rewrite M. apply in_flat_map. eexists. split; [apply (C193_step1 a rows E); exists l, k, t, m, s, c; split; [split; [exact N|split; [exact MT|split; [exact K|exact CC]]]|reflexivity]|].
  left. change (new_grid_name norm (place a t m +++ [s]) c = place a t m +++ [c; s ++ ".h5"]). unfold new_grid_name. rewrite NORM, removelast_snoc, last_last. reflexivity.
Qed.
(** so none is dropped *)
Theorem C194_complete : forall norm there previous a a2 rows left made cols left2 made2, common a2 = a -> (forall t m s, norm (place a t m +++ [s]) = place a t m +++ [s]) ->
  (forall l b s, In b (nth l (batches a2) []) -> In s b -> In s (nth l (slices a) [])) -> table S1 Main a = Ok rows -> create_csv (new_grid_name norm) there previous false S1 Main a = Ok (left, made) -> table2 a2 = Ok cols ->
  create_csv2 there made true a2 = Ok (left2, made2) -> forall name files, files <> [] -> In (name, files) left2 <-> In (name, files) cols.
Proof.
  intros norm there previous a a2 rows left made cols left2 made2 CM NORM SUB E C E2 C2 name files NE. destruct (C194_drop there made a2 cols left2 made2 E2 C2) as (f & F & _ & D).
  assert (ALL : forall n all, In (n, all) cols -> filter f all = all).
  { intros n all I. assert (H : forall p, In p all -> f p = true) by (intros p J; apply F; right; exact (C194_chain norm there previous a a2 rows left made cols CM NORM SUB E C E2 n all p I J)).
    clear - H. induction all as [|p all IH]; [reflexivity|]. cbn. rewrite (H p (or_introl eq_refl)). f_equal. apply IH. intros q J. apply H. now right. }
  rewrite D. split.
  - intros [_ (all & I & ->)]. now rewrite (ALL name all I).
  - intros I. split; [exact NE|]. exists files. split; [exact I|]. now rewrite (ALL name files I).
Qed.
(** ** Concrete cases; [dots] is normpath for paths whose only "." is the first part *)
Definition dots (p : path) : path := match p with "." :: q => q | _ => p end.
Definition case1 (r : string) : args :=
  {| types := ["HMS-HMS"]; mets := [["1e+00_Zsun"]]; slices := [["a"; "b"]]; comps := [["LITE"]]; originals := []; methods := []; profiles := []; control := []; stop := "0"; rerun_type := ""; cluster := "";
     plots := []; checks := []; extension := "pdf"; version := ""; root := r; out := "." |}.
Definition case2 (r : string) : args2 := {| common := case1 r; batches := [[["b"; "a"]]]; combined := [["ab"]] |}.
Example columns_case : table2 (case2 "/grids") = Ok [(["/grids"; "HMS-HMS"; "1e+00_Zsun"; "LITE"; "ab.h5"], [["/grids"; "HMS-HMS"; "1e+00_Zsun"; "LITE"; "b.h5"]; ["/grids"; "HMS-HMS"; "1e+00_Zsun"; "LITE"; "a.h5"]])].
Proof. reflexivity. Qed.
Example mismatch_case : table2 {| common := case1 "/grids"; batches := [[["b"]; ["a"]]]; combined := [["ab"]] |} = Raise ValueError.
Proof. reflexivity. Qed.
Example made_case : exists left, create_csv (new_grid_name dots) (fun _ => false) [] false S1 Main (case1 "/grids") =
  Ok (left, [["/grids"; "HMS-HMS"; "1e+00_Zsun"; "LITE"; "a.h5"]; ["/grids"; "HMS-HMS"; "1e+00_Zsun"; "LITE"; "b.h5"]]).
Proof. eexists. reflexivity. Qed.
Example normal_case : forall t m s, dots (place (case1 "/grids") t m +++ [s]) = place (case1 "/grids") t m +++ [s].
Proof. reflexivity. Qed.
Example dropped_case : create_csv2 (fun _ => false) [["/grids"; "HMS-HMS"; "1e+00_Zsun"; "LITE"; "a.h5"]] true (case2 "/grids") =
  Ok ([(["/grids"; "HMS-HMS"; "1e+00_Zsun"; "LITE"; "ab.h5"], [["/grids"; "HMS-HMS"; "1e+00_Zsun"; "LITE"; "a.h5"]])], [["/grids"; "HMS-HMS"; "1e+00_Zsun"; "LITE"; "ab.h5"]]).
Proof. reflexivity. Qed.
(** "The slices which step 1 makes are not dropped in step 2" is false if PATH_TO_GRIDS is not in normal form: for "." all are dropped *)
Theorem C194_relative_refuted : ~ (forall there a a2 left made cols left2 made2, common a2 = a -> (forall l b s, In b (nth l (batches a2) []) -> In s b -> In s (nth l (slices a) [])) ->
  create_csv (new_grid_name dots) there [] false S1 Main a = Ok (left, made) -> table2 a2 = Ok cols -> create_csv2 there made true a2 = Ok (left2, made2) -> forall name files, In (name, files) cols -> In (name, files) left2).
Proof.
  intros H. destruct (create_csv (new_grid_name dots) (fun _ => false) [] false S1 Main (case1 ".")) as [[left made]|] eqn:E; [|discriminate E].
  assert (M : made = [["HMS-HMS"; "1e+00_Zsun"; "LITE"; "a.h5"]; ["HMS-HMS"; "1e+00_Zsun"; "LITE"; "b.h5"]]) by (assert (K := f_equal (fun r : result (list row * list path) => match r with Ok x => snd x | Raise _ => [] end) E); vm_compute in K; symmetry; exact K).
  assert (I : In (["."; "HMS-HMS"; "1e+00_Zsun"; "LITE"; "ab.h5"], [["."; "HMS-HMS"; "1e+00_Zsun"; "LITE"; "b.h5"]; ["."; "HMS-HMS"; "1e+00_Zsun"; "LITE"; "a.h5"]]) ([] : list column)); [|destruct I].
  apply (H (fun _ => false) (case1 ".") (case2 ".") left made [(["."; "HMS-HMS"; "1e+00_Zsun"; "LITE"; "ab.h5"], [["."; "HMS-HMS"; "1e+00_Zsun"; "LITE"; "b.h5"]; ["."; "HMS-HMS"; "1e+00_Zsun"; "LITE"; "a.h5"]])] [] []).
  - reflexivity.
  - intros l b s B S. destruct l as [|[|l]]; [|destruct B|destruct B]. destruct B as [<-|[]]. cbn in *. tauto.
  - exact E.
  - reflexivity.
  - rewrite M. reflexivity.
  - now left.
Qed.

Print Assumptions C194.
Print Assumptions C194_total.
Print Assumptions C194_drop.
Print Assumptions C194_keep.
Print Assumptions C194_chain.
Print Assumptions C194_complete.
Print Assumptions C194_relative_refuted.
