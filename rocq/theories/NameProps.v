(** C68: the parameters of a run are read from the name of its directory. *)
From Coq Require Import Ascii String List Bool PeanoNat Wf_nat Lia.
From Verif Require Import PyBase PyStr PySplit RloModel JoinModel.
Import ListNotations.
Open Scope string_scope.
Open Scope nat_scope.
Open Scope list_scope.

(** ** Specification *)
Definition chars := list_ascii_of_string.
(** A number as it is written in a name. *)
Definition number (v : string) : Prop := forall c, In c (chars v) -> In c (chars "0123456789.+-eE").
Definition NAMES := [ "m1"; "m2"; "initial_period_in_days"; "initial_z"; "initial_eccentricity"; "initial_mass"; "grid_index" ].
Definition field := (string * string)%type.
(** The name of a directory: fields in any order, "name_value", with "_" in between. *)
Fixpoint dir_text (l : list field) : string :=
  match l with
  | [] => ""
  | [ (n, v) ] => n ++ "_" ++ v
  | (n, v) :: l' => n ++ "_" ++ v ++ "_" ++ dir_text l'
  end.
Definition well_formed (l : list field) : Prop := NoDup (map fst l) /\ forall n v, In (n, v) l -> In n NAMES /\ number v.
(** A field of this name and value. *)
Definition fields_of (l : list field) (names values : list string) : Prop := Forall2 (fun n v => In (n, v) l) names values.

(** ** Lemmas *)
Definition prep (a : string) (x : option (string * string)) : option (string * string) :=
  match x with Some (u, v) => Some ((a ++ u)%string, v) | None => None end.
Definition skips (sep a : string) : Prop := forall r, partition sep (a ++ r) = prep a (partition sep r).
Lemma skips_app sep a b : skips sep a -> skips sep b -> skips sep (a ++ b).
Proof.
  intros A B r. rewrite <- str_app_assoc, A, B. destruct (partition sep r) as [[u v]|]; cbn; [|reflexivity]. rewrite str_app_assoc. reflexivity.
Qed.
Lemma skips_nil sep : skips sep "".
Proof. intros r. cbn. destruct (partition sep r) as [[u v]|]; reflexivity. Qed.
Lemma skips_char sep c a : (forall r, prefix sep (String c (a ++ r)) = false) -> skips sep a -> skips sep (String c a).
Proof.
  intros P A r. change ((String c a ++ r)%string) with (String c (a ++ r)). unfold partition. fold partition. rewrite P, A. destruct (partition sep r) as [[u v]|]; reflexivity.
Qed.
Definition mismatch (a b : string) : bool := negb (prefix a b) && negb (prefix b a).
Lemma mismatch_prefix : forall a b r, mismatch a b = true -> prefix a (b ++ r) = false.
Proof.
  induction a as [|x a IH]; intros [|y b] r M; unfold mismatch in M; cbn [prefix negb andb] in M; try discriminate.
  cbn [append prefix]. destruct (ascii_dec x y) as [E|]; [|reflexivity]. apply IH. unfold mismatch.
  destruct (ascii_dec y x) as [_|N]; [exact M|congruence].
Qed.
(** No suffix of [a] agrees with [sep] as far as both go. *)
Fixpoint foreign (sep a : string) : bool := match a with EmptyString => true | String _ a' => mismatch sep a && foreign sep a' end.
Lemma foreign_skips sep : forall a, foreign sep a = true -> skips sep a.
Proof.
  induction a as [|c a IH]; intros F; [apply skips_nil|]. cbn [foreign] in F. apply andb_prop in F as [M F].
  apply skips_char; [|apply IH; exact F]. intros r. exact (mismatch_prefix sep (String c a) r M).
Qed.
Lemma number_foreign sep : forallb (fun c => match sep with String d _ => negb (Ascii.eqb c d) | EmptyString => false end) (chars "0123456789.+-eE") = true ->
  forall v, number v -> skips sep v.
Proof.
  intros H. induction v as [|c v IH]; intros N; [apply skips_nil|]. apply skips_char.
  - intros r. assert (I := N c (or_introl eq_refl)). rewrite forallb_forall in H. specialize (H c I). destruct sep as [|d sep]; [discriminate|].
    cbn [prefix]. destruct (ascii_dec d c) as [-> |]; [|reflexivity]. rewrite Ascii.eqb_refl in H. discriminate.
  - apply IH. intros d I. apply N. right. exact I.
Qed.
(** For every two of the names. *)
Lemma names_foreign : forall n n', In n NAMES -> In n' NAMES -> n <> n' ->
  skips (n ++ "_") (n' ++ "_") /\ skips n (n' ++ "_").
Proof.
  assert (H : forallb (fun n => forallb (fun n' => String.eqb n n' || foreign (n ++ "_") (n' ++ "_") && foreign n (n' ++ "_")) NAMES) NAMES = true) by (vm_compute; reflexivity).
  intros n n' I I' N. rewrite forallb_forall in H. specialize (H n I). rewrite forallb_forall in H. specialize (H n' I').
  destruct (String.eqb_spec n n') as [|_]; [contradiction|]. apply andb_prop in H as [A B]. split; apply foreign_skips; assumption.
Qed.
Lemma names_number : forall n v, In n NAMES -> number v -> skips (n ++ "_") v /\ skips n v.
Proof.
  intros n v I V. split; apply number_foreign; try exact V; cbn in I; repeat destruct I as [<-|I]; try (vm_compute; reflexivity); destruct I.
Qed.
Lemma names_bar : forall n, In n NAMES -> skips (n ++ "_") "_" /\ skips n "_".
Proof. intros n I. split; apply foreign_skips; cbn in I; repeat destruct I as [<-|I]; try (vm_compute; reflexivity); destruct I. Qed.
(** The text of a well-formed name from some field on. *)
Definition tail_text (l : list field) : string := match l with [] => "" | _ => ("_" ++ dir_text l)%string end.
Lemma dir_cons n v l : dir_text ((n, v) :: l) = ((n ++ "_") ++ v ++ tail_text l)%string.
Proof. destruct l as [|[n' v'] l]; cbn [dir_text tail_text]; rewrite <- !str_app_assoc; cbn [append]; [rewrite str_app_nil|]; reflexivity. Qed.
Lemma part_miss n sep : In n NAMES -> sep = (n ++ "_")%string \/ sep = n -> forall l, (forall n' v, In (n', v) l -> In n' NAMES /\ number v) -> ~ In n (map fst l) -> partition sep (dir_text l) = None /\ partition sep (tail_text l) = None.
Proof.
  intros IN S. assert (E0 : partition sep "" = None) by (destruct S as [-> | ->]; cbn in IN; repeat destruct IN as [<-|IN]; try reflexivity; destruct IN).
  induction l as [|[n' v] l IH]; intros W NI; [split; exact E0|].
  destruct (W n' v (or_introl eq_refl)) as [IN' NV]. cbn in NI.
  destruct (IH (fun a b H => W a b (or_intror H)) (fun H => NI (or_intror H))) as [_ T].
  assert (D : partition sep (dir_text ((n', v) :: l)) = None).
  { rewrite dir_cons. destruct (names_foreign n n' IN IN') as [A B]; [intros ->; apply NI; left; reflexivity|]. destruct (names_number n v IN NV) as [A' B'].
    destruct S as [-> | ->]; [rewrite A, A', T|rewrite B, B', T]; reflexivity. }
  split; [exact D|]. cbn [tail_text]. destruct (names_bar n IN) as [A B]. destruct S as [-> | ->]; [rewrite A, D|rewrite B, D]; reflexivity.
Qed.
Lemma part_here sep r : partition sep (sep ++ r) = Some ("", r).
Proof. apply partition_some. split; [reflexivity|]. intros a' b' _. apply Nat.le_0_l. Qed.
Lemma part_hit n v : In n NAMES -> forall l, (forall n' v', In (n', v') l -> In n' NAMES /\ number v') -> NoDup (map fst l) -> In (n, v) l ->
  exists pre rest, partition (n ++ "_") (dir_text l) = Some (pre, (v ++ tail_text rest)%string) /\ (forall f, In f rest -> In f l) /\ ~ In n (map fst rest).
Proof.
  intros IN. induction l as [|[n' v'] l IH]; intros W ND I; [destruct I|]. cbn in ND. inversion ND as [|? ? NI ND']; subst.
  destruct (W n' v' (or_introl eq_refl)) as [IN' NV]. destruct I as [E|I].
  - injection E as -> ->. exists "", l. rewrite dir_cons. split; [|split; [intros f F; right; exact F|exact NI]].
    apply part_here.
  - assert (N : n <> n') by (intros ->; apply NI; apply (in_map fst) in I; exact I).
    destruct (IH (fun a b H => W a b (or_intror H)) ND' I) as (pre & rest & P & R & NR). rewrite dir_cons.
    destruct (names_foreign n n' IN IN' N) as [A _]. destruct (names_number n v' IN NV) as [A' _]. destruct (names_bar n IN) as [A'' _].
    assert (T : tail_text l = ("_" ++ dir_text l)%string) by (destruct l; [destruct I|reflexivity]).
    exists ((n' ++ "_") ++ v' ++ "_" ++ pre)%string, rest. rewrite A, A', T, A'', P. cbn [prep]. split; [|split; [intros f F; right; apply R; exact F|exact NR]].
    reflexivity.
Qed.
Lemma number_no_bar : forall v r, number v -> partition "_" (v ++ String "_" r) = Some (v, r) /\ partition "_" v = None.
Proof.
  intros v r N. assert (S : skips "_" v) by (apply (number_foreign "_"); [vm_compute; reflexivity|exact N]). split.
  - rewrite S. assert (P : partition "_" (String "_" r) = Some ("", r)) by (unfold partition; fold partition; cbn [prefix]; destruct (ascii_dec "_" "_"); [destruct r; reflexivity|congruence]).
    rewrite P. cbn. rewrite str_app_nil. reflexivity.
  - specialize (S ""). rewrite str_app_nil in S. rewrite S. reflexivity.
Qed.
Lemma first_part v r : number v -> r = "" \/ (exists r', r = String "_" r') -> item (split "_" (v ++ r)) 0 = Ok v.
Proof.
  intros N [-> | [r' ->]].
  - rewrite str_app_nil, (split_one "_" v); [reflexivity|discriminate|]. apply (number_no_bar v ""). exact N.
  - rewrite (split_cons "_" _ v r'); [reflexivity|discriminate|]. apply (number_no_bar v r'). exact N.
Qed.
Lemma value_hit l n v : well_formed l -> In (n, v) l -> value_of (dir_text l) n = Ok v.
Proof.
  intros [ND W] I. destruct (W n v I) as [IN NV]. destruct (part_hit n v IN l W ND I) as (pre & rest & P & R & NR). unfold value_of.
  assert (NE : (n ++ "_")%string <> "") by (destruct n; discriminate).
  rewrite (split_cons _ _ _ _ NE P).
  assert (Q : partition (n ++ "_") (v ++ tail_text rest) = None).
  { destruct (names_number n v IN NV) as [A _]. rewrite A.
    destruct (part_miss n (n ++ "_") IN (or_introl eq_refl) rest (fun a b H => W a b (R _ H)) NR) as [_ T]. rewrite T. reflexivity. }
  rewrite (split_one _ _ NE Q). cbn [item nth_error rbind]. apply first_part; [exact NV|]. destruct rest; [left; reflexivity|right; eexists; reflexivity].
Qed.
Lemma value_miss l n : well_formed l -> In n NAMES -> ~ In n (map fst l) -> value_of (dir_text l) n = Raise IndexError.
Proof.
  intros [ND W] IN NI. unfold value_of. rewrite split_one; [reflexivity|destruct n; discriminate|]. apply (part_miss n (n ++ "_") IN (or_introl eq_refl) l W NI).
Qed.
Lemma in_text l n : well_formed l -> In n NAMES -> (py_in n (dir_text l) = true <-> In n (map fst l)).
Proof.
  intros [ND W] IN. split.
  - intros P. destruct (in_dec string_dec n (map fst l)) as [I|NI]; [exact I|]. exfalso.
    assert (Q := proj1 (part_miss n n IN (or_intror eq_refl) l W NI)). apply partition_none in Q. congruence.
  - intros I. apply in_map_iff in I as ([n' v] & E & I). cbn in E. subst n'. destruct (part_hit n v IN l W ND I) as (pre & rest & P & _ & _).
    apply partition_some in P as [P _]. rewrite P. apply py_in_iff. exists pre, ("_" ++ v ++ tail_text rest)%string. rewrite <- !str_app_assoc. reflexivity.
Qed.
(** Paths *)
Lemma slash_part : forall a d, (partition "/" a = None -> partition "/" (a ++ String "/" d) = Some (a, d)) /\
  (forall x y, partition "/" a = Some (x, y) -> partition "/" (a ++ String "/" d) = Some (x, (y ++ String "/" d)%string)).
Proof.
  assert (HIT : forall d, partition "/" (String "/" d) = Some ("", d)) by (intros d; unfold partition; fold partition; cbn [prefix]; destruct (ascii_dec "/" "/"); [destruct d; reflexivity|congruence]).
  induction a as [|c a IH]; intros d.
  - split; [intros _; apply HIT|discriminate].
  - destruct (IH d) as [A B]. destruct (ascii_dec "/" c) as [<-|N].
    + rewrite HIT. cbn [append]. rewrite HIT. split; [discriminate|]. intros x y E. injection E as <- <-. reflexivity.
    + assert (P : forall s, partition "/" (String c s) = prep (String c "") (partition "/" s)).
      { intros s. unfold partition. fold partition. cbn [prefix]. destruct (ascii_dec "/" c); [congruence|]. destruct (partition "/" s) as [[u v]|]; reflexivity. }
      cbn [append]. rewrite !P. destruct (partition "/" a) as [[u v]|].
      * split; [discriminate|]. intros x y E. cbn in E. injection E as <- <-. rewrite (B u v eq_refl). reflexivity.
      * split; [|discriminate]. intros _. rewrite (A eq_refl). reflexivity.
Qed.
Lemma split_slash a : forall d, split "/" (a ++ String "/" d) = split "/" a ++ split "/" d.
Proof.
  remember (String.length a) as n eqn:L. revert a L. induction n as [n IH] using lt_wf_ind. intros a L d.
  destruct (slash_part a d) as [A B]. destruct (partition "/" a) as [[x y]|] eqn:P.
  - rewrite (split_cons "/" _ _ _ ltac:(discriminate) (B x y eq_refl)), (split_cons "/" _ _ _ ltac:(discriminate) P). cbn. f_equal.
    apply (IH (String.length y)); [|reflexivity]. apply partition_some in P as [P _]. subst n. rewrite P, !len_app. cbn. lia.
  - rewrite (split_cons "/" _ _ _ ltac:(discriminate) (A eq_refl)), (split_one "/" a ltac:(discriminate) P). reflexivity.
Qed.
Lemma base_dir parent d : d <> "" -> py_in "/" d = false -> basename (parent ++ "/" ++ d) = d.
Proof.
  intros N P. unfold basename. change ("/" ++ d)%string with (String "/" d). rewrite split_slash, filter_app.
  rewrite (split_one "/" d ltac:(discriminate)) by (apply partition_none; exact P).
  cbn [filter]. destruct (String.eqb_spec d "") as [|_]; [contradiction|]. cbn [negb].
  assert (LA : forall l : list string, last (l ++ [d]) "" = d) by (intros l; apply last_last). apply LA.
Qed.
Lemma slash_free l : well_formed l -> py_in "/" (dir_text l) = false.
Proof.
  intros [_ W]. apply partition_none. assert (G : forall l, (forall n v, In (n, v) l -> In n NAMES /\ number v) -> partition "/" (dir_text l) = None).
  { clear. induction l as [|[n v] l IH]; intros W; [reflexivity|]. destruct (W n v (or_introl eq_refl)) as [IN NV]. rewrite dir_cons.
    assert (A : skips "/" (n ++ "_")) by (apply foreign_skips; cbn in IN; repeat destruct IN as [<-|IN]; try (vm_compute; reflexivity); destruct IN).
    assert (B : skips "/" v) by (apply number_foreign; [vm_compute; reflexivity|exact NV]).
    assert (C : skips "/" "_") by (apply foreign_skips; vm_compute; reflexivity).
    rewrite A, B. assert (T : partition "/" (tail_text l) = None).
    { destruct l as [|f l]; [reflexivity|]. cbn [tail_text]. rewrite C, IH; [reflexivity|]. intros a b H. apply W. right. exact H. }
    rewrite T. reflexivity. }
  apply G. exact W.
Qed.
Lemma each_hit l names vs : well_formed l -> fields_of l names vs -> each (value_of (dir_text l)) names = Ok vs.
Proof.
  intros W F. induction F as [|n v names vs I F IH]; [reflexivity|]. cbn [each]. rewrite (value_hit l n v W I). cbn [rbind]. rewrite IH. reflexivity.
Qed.

(** ** Theorems *)
(** The old names carry no metallicity; those directories are known by their path. *)
Theorem C68_binary : forall parent l names vs, well_formed l -> l <> [] -> ~ In "initial_mass" (map fst l) ->
  names = (if py_in "v1/" (parent ++ "/" ++ dir_text l) then ["m1"; "m2"; "initial_period_in_days"]
           else if in_dec string_dec "initial_eccentricity" (map fst l) then ["m1"; "m2"; "initial_period_in_days"; "initial_z"; "initial_eccentricity"]
           else ["m1"; "m2"; "initial_period_in_days"; "initial_z"]) ->
  (fields_of l names vs -> initial_values_from_dirname (parent ++ "/" ++ dir_text l) = Ok vs) /\
  ((exists n, In n names /\ ~ In n (map fst l)) -> initial_values_from_dirname (parent ++ "/" ++ dir_text l) = Raise (OtherError "AssertionError")).
Proof.
  intros parent l names vs W NE NM EN. unfold initial_values_from_dirname. rewrite base_dir; [|destruct l as [|[n v] l']; [congruence|rewrite dir_cons; destruct n; discriminate]|apply slash_free; exact W].
  cbv zeta. assert (M : py_in "initial_mass" (dir_text l) = false).
  { destruct (py_in "initial_mass" (dir_text l)) eqn:Q; [|reflexivity]. apply in_text in Q; [contradiction|exact W|cbn; tauto]. }
  rewrite M. assert (E : (if py_in "v1/" (parent ++ "/" ++ dir_text l) then ["m1"; "m2"; "initial_period_in_days"]
      else if py_in "initial_eccentricity" (dir_text l) then ["m1"; "m2"; "initial_period_in_days"; "initial_z"; "initial_eccentricity"]
      else ["m1"; "m2"; "initial_period_in_days"; "initial_z"]) = names).
  { rewrite EN. destruct (py_in "v1/" _); [reflexivity|]. destruct (in_dec string_dec "initial_eccentricity" (map fst l)) as [I|NI].
    - rewrite (proj2 (in_text l "initial_eccentricity" W ltac:(cbn; tauto)) I). reflexivity.
    - destruct (py_in "initial_eccentricity" (dir_text l)) eqn:Q; [|reflexivity]. apply in_text in Q; [contradiction|exact W|cbn; tauto]. }
  rewrite E. assert (SUB : forall n, In n names -> In n NAMES).
  { intros n. rewrite EN. destruct (py_in "v1/" _); [|destruct (in_dec _ _ _)]; cbn; tauto. }
  clear E EN. split.
  - intros F. assert (A : forallb (fun n => py_in n (dir_text l)) names = true).
    { apply forallb_forall. intros n I. apply in_text; [exact W|apply SUB; exact I|]. clear -F I. induction F as [|n' v ns vs I' F IH]; [destruct I|].
      destruct I as [<-|I]; [apply (in_map fst) in I'; exact I'|apply IH; exact I]. }
    rewrite A. apply each_hit; assumption.
  - intros (n & I & NI). destruct (forallb (fun n => py_in n (dir_text l)) names) eqn:A; [|reflexivity]. exfalso. apply NI.
    rewrite forallb_forall in A. apply in_text; [exact W|apply SUB; exact I|apply A; exact I].
Qed.
Theorem C68_single : forall parent l names vs, well_formed l -> In "initial_mass" (map fst l) ->
  names = (if py_in "v1/" (parent ++ "/" ++ dir_text l) then ["initial_mass"] else ["initial_mass"; "initial_z"]) ->
  (fields_of l names vs -> initial_values_from_dirname (parent ++ "/" ++ dir_text l) = Ok vs) /\
  ((exists n, In n names /\ ~ In n (map fst l)) -> initial_values_from_dirname (parent ++ "/" ++ dir_text l) = Raise IndexError).
Proof.
  intros parent l names vs W IM EN. unfold initial_values_from_dirname.
  rewrite base_dir; [|destruct l as [|[n v] l']; [destruct IM|rewrite dir_cons; destruct n; discriminate]|apply slash_free; exact W].
  cbv zeta. rewrite (proj2 (in_text l "initial_mass" W ltac:(cbn; tauto)) IM), <- EN.
  split; [apply each_hit; exact W|]. intros (n & I & NI). apply in_map_iff in IM as ([n' v] & E & IM). cbn in E. subst n'.
  destruct (py_in "v1/" _); subst names.
  - destruct I as [<-|[]]. exfalso. apply NI. apply (in_map fst) in IM. exact IM.
  - destruct I as [<-|[<-|[]]]; [exfalso; apply NI; apply (in_map fst) in IM; exact IM|]. cbn [each]. rewrite (value_hit l _ v W IM). cbn [rbind].
    rewrite (value_miss l "initial_z" W ltac:(cbn; tauto) NI). reflexivity.
Qed.
(** Runs of one kind are told apart exactly by these values: the order of the fields, the directory and the grid index do not matter. *)
Theorem C68_same_run : forall p p' l l' names vs vs', well_formed l -> well_formed l' -> l <> [] -> l' <> [] ->
  ~ In "initial_mass" (map fst l) -> ~ In "initial_mass" (map fst l') -> ~ In "initial_eccentricity" (map fst l) -> ~ In "initial_eccentricity" (map fst l') ->
  py_in "v1/" (p ++ "/" ++ dir_text l) = false -> py_in "v1/" (p' ++ "/" ++ dir_text l') = false ->
  names = ["m1"; "m2"; "initial_period_in_days"; "initial_z"] -> fields_of l names vs -> fields_of l' names vs' ->
  (initial_values_from_dirname (p ++ "/" ++ dir_text l) = initial_values_from_dirname (p' ++ "/" ++ dir_text l') <-> vs = vs').
Proof.
  intros p p' l l' names vs vs' W W' N N' M M' X X' V V' EN F F'.
  assert (A : initial_values_from_dirname (p ++ "/" ++ dir_text l) = Ok vs).
  { apply (C68_binary p l names vs W N M); [|exact F]. rewrite V. destruct (in_dec _ _ _); [contradiction|exact EN]. }
  assert (A' : initial_values_from_dirname (p' ++ "/" ++ dir_text l') = Ok vs').
  { apply (C68_binary p' l' names vs' W' N' M'); [|exact F']. rewrite V'. destruct (in_dec _ _ _); [contradiction|exact EN]. }
  rewrite A, A'. split; congruence.
Qed.
(** Equal numbers written differently are different runs; a directory "v1" anywhere drops the metallicity. *)
Theorem C68_numbers_refuted : initial_values_from_dirname "g/m1_10.0_m2_5_initial_period_in_days_2_initial_z_0.02" <>
  initial_values_from_dirname "g/m1_10.00_m2_5_initial_period_in_days_2_initial_z_0.02".
Proof. vm_compute. discriminate. Qed.
Theorem C68_metallicity_refuted : initial_values_from_dirname "rerun_v1/m1_10_m2_5_initial_period_in_days_2_initial_z_0.02" =
  initial_values_from_dirname "rerun_v1/m1_10_m2_5_initial_period_in_days_2_initial_z_0.0002".
Proof. vm_compute. reflexivity. Qed.
Example C68_case : let l := [("m1", "28"); ("m2", "11.5"); ("initial_z", "1.42e-02"); ("initial_period_in_days", "2"); ("grid_index", "102")] in
  dir_text l = "m1_28_m2_11.5_initial_z_1.42e-02_initial_period_in_days_2_grid_index_102" /\ well_formed l /\
  initial_values_from_dirname ("/data/main/" ++ dir_text l) = Ok ["28"; "11.5"; "2"; "1.42e-02"].
Proof.
  cbv zeta. split; [reflexivity|]. split; [|vm_compute; reflexivity]. split.
  - cbn. repeat constructor; cbn; intuition discriminate.
  - intros n v I. cbn in I. repeat destruct I as [I|I]; try (injection I as <- <-; split; [cbn; tauto|intros c C; cbn in C; cbn; intuition subst; tauto]). destruct I.
Qed.
Print Assumptions C68_binary.
Print Assumptions C68_single.
Print Assumptions C68_same_run.
Print Assumptions C68_numbers_refuted.
Print Assumptions C68_metallicity_refuted.
