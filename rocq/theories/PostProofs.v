(** Lemmas on the columns built by the post-processing. *)
From Coq Require Import String Ascii List Bool ZArith QArith Lia Permutation.
From Verif Require Import PyBase PyStr PyReplace TFlagModel SNNameModel PostModel.
Import ListNotations.
Open Scope string_scope.
Open Scope nat_scope.
Open Scope list_scope.

(** ** Names of columns *)
Fixpoint ends (b d : string) : bool := String.eqb b d || match d with String _ d' => ends b d' | EmptyString => false end.
Lemma ends_app e b : ends b (e ++ b)%string = true.
Proof. induction e as [|c e IH]; cbn [append ends]; [destruct b; cbn [ends]; rewrite String.eqb_refl; reflexivity|]. rewrite IH. apply orb_true_r. Qed.
Lemma app_suffix : forall a c b d : string, (a ++ b = c ++ d)%string -> String.length b <= String.length d -> exists e, (d = e ++ b /\ a = c ++ e)%string.
Proof.
  assert (LN : forall x y : string, String.length (x ++ y) = String.length x + String.length y) by (induction x as [|k x IH]; intros y; cbn; [reflexivity|rewrite IH; reflexivity]).
  induction a as [|x a IH]; intros [|y c] b d E L.
  - exists "". cbn in *. subst. split; reflexivity.
  - exfalso. cbn [append] in E. subst b. cbn [String.length] in L. rewrite LN in L. lia.
  - cbn [append] in E. exists (String x a). split; [symmetry; exact E|reflexivity].
  - cbn [append] in E. assert (x = y /\ (a ++ b = c ++ d)%string) as [-> E'] by (split; congruence). destruct (IH c b d E' L) as [e [A B]]. exists e. split; [exact A|]. cbn [append]. congruence.
Qed.
Lemma same_app_s : forall a c d : string, (a ++ d = c ++ d)%string -> a = c.
Proof. intros a c d E. destruct (app_suffix a c d d E (le_n _)) as [e [A B]]. destruct e as [|x e]; [rewrite B; clear; induction c; cbn; congruence|]. exfalso.
  assert (LN : forall x y : string, String.length (x ++ y) = String.length x + String.length y) by (clear; induction x as [|k x IH]; intros y; cbn; [reflexivity|rewrite IH; reflexivity]).
  apply (f_equal String.length) in A. cbn [append String.length] in A. rewrite LN in A. lia.
Qed.
Definition final_quantities : list string := "CO_type" :: CC_quantities.
Lemma suffixes_differ : forallb (fun q => forallb (fun q' => String.eqb q q' || negb (ends ("_" ++ q) ("_" ++ q'))) final_quantities) final_quantities = true.
Proof. vm_compute. reflexivity. Qed.
Lemma base_differ : forallb (fun b => forallb (fun q => negb (ends ("_" ++ q) b)) final_quantities) (base_quantities ++ CE_names) = true.
Proof. vm_compute. reflexivity. Qed.
Lemma quantity_inj : forall n m q q', In q final_quantities -> In q' final_quantities -> (n ++ "_" ++ q = m ++ "_" ++ q')%string -> n = m /\ q = q'.
Proof.
  intros n m q q' Q Q' E. pose proof suffixes_differ as D. rewrite forallb_forall in D. pose proof (D _ Q) as DQ. pose proof (D _ Q') as DQ'. cbv beta in DQ, DQ'.
  rewrite forallb_forall in DQ, DQ'. specialize (DQ _ Q'). specialize (DQ' _ Q).
  assert (q = q').
  { destruct (le_lt_dec (String.length ("_" ++ q)) (String.length ("_" ++ q'))) as [L|L].
    - destruct (app_suffix _ _ _ _ E L) as [e [A _]]. rewrite A, ends_app, orb_false_r in DQ. apply String.eqb_eq. exact DQ.
    - symmetry in E. destruct (app_suffix _ _ _ _ E (Nat.lt_le_incl _ _ L)) as [e [A _]]. rewrite A, ends_app, orb_false_r in DQ'. symmetry. apply String.eqb_eq. exact DQ'. }
  subst q'. split; [|reflexivity]. exact (same_app_s _ _ _ E).
Qed.
Lemma col_inj : forall i j q q', col i q = col j q' -> i = j /\ q = q'.
Proof. intros [] [] q q' E; cbn in E; split; congruence. Qed.
Lemma sn_col_inj : forall i j n m q q', In q final_quantities -> In q' final_quantities -> sn_col i n q = sn_col j m q' -> i = j /\ n = m /\ q = q'.
Proof. intros i j n m q q' Q Q' E. apply col_inj in E as [A B]. split; [exact A|]. exact (quantity_inj n m q q' Q Q' B). Qed.
Lemma base_not_sn : forall i j b n q, In b (base_quantities ++ CE_names) -> In q final_quantities -> col i b <> sn_col j n q.
Proof.
  intros i j b n q B Q E. apply col_inj in E as [_ E]. pose proof base_differ as D. rewrite forallb_forall in D. specialize (D _ B). cbv beta in D. rewrite forallb_forall in D.
  specialize (D _ Q). cbv beta in D. rewrite E, ends_app in D. discriminate D.
Qed.
Lemma history_not_col : forall i q, "mt_history" <> col i q.
Proof. intros [] q E; cbn in E; discriminate E. Qed.
Lemma CC_final : forall q, In q CC_quantities -> In q final_quantities.
Proof. intros q H. right. exact H. Qed.

(** ** No column twice *)
Fixpoint nodupb (l : list string) : bool := match l with [] => true | x :: l' => negb (inpool x l') && nodupb l' end.
Lemma inpool_in : forall x l, inpool x l = true <-> In x l.
Proof. intros x l. unfold inpool. rewrite existsb_exists. split; [intros [y [A B]]; apply String.eqb_eq in B; subst; exact A|intros H; exists x; split; [exact H|apply String.eqb_refl]]. Qed.
Lemma nodupb_ok : forall l, nodupb l = true -> NoDup l.
Proof. induction l as [|x l IH]; intros H; constructor; cbn in H; apply andb_true_iff in H as [A B]; [|exact (IH B)]. intros I. apply inpool_in in I. rewrite I in A. discriminate A. Qed.
Lemma NoDup_app_i : forall {A} (l l' : list A), NoDup l -> NoDup l' -> (forall x, In x l -> ~ In x l') -> NoDup (l ++ l').
Proof.
  induction l as [|x l IH]; intros l' N N' D; cbn; [exact N'|]. inversion N; subst. constructor; [|apply IH; [assumption|exact N'|intros y Y; apply D; right; exact Y]].
  intros I. apply in_app_or in I as [I|I]; [contradiction|]. exact (D x (or_introl eq_refl) I).
Qed.
Lemma NoDup_map_i : forall {A B} (f : A -> B) l, NoDup l -> (forall x y, In x l -> In y l -> f x = f y -> x = y) -> NoDup (map f l).
Proof.
  induction l as [|x l IH]; intros N I; cbn; constructor; inversion N; subst; [|apply IH; [assumption|intros; apply I; [right|right|]; assumption]].
  intros M. apply in_map_iff in M as [y [E Y]]. assert (y = x) by (apply I; [right; exact Y|left; reflexivity|exact E]). subst. contradiction.
Qed.
Definition cc_columns (second : bool) (names : list string) : list string := flat_map (fun name => map (sn_col second name) CC_quantities) names.
Lemma in_cc : forall i names c, In c (cc_columns i names) <-> exists n q, In n names /\ In q CC_quantities /\ c = sn_col i n q.
Proof.
  intros i names c. unfold cc_columns. rewrite in_flat_map. split.
  - intros [n [A B]]. apply in_map_iff in B as [q [E Q]]. exists n, q. split; [exact A|]. split; [exact Q|]. symmetry. exact E.
  - intros [n [q [A [Q E]]]]. exists n. split; [exact A|]. apply in_map_iff. exists q. split; [symmetry; exact E|exact Q].
Qed.
Lemma CC_nodup : NoDup CC_quantities.
Proof. apply nodupb_ok. vm_compute. reflexivity. Qed.
Lemma cc_nodup : forall i names, NoDup names -> NoDup (cc_columns i names).
Proof.
  intros i names N. induction N as [|n names NI N IH]; [constructor|]. unfold cc_columns. cbn [flat_map]. apply NoDup_app_i; [|exact IH|].
  - apply NoDup_map_i; [apply CC_nodup|]. intros q q' Q Q' E. apply sn_col_inj in E as [_ [_ E]]; [exact E|apply CC_final; exact Q|apply CC_final; exact Q'].
  - intros c C D. apply in_map_iff in C as [q [E Q]]. apply in_cc in D as [m [q' [M [Q' E']]]]. rewrite <- E in E'.
    apply sn_col_inj in E' as [_ [E' _]]; [|apply CC_final; exact Q|apply CC_final; exact Q']. subst. contradiction.
Qed.
Lemma star_columns_eq : forall i names, star_columns i names = map (col i) (base_quantities ++ CE_names) ++ cc_columns i names.
Proof. intros. unfold star_columns. rewrite map_app, <- app_assoc. reflexivity. Qed.
Lemma star_nodup : forall i names, NoDup names -> NoDup (star_columns i names).
Proof.
  intros i names N. rewrite star_columns_eq. apply NoDup_app_i; [|apply cc_nodup; exact N|].
  - apply NoDup_map_i; [apply nodupb_ok; vm_compute; reflexivity|]. intros x y _ _ E. apply col_inj in E. tauto.
  - intros c C D. apply in_map_iff in C as [b [E B]]. apply in_cc in D as [m [q [_ [Q E']]]]. rewrite <- E in E'. exact (base_not_sn _ _ _ _ _ B (CC_final _ Q) E').
Qed.
Lemma star_cols_col : forall i names c, In c (star_columns i names) -> exists q, c = col i q.
Proof.
  intros i names c H. rewrite star_columns_eq in H. apply in_app_or in H as [H|H].
  - apply in_map_iff in H as [q [E _]]. exists q. symmetry. exact E.
  - apply in_cc in H as [n [q [_ [_ E]]]]. exists (n ++ "_" ++ q)%string. exact E.
Qed.
Lemma all_nodup : forall single names, NoDup names -> NoDup (all_columns single names).
Proof.
  intros [] names N; cbn [all_columns]; [apply star_nodup; exact N|]. constructor.
  - intros H. apply in_app_or in H as [H|H]; apply star_cols_col in H as [q E]; exact (history_not_col _ _ E).
  - apply NoDup_app_i; [apply star_nodup; exact N|apply star_nodup; exact N|]. intros c C D. apply star_cols_col in C as [q E]. apply star_cols_col in D as [q' E']. rewrite E in E'.
    apply col_inj in E' as [E' _]. discriminate E'.
Qed.
Lemma s1_state_in : forall single names, In "S1_state" (all_columns single names).
Proof. intros [] names; cbn [all_columns]; [|right; apply in_or_app; left]; rewrite star_columns_eq; apply in_or_app; left; vm_compute; tauto. Qed.

(** ** Appending one value to every column *)
Notation get := (dget String.eqb).
Lemma get_in : forall {V} (d : list (string * V)) k v, get d k = Some v -> In (k, v) d.
Proof. induction d as [|[k' v'] d IH]; intros k v H; cbn in H; [discriminate H|]. destruct (String.eqb_spec k k') as [->|NE]; [left; congruence|right; exact (IH _ _ H)]. Qed.
Lemma get_some : forall {V} (d : list (string * V)) k, In k (map fst d) -> exists v, get d k = Some v.
Proof. induction d as [|[k' v'] d IH]; intros k H; cbn in *; [contradiction|]. destruct (String.eqb_spec k k') as [->|NE]; [eexists; reflexivity|]. destruct H as [H|H]; [congruence|exact (IH _ H)]. Qed.
Lemma get_none : forall {V} (d : list (string * V)) k, ~ In k (map fst d) -> get d k = None.
Proof. induction d as [|[k' v'] d IH]; intros k H; cbn in *; [reflexivity|]. destruct (String.eqb_spec k k') as [->|NE]; [tauto|]. apply IH. tauto. Qed.
Lemma get_map : forall {V} (f : string -> V) l k, In k l -> get (map (fun c => (c, f c)) l) k = Some (f k).
Proof. induction l as [|c l IH]; intros k H; [contradiction|]. cbn. destruct (String.eqb_spec k c) as [->|NE]; [reflexivity|]. destruct H as [H|H]; [congruence|exact (IH _ H)]. Qed.
Lemma dset_map : forall {V} (f : string -> V) l k v, NoDup l -> In k l ->
  dset String.eqb (map (fun c => (c, f c)) l) k v = map (fun c => (c, if String.eqb k c then v else f c)) l.
Proof.
  induction l as [|c l IH]; intros k v N H; [contradiction|]. cbn. inversion N; subst. destruct (String.eqb_spec k c) as [->|NE].
  - f_equal. apply map_ext_in. intros a A. destruct (String.eqb_spec c a) as [->|]; [contradiction|reflexivity].
  - f_equal. apply IH; [assumption|]. destruct H; [congruence|assumption].
Qed.
Definition lookup (w : list (string * val)) (c : string) : val := match get w c with Some v => v | None => Nil end.
Definition grow (f : string -> list val) (w : list (string * val)) (c : string) : list val := f c ++ match get w c with Some v => [v] | None => [] end.
Lemma append_all_ok : forall w f l, NoDup l -> NoDup (map fst w) -> incl (map fst w) l ->
  append_all (map (fun c => (c, f c)) l) w = Ok (map (fun c => (c, grow f w c)) l).
Proof.
  induction w as [|[k v] w IH]; intros f l N NW I; cbn [append_all].
  - f_equal. apply map_ext. intros c. unfold grow. cbn. rewrite app_nil_r. reflexivity.
  - cbn [map fst] in NW, I. inversion NW; subst. unfold append_to. cbn [fst snd]. rewrite get_map by (apply I; left; reflexivity). cbn [rbind].
    rewrite (dset_map f) by (try assumption; apply I; left; reflexivity).
    rewrite (IH (fun c => if String.eqb k c then f k ++ [v] else f c)) by (try assumption; intros x X; apply I; right; exact X). f_equal. apply map_ext. intros c. f_equal. unfold grow. cbn [dget].
    rewrite (String.eqb_sym c k). destruct (String.eqb_spec k c) as [->|NE]; [|reflexivity]. rewrite get_none by assumption. rewrite app_nil_r. reflexivity.
Qed.
Lemma append_all_perm : forall w f l, NoDup l -> Permutation l (map fst w) ->
  append_all (map (fun c => (c, f c)) l) w = Ok (map (fun c => (c, f c ++ [lookup w c])) l).
Proof.
  intros w f l N P. rewrite append_all_ok; [|exact N|exact (Permutation_NoDup P N)|intros x X; exact (Permutation_in _ (Permutation_sym P) X)]. f_equal. apply map_ext_in. intros c C. f_equal.
  unfold grow, lookup. destruct (get_some w c (Permutation_in _ P C)) as [v V]. rewrite V. reflexivity.
Qed.

(** ** What is appended for a run *)
Definition perm_names (a b : list string) : bool := nodupb a && nodupb b && forallb (fun x => inpool x b) a && forallb (fun x => inpool x a) b.
Lemma perm_names_ok : forall a b, perm_names a b = true -> Permutation a b.
Proof.
  intros a b H. unfold perm_names in H. apply andb_true_iff in H as [H H4]. apply andb_true_iff in H as [H H3]. apply andb_true_iff in H as [H1 H2]. rewrite forallb_forall in H3, H4.
  apply NoDup_Permutation; [apply nodupb_ok; exact H1|apply nodupb_ok; exact H2|]. intros x. split; intros X; apply inpool_in; auto.
Qed.
Lemma rbind_ok : forall {A B} (x : result A) (f : A -> result B) b, rbind x f = Ok b -> exists a, x = Ok a /\ f a = Ok b.
Proof. intros A B [a|e] f b H; cbn in H; [exists a; split; [reflexivity|exact H]|discriminate H]. Qed.

Section Writes.
Context (check_state : star -> bool -> result val) (patton : star -> result star) (cee : star -> star) (step_SN : SNNameModel.dict -> result (star -> result star)).
Notation base_writes := (base_writes check_state patton cee).
Notation model_writes := (model_writes step_SN).
Notation collapse_writes := (collapse_writes step_SN).
Notation run_writes := (run_writes check_state patton cee step_SN).
Notation process := (process check_state patton cee step_SN).

Lemma base_keys : forall i co IC s w s', base_writes i co IC s = Ok (w, s') -> Permutation (map (col i) (base_quantities ++ CE_names)) (map fst w).
Proof.
  intros i co IC s w s' H. unfold PostModel.base_writes in H. destruct (negb co && inpool IC ["no_MT"; "stable_MT"; "unstable_MT"; "stable_reverse_MT"]).
  - apply rbind_ok in H as [st [_ H]]. apply rbind_ok in H as [s1 [_ H]]. apply rbind_ok in H as [so [_ H]]. apply rbind_ok in H as [c_o [_ H]].
    match type of H with Ok (?a, _) = _ => assert (W : w = a) by congruence end. subst w. apply perm_names_ok. destruct i; vm_compute; reflexivity.
  - apply rbind_ok in H as [st [_ H]]. match type of H with Ok (?a, _) = _ => assert (W : w = a) by congruence end. subst w. apply perm_names_ok. destruct i; vm_compute; reflexivity.
Qed.
Lemma none_keys : forall i names, map fst (none_writes i names) = cc_columns i names.
Proof. intros i names. unfold none_writes, cc_columns. induction names as [|n names IH]; [reflexivity|]. cbn [flat_map]. rewrite map_app, IH, map_map. reflexivity. Qed.
Lemma model_keys : forall single i TF2 s n w, model_writes single i TF2 s n = Ok w -> map fst w = map (sn_col i n) CC_quantities.
Proof.
  intros single i TF2 s n w H. unfold PostModel.model_writes in H. apply rbind_ok in H as [f [_ H]].
  assert (N : map fst (none_writes i [n]) = map (sn_col i n) CC_quantities) by (rewrite none_keys; unfold cc_columns; cbn [flat_map]; apply app_nil_r).
  destruct (f s) as [s'|e].
  - destruct (forallb (well_typed s') CC_quantities).
    + match type of H with Ok ?a = _ => assert (W : w = a) by congruence end. rewrite W, map_map. reflexivity.
    + match type of H with Ok ?a = _ => assert (W : w = a) by congruence end. rewrite W. exact N.
  - match type of H with Ok ?a = _ => assert (W : w = a) by congruence end. rewrite W. exact N.
Qed.
Lemma collapse_keys : forall single i names TF2 s w, collapse_writes single i names TF2 s = Ok w -> map fst w = cc_columns i names.
Proof.
  intros single i names TF2 s w H. unfold PostModel.collapse_writes in H. destruct (exploding s).
  - apply rbind_ok in H as [l [T H]]. assert (W : w = concat l) by congruence. subst w. clear H. revert l T. unfold cc_columns. induction names as [|n names IH]; intros l T; cbn [traverse] in T.
    + assert (l = []) by congruence. subst. reflexivity.
    + apply rbind_ok in T as [b [B T]]. apply rbind_ok in T as [bs [BS T]]. assert (l = b :: bs) by congruence. subst l. cbn [concat flat_map]. rewrite map_app, (IH _ BS), (model_keys _ _ _ _ _ _ B). reflexivity.
  - assert (W : w = none_writes i names) by congruence. rewrite W. apply none_keys.
Qed.
Lemma run_keys : forall single co names r w, run_writes single co names r = Ok w -> Permutation (all_columns single names) (map fst w).
Proof.
  intros single co names r w H. unfold PostModel.run_writes in H. destruct single; cbn [all_columns].
  - apply rbind_ok in H as [[b s'] [B H]]. apply rbind_ok in H as [c [C H]]. assert (W : w = b ++ c) by (cbn [fst] in H; congruence). subst w. rewrite map_app, star_columns_eq, (collapse_keys _ _ _ _ _ _ C).
    apply Permutation_app_tail. exact (base_keys _ _ _ _ _ _ B).
  - apply rbind_ok in H as [[b1 s1] [B1 H]]. apply rbind_ok in H as [[b2 s2] [B2 H]]. apply rbind_ok in H as [c [C H]]. apply rbind_ok in H as [h [HH H]]. cbn [fst snd] in *.
    assert (W : w = b1 ++ b2 ++ c ++ h) by congruence. subst w. rewrite !map_app.
    assert (KH : map fst h = ["mt_history"]).
    { unfold history_write in HH. destruct (get legend (combine_one (r_IC r) (r_TF2 r))) as [t|]; [|discriminate HH].
      match type of HH with Ok ?a = _ => assert (E : h = a) by congruence end. rewrite E. reflexivity. }
    assert (KC : Permutation (cc_columns false names ++ cc_columns true names) (map fst c)).
    { unfold PostModel.binary_writes in C. apply rbind_ok in C as [who [_ C]]. destruct who as [i|].
      - apply rbind_ok in C as [x [X C]]. assert (E : c = none_writes (negb i) names ++ x) by congruence. rewrite E, map_app, none_keys, (collapse_keys _ _ _ _ _ _ X).
        destruct i; cbn [negb]; [reflexivity|apply Permutation_app_comm].
      - assert (E : c = none_writes false names ++ none_writes true names) by congruence. rewrite E, map_app, !none_keys. reflexivity. }
    rewrite KH, !star_columns_eq. pose proof (base_keys _ _ _ _ _ _ B1) as P1. pose proof (base_keys _ _ _ _ _ _ B2) as P2.
    replace (map fst b1 ++ map fst b2 ++ map fst c ++ ["mt_history"]) with ((map fst b1 ++ map fst b2 ++ map fst c) ++ ["mt_history"]) by (rewrite <- !app_assoc; reflexivity).
    apply Permutation_cons_app. rewrite app_nil_r.
    transitivity ((map (col false) (base_quantities ++ CE_names) ++ map (col true) (base_quantities ++ CE_names)) ++ (cc_columns false names ++ cc_columns true names)).
    + rewrite <- !app_assoc. apply Permutation_app_head. rewrite !app_assoc. apply Permutation_app_tail. apply Permutation_app_comm.
    + rewrite (app_assoc (map fst b1)). apply Permutation_app; [|exact KC]. apply Permutation_app; assumption.
Qed.

(** ** The loop over the runs *)
Definition table (cols : list string) (rows : list (list (string * val))) : columns := map (fun c => (c, map (fun w => lookup w c) rows)) cols.
Lemma table_complete : forall single names rows, complete (table (all_columns single names) rows) = true.
Proof.
  intros single names rows. unfold complete, table. rewrite (get_map (fun c => map (fun w => lookup w c) rows)) by apply s1_state_in. apply forallb_forall. intros kv H.
  apply in_map_iff in H as [c [E _]]. subst kv. cbn [snd]. rewrite !map_length. apply Nat.eqb_refl.
Qed.
(** The runs selected and what each of them gives *)
Definition selected (single co : bool) (names : list string) (grid : list run) (indices : list Z) : result (list (list (string * val))) :=
  traverse (fun i => rbind (get_run grid i) (run_writes single co names)) indices.
Lemma process_eq : forall single co names grid indices rows, NoDup names ->
  process single co names grid indices (table (all_columns single names) rows)
  = rbind (selected single co names grid indices) (fun new => Ok (table (all_columns single names) (rows ++ new))).
Proof.
  intros single co names grid indices. induction indices as [|i indices IH]; intros rows N; cbn [PostModel.process selected traverse].
  - cbn [rbind]. rewrite app_nil_r. reflexivity.
  - unfold selected in IH. destruct (get_run grid i) as [r|e]; cbn [rbind]; [|reflexivity]. destruct (run_writes single co names r) as [w|e] eqn:W; cbn [rbind]; [|reflexivity].
    unfold table at 1. rewrite append_all_perm by (try (apply all_nodup; exact N); exact (run_keys _ _ _ _ _ W)). cbn [rbind].
    replace (map (fun c => (c, map (fun w0 => lookup w0 c) rows ++ [lookup w c])) (all_columns single names)) with (table (all_columns single names) (rows ++ [w]))
      by (unfold table; apply map_ext; intros c; rewrite map_app; reflexivity).
    rewrite table_complete, (IH (rows ++ [w]) N). destruct (traverse _ indices) as [new|e]; cbn [rbind]; [|reflexivity]. rewrite <- app_assoc. reflexivity.
Qed.
Lemma start_eq : forall l, NoDup l -> dset_all String.eqb [] (map (fun k => (k, @nil val)) l) = table l [].
Proof.
  intros l N. unfold table. cbn [map]. assert (G : forall l2 l1 : list string, NoDup (l1 ++ l2) ->
    dset_all String.eqb (map (fun k => (k, @nil val)) l1) (map (fun k => (k, @nil val)) l2) = map (fun k => (k, @nil val)) (l1 ++ l2)).
  { induction l2 as [|k l2 IH]; intros l1 M; cbn; [rewrite app_nil_r; reflexivity|].
    assert (A : dset String.eqb (map (fun k => (k, @nil val)) l1) k [] = map (fun k => (k, @nil val)) (l1 ++ [k])).
    { assert (NI : ~ In k l1) by (apply NoDup_remove_2 in M; intros I; apply M, in_or_app; left; exact I). clear - NI. induction l1 as [|x l1 IH]; [reflexivity|]. cbn.
      destruct (String.eqb_spec k x) as [->|]; [exfalso; apply NI; left; reflexivity|]. f_equal. apply IH. intros I. apply NI. right. exact I. }
    unfold dset_all in *. cbn [fold_left fst snd]. rewrite A, (IH (l1 ++ [k])) by (rewrite <- app_assoc; exact M). rewrite <- app_assoc. reflexivity. }
  exact (G l [] N).
Qed.
End Writes.

(** ** Renaming *)
Lemma get_ddel : forall d k c, get (ddel d k) c = if String.eqb c k then None else get d c.
Proof.
  unfold ddel. induction d as [|[k' v] d IH]; intros k c; cbn; [destruct (String.eqb c k); reflexivity|]. destruct (String.eqb_spec k k') as [->|NE]; cbn.
  - rewrite IH. destruct (String.eqb_spec c k'); reflexivity.
  - rewrite IH. destruct (String.eqb_spec c k') as [->|]; [|reflexivity]. destruct (String.eqb_spec k' k); [congruence|reflexivity].
Qed.
Lemma get_rename : forall old new d l c, old <> new -> get d old = Some l ->
  get (rename old new d) c = if String.eqb c new then Some l else if String.eqb c old then None else get d c.
Proof. intros old new d l c NE G. unfold rename. rewrite G, (dget_dset String.eqb_spec), get_ddel. reflexivity. Qed.
Lemma get_rename_absent : forall old new d, get d old = None -> rename old new d = d.
Proof. intros old new d G. unfold rename. rewrite G. reflexivity. Qed.
Lemma CO_new : In "CO_type" final_quantities. Proof. left. reflexivity. Qed.
Lemma state_old : In "state" final_quantities. Proof. right. left. reflexivity. Qed.
Lemma state_CO : forall i j n m, sn_col i n "state" <> sn_col j m "CO_type".
Proof. intros i j n m E. apply sn_col_inj in E as [_ [_ E]]; [discriminate E|apply state_old|apply CO_new]. Qed.
(** Which column a final column was before: [names] are those still to be renamed *)
Definition rename_one (d : columns) (p : bool * string) : columns := rename (sn_col (fst p) (snd p) "state") (sn_col (fst p) (snd p) "CO_type") d.
Lemma rename_models : forall names d, fold_left rename_model names d = fold_left rename_one (flat_map (fun n : string => [(false, n); (true, n)]) names) d.
Proof. induction names as [|n names IH]; intros d; [reflexivity|]. cbn [fold_left flat_map app]. rewrite IH. reflexivity. Qed.
Lemma pair_eq : forall (p p' : bool * string) q, In q final_quantities -> sn_col (fst p) (snd p) q = sn_col (fst p') (snd p') q -> p = p'.
Proof. intros [i n] [j m] q Q E. apply sn_col_inj in E as [A [B _]]; [cbn in *; congruence|exact Q|exact Q]. Qed.
Lemma get_renamed : forall ps d c, NoDup ps ->
  let d' := fold_left rename_one ps d in
  (forall p, In p ps -> c = sn_col (fst p) (snd p) "CO_type" -> get d' c = match get d (sn_col (fst p) (snd p) "state") with Some l => Some l | None => get d c end)
  /\ (forall p, In p ps -> c = sn_col (fst p) (snd p) "state" -> get d' c = None)
  /\ ((forall p, In p ps -> c <> sn_col (fst p) (snd p) "CO_type" /\ c <> sn_col (fst p) (snd p) "state") -> get d' c = get d c).
Proof.
  induction ps as [|p ps IH]; intros d c N; cbn zeta; cbn [fold_left].
  - split; [intros p []|]. split; [intros p []|]. intros _. reflexivity.
  - inversion N as [|? ? NI N']; subst. set (d1 := rename_one d p).
    assert (R : forall k, get d1 k = if String.eqb k (sn_col (fst p) (snd p) "CO_type") then (match get d (sn_col (fst p) (snd p) "state") with Some l => Some l | None => get d k end)
                                     else if String.eqb k (sn_col (fst p) (snd p) "state") then None else get d k).
    { intros k. unfold d1, rename_one. destruct (get d (sn_col (fst p) (snd p) "state")) as [l|] eqn:L; [apply get_rename; [apply state_CO|exact L]|].
      rewrite get_rename_absent by exact L. destruct (String.eqb k (sn_col (fst p) (snd p) "CO_type")); [reflexivity|].
      destruct (String.eqb_spec k (sn_col (fst p) (snd p) "state")) as [->|]; [exact L|reflexivity]. }
    assert (U : forall m q, In m ps -> q = "state" \/ q = "CO_type" -> get d1 (sn_col (fst m) (snd m) q) = get d (sn_col (fst m) (snd m) q)).
    { intros m q M [-> | ->]; rewrite R.
      - destruct (String.eqb_spec (sn_col (fst m) (snd m) "state") (sn_col (fst p) (snd p) "CO_type")) as [E|_]; [exfalso; exact (state_CO _ _ _ _ E)|].
        destruct (String.eqb_spec (sn_col (fst m) (snd m) "state") (sn_col (fst p) (snd p) "state")) as [E|_]; [|reflexivity]. apply pair_eq in E; [subst; contradiction|apply state_old].
      - destruct (String.eqb_spec (sn_col (fst m) (snd m) "CO_type") (sn_col (fst p) (snd p) "CO_type")) as [E|_]; [apply pair_eq in E; [subst; contradiction|apply CO_new]|].
        destruct (String.eqb_spec (sn_col (fst m) (snd m) "CO_type") (sn_col (fst p) (snd p) "state")) as [E|_]; [exfalso; symmetry in E; exact (state_CO _ _ _ _ E)|reflexivity]. }
    destruct (IH d1 c N') as [A [B C]]. split; [|split].
    + intros m [M|M] E.
      * subst m. rewrite C; [rewrite R, E, String.eqb_refl; reflexivity|].
        intros m M. rewrite E. split; intros F; [apply pair_eq in F; [subst; contradiction|apply CO_new]|symmetry in F; exact (state_CO _ _ _ _ F)].
      * rewrite (A m M E), (U m "state" M (or_introl eq_refl)), E, (U m "CO_type" M (or_intror eq_refl)). reflexivity.
    + intros m [M|M] E; [|exact (B m M E)]. subst m. rewrite C.
      * rewrite R, E, String.eqb_refl. destruct (String.eqb_spec (sn_col (fst p) (snd p) "state") (sn_col (fst p) (snd p) "CO_type")) as [F|_]; [exfalso; exact (state_CO _ _ _ _ F)|reflexivity].
      * intros m M. rewrite E. split; intros F; [exact (state_CO _ _ _ _ F)|apply pair_eq in F; [subst; contradiction|apply state_old]].
    + intros D. rewrite C by (intros m M; apply D; right; exact M). destruct (D p (or_introl eq_refl)) as [D1 D2]. rewrite R. destruct (String.eqb_spec c (sn_col (fst p) (snd p) "CO_type")); [contradiction|].
      destruct (String.eqb_spec c (sn_col (fst p) (snd p) "state")); [contradiction|reflexivity].
Qed.
Lemma pairs_nodup : forall names, NoDup names -> NoDup (flat_map (fun n : string => [(false, n); (true, n)]) names).
Proof.
  intros names N. induction N as [|n names NI N IH]; [constructor|]. cbn [flat_map app].
  assert (K : forall i, ~ In ((i, n) : bool * string) (flat_map (fun n : string => [(false, n); (true, n)]) names)).
  { intros i H. apply in_flat_map in H as [m [M H]]. cbn in H. destruct H as [H|[H|[]]]; assert (m = n) by congruence; subst; contradiction. }
  constructor; [|constructor; [apply K|exact IH]]. intros [H|H]; [discriminate H|exact (K _ H)].
Qed.
