(** C70: the runs of a grid on disk and their grid point files. *)
From Coq Require Import Ascii String List Bool PeanoNat QArith Sorted Wf_nat Lia.
From Verif Require Import PyBase PyList PyStr PySplit PyStrip JoinModel JoinProps.
Import ListNotations.
Open Scope string_scope.
Open Scope nat_scope.
Open Scope list_scope.

(** ** Specification: runs *)
Definition found (paths : list folder) : list string := flat_map (fun p => plain p ++ zipped p) paths.
Definition param (L : list string) (n : nat) (k : list string) : Prop := exists d, nth_error L n = Some d /\ initial_values_from_dirname d = Ok k.
(** The last directory of some parameters, and where these parameters were met first. *)
Definition final (L : list string) (d : string) (i : nat) : Prop :=
  exists k n, nth_error L n = Some d /\ param L n k /\ (forall m, n < m -> ~ param L m k) /\ param L i k /\ (forall m, m < i -> ~ param L m k).

(** ** Lemmas *)
Definition vmap (f : pos -> string) (d : list (key * pos)) : list (key * string) := map (fun kp => (fst kp, f (snd kp))) d.
Lemma vmap_dset f : forall d k p, dset key_eqb (vmap f d) k (f p) = vmap f (dset key_eqb d k p).
Proof. induction d as [|[k0 p0] d IH]; intros k p; cbn; [reflexivity|]. destruct (key_eqb k k0); cbn; [reflexivity|]. f_equal. apply IH. Qed.
Fixpoint devs (n : nat) (ks : list key) : list event := match ks with [] => [] | k :: ks' => ((n, 0), k, false) :: devs (S n) ks' end.
Definition named (d : string) (k : key) : Prop := initial_values_from_dirname d = Ok k.
Lemma add_dirs_spec (L : list string) : let f := fun p : pos => nth (fst p) L "" in forall dirs pre d, L = pre ++ dirs ->
  (exists ks, Forall2 named dirs ks /\ add_dirs dirs (vmap f d) = Ok (vmap f (fold_left step (devs (length pre) ks) d))) \/
  (exists x e, In x dirs /\ initial_values_from_dirname x = Raise e /\ add_dirs dirs (vmap f d) = Raise e).
Proof.
  intros f. induction dirs as [|x dirs IH]; intros pre d E; [left; exists []; split; [constructor|reflexivity]|]. cbn [add_dirs].
  destruct (initial_values_from_dirname x) as [k|e] eqn:N; cbn [rbind]; [|right; exists x, e; split; [left; reflexivity|auto]].
  assert (FX : x = f (length pre, 0)) by (unfold f; cbn; rewrite E, app_nth2, Nat.sub_diag by lia; reflexivity).
  replace (dset key_eqb (vmap f d) k x) with (vmap f (dset key_eqb d k (length pre, 0))) by (rewrite <- vmap_dset, <- FX; reflexivity).
  destruct (IH (pre ++ [x]) (dset key_eqb d k (length pre, 0))) as [(ks & F & Q)|(y & e & I & Q1 & Q2)]; [rewrite <- app_assoc; exact E| |].
  - left. exists (k :: ks). split; [constructor; [exact N|exact F]|]. rewrite Q, app_length. cbn [length devs fold_left step]. rewrite Nat.add_1_r. reflexivity.
  - right. exists y, e. split; [right; exact I|auto].
Qed.
Lemma add_dirs_app : forall a b d, add_dirs (a ++ b) d = rbind (add_dirs a d) (add_dirs b).
Proof. induction a as [|x a IH]; intros b d; [reflexivity|]. cbn. destruct (initial_values_from_dirname x); cbn; [apply IH|reflexivity]. Qed.
Lemma input_flat : forall paths d meta, input_loop paths d meta = rbind (add_dirs (found paths) d) (fun d' => Ok (d', last (map metadata paths) meta)).
Proof.
  induction paths as [|p paths IH]; intros d meta; [reflexivity|]. cbn [input_loop]. unfold found. cbn [flat_map]. fold (found paths). rewrite (add_dirs_app (plain p ++ zipped p) (found paths)).
  destruct (add_dirs (plain p ++ zipped p) d) as [d'|e]; cbn [rbind]; [|reflexivity]. rewrite IH. destruct (add_dirs (found paths) d') as [d''|]; cbn [rbind]; [|reflexivity].
  destruct paths as [|p' paths']; [reflexivity|]. f_equal. f_equal. change (last (map metadata (p' :: paths')) (metadata p) = last (map metadata (p' :: paths')) meta).
  assert (G : forall (l : list (list string)) x a b, last (x :: l) a = last (x :: l) b).
  { clear. induction l as [|y l IH]; intros x a b; [reflexivity|]. change (last (y :: l) a = last (y :: l) b). apply IH. }
  cbn [map]. apply G.
Qed.
Lemma devs_nth : forall ks n m, nth_error (devs n ks) m = option_map (fun k => ((n + m, 0), k, false)) (nth_error ks m).
Proof.
  induction ks as [|k ks IH]; intros n [|m]; cbn; try reflexivity.
  - rewrite Nat.add_0_r. reflexivity.
  - rewrite IH. replace (S n + m) with (n + S m) by lia. reflexivity.
Qed.
Lemma at_param L ks : Forall2 named L ks -> forall n k ig, at_ (devs 0 ks) n k ig <-> ig = false /\ param L n k.
Proof.
  intros F n k ig. destruct (forall2_nth _ _ _ _ _ F n) as [A B]. unfold at_. setoid_rewrite devs_nth. split.
  - intros [p E]. destruct (nth_error ks n) as [k'|] eqn:N; [|discriminate]. cbn in E. destruct (B _ eq_refl) as (d & Nd & K). assert (k' = k /\ ig = false) as [-> ->] by (split; congruence).
    split; [reflexivity|]. exists d. auto.
  - intros [-> (d & Nd & K)]. destruct (A _ Nd) as (k' & Nk & K'). unfold named in K'. assert (k' = k) by congruence. subst. rewrite Nk. eexists. reflexivity.
Qed.
Lemma absolute_kept d : prefix "/" d = true -> existsb (String.eqb d) IGNORED = false.
Proof. intros P. apply prefix_exists in P as [r ->]. reflexivity. Qed.

(** ** Theorems: runs *)
Theorem C70_runs : forall paths runs meta, Forall (fun d => prefix "/" d = true) (found paths) -> grid_reader paths = Ok (runs, meta) ->
  (exists firsts, Forall2 (final (found paths)) runs firsts /\ StronglySorted lt firsts) /\
  (forall n k, param (found paths) n k -> exists m d, param (found paths) m k /\ n <= m /\ nth_error (found paths) m = Some d /\ In d runs /\ forall q, m < q -> ~ param (found paths) q k) /\
  meta = last (map metadata paths) [].
Proof.
  intros paths runs meta AB H. unfold grid_reader in H. rewrite input_flat in H. set (L := found paths) in *.
  destruct (add_dirs_spec L L [] [] eq_refl) as [(ks & F & E)|(x & e & _ & _ & E)]; cbn [vmap map] in E; rewrite E in H; cbn [rbind] in H; [|discriminate].
  cbn [length] in *. destruct (inv_fold (devs 0 ks)) as (_ & KEYS & starts & R & ST & _). set (d := fold_left step (devs 0 ks) []) in *.
  assert (HR : runs = filter (fun p => negb (existsb (String.eqb p) IGNORED)) (map (fun kp => nth (fst (snd kp)) L "") d) /\ meta = last (map metadata paths) []).
  { assert (MV : map snd (vmap (fun p => nth (fst p) L "") d) = map (fun kp => nth (fst (snd kp)) L "") d) by (unfold vmap; rewrite map_map; reflexivity).
    rewrite <- MV. revert H. destruct (vmap (fun p => nth (fst p) L "") d) as [|q v]; [discriminate|]. intros H. split; congruence. }
  destruct HR as [HR HM]. split; [|split; [|exact HM]].
  - exists starts. split; [|exact ST]. assert (FL : filter (fun p => negb (existsb (String.eqb p) IGNORED)) (map (fun kp => nth (fst (snd kp)) L "") d) = map (fun kp => nth (fst (snd kp)) L "") d /\
      Forall2 (final L) (map (fun kp => nth (fst (snd kp)) L "") d) starts).
    { clear KEYS ST HR HM H E. clearbody d. induction R as [|[k p] i d0 starts0 R0 R IH]; [split; [reflexivity|constructor]|]. destruct IH as [IH1 IH2].
      destruct R0 as ((n & NE & NL) & (ig & AI) & BI & CI). cbn [fst snd] in *. rewrite devs_nth in NE. destruct (nth_error ks n) as [k'|] eqn:Nk; [|discriminate].
      cbn in NE. assert (p = (n, 0) /\ k' = k) as [-> ->] by (split; congruence). cbn [map fst snd].
      destruct (proj2 (forall2_nth _ _ _ _ _ F n) _ Nk) as (x & Nx & Kx). assert (NX : nth n L "" = x) by (apply nth_error_nth; exact Nx). rewrite NX. split.
      - cbn [filter]. rewrite absolute_kept; [cbn [negb]; f_equal; exact IH1|]. rewrite Forall_forall in AB. apply AB. eapply nth_error_In. exact Nx.
      - constructor; [|exact IH2]. exists k, n. split; [exact Nx|]. split; [exists x; auto|]. split; [|split].
        + intros m Lm P. apply (NL m false Lm). apply (at_param L ks F). auto.
        + apply (at_param L ks F) in AI. apply AI.
        + intros m Lm P. destruct (CI m false Lm) as (q & _ & Aq); [apply (at_param L ks F); auto|]. apply (at_param L ks F) in Aq as [Aq _]. discriminate. }
    rewrite HR. rewrite (proj1 FL). apply FL.
  - intros n k P. destruct (last_event (devs 0 ks) k n false) as (m & ig & Lm & Am & Bm); [apply (at_param L ks F); auto|].
    assert (ig = false) by (apply (at_param L ks F) in Am; apply Am). subst ig. assert (PM := proj2 (proj1 (at_param L ks F m k false) Am)). destruct PM as (x & Nx & Kx).
    exists m, x. split; [exists x; auto|]. split; [exact Lm|]. split; [exact Nx|]. split.
    + assert (IK : In k (map fst d)) by (apply KEYS; exists m; auto). apply in_map_iff in IK as ([k' p] & Q & IK). cbn in Q. subst k'.
      assert (RP : exists i, rel (devs 0 ks) (k, p) i).
      { clear -R IK. clearbody d. induction R as [|a b x y R0 R IH]; [destruct IK|]. destruct IK as [EK|IK]; [subst a; eauto|apply IH; exact IK]. }
      destruct RP as (i & (n' & NE & NL) & _). cbn [fst snd] in *.
      assert (n' = m).
      { destruct (lt_eq_lt_dec n' m) as [[X|X]|X]; [|exact X|]; exfalso; [exact (NL m false X Am)|apply (Bm n' false X); exists p; exact NE]. }
      subst n'. rewrite devs_nth in NE. destruct (nth_error ks m) as [k'|]; [|discriminate]. cbn in NE. assert (p = (m, 0)) by congruence. subst p.
      rewrite HR. apply filter_In. split.
      * apply in_map_iff. exists (k, (m, 0)). split; [apply nth_error_nth; exact Nx|exact IK].
      * rewrite absolute_kept; [reflexivity|]. rewrite Forall_forall in AB. apply AB. eapply nth_error_In. exact Nx.
    + intros q Lq Q. apply (Bm q false Lq). apply (at_param L ks F). auto.
Qed.
Theorem C70_refused : forall paths, (exists r, grid_reader paths = Ok r) <-> found paths <> [] /\ Forall (fun d => exists k, initial_values_from_dirname d = Ok k) (found paths).
Proof.
  intros paths. unfold grid_reader. rewrite input_flat. set (L := found paths).
  destruct (add_dirs_spec L L [] [] eq_refl) as [(ks & F & E)|(x & e & I & Q & E)]; cbn [vmap map] in E; rewrite E; cbn [rbind].
  - assert (FA : Forall (fun d => exists k, initial_values_from_dirname d = Ok k) L) by (clear -F; induction F; constructor; eauto).
    destruct (inv_fold (devs 0 ks)) as (_ & KEYS & _). cbn [length]. set (d := fold_left step (devs 0 ks) []) in *. split.
    + intros [r H]. split; [|exact FA]. intros LE. rewrite LE in F. inversion F; subst ks. cbn in d. subst d. discriminate.
    + intros [NE _]. destruct L as [|x L']; [congruence|]. inversion F as [|? k ? ks' N F' Q1 Q2]; subst.
      destruct (last_event (devs 0 (k :: ks')) k 0 false) as (m & ig & _ & Am & Bm); [eexists; reflexivity|].
      assert (ig = false) by (apply (at_param _ _ F) in Am; apply Am). subst ig.
      assert (IK : In k (map fst d)) by (apply KEYS; eauto). destruct d as [|q d0]; [destruct IK|]. eexists. reflexivity.
  - split; [intros [r H]; discriminate|]. intros [_ FA]. rewrite Forall_forall in FA. destruct (FA x I). congruence.
Qed.
(** Only the metadata of the last path are kept. *)
Theorem C70_metadata_refuted : exists paths runs meta x, grid_reader paths = Ok (runs, meta) /\ In x (flat_map metadata paths) /\ ~ In x meta.
Proof.
  exists [Folder ["/a/m1_1_m2_1_initial_period_in_days_1_initial_z_1"] [] ["/a/grid_points.csv"]; Folder [] [] []].
  eexists. eexists. exists "/a/grid_points.csv". split; [vm_compute; reflexivity|]. split; [left; reflexivity|intros []].
Qed.
(** The folders to be ignored are compared with whole paths, so none is. *)
Theorem C70_ignored_refuted : exists paths runs meta, grid_reader paths = Ok (runs, meta) /\ In "/a/template/m1_1_m2_1_initial_period_in_days_1_initial_z_1" runs.
Proof.
  exists [Folder ["/a/template/m1_1_m2_1_initial_period_in_days_1_initial_z_1"] [] []]. eexists. eexists. split; [vm_compute; reflexivity|left; reflexivity].
Qed.
Example C70_runs_case : match grid_reader [Folder ["/a/m1_1_m2_1_initial_period_in_days_1_initial_z_1_grid_index_0"; "/a/m1_2_m2_1_initial_period_in_days_1_initial_z_1_grid_index_1"] [] ["/a/x"];
    Folder [] ["/b/m1_1_m2_1_initial_period_in_days_1_initial_z_1_grid_index_7"; "/b/m1_3_m2_1_initial_period_in_days_1_initial_z_1_grid_index_8"] ["/b/x"]] with
  | Ok (runs, meta) => runs = ["/b/m1_1_m2_1_initial_period_in_days_1_initial_z_1_grid_index_7"; "/a/m1_2_m2_1_initial_period_in_days_1_initial_z_1_grid_index_1";
                              "/b/m1_3_m2_1_initial_period_in_days_1_initial_z_1_grid_index_8"] /\ meta = ["/b/x"]
  | Raise _ => False end.
Proof. vm_compute. auto. Qed.
Print Assumptions C70_runs.
Print Assumptions C70_refused.
Print Assumptions C70_metadata_refuted.
Print Assumptions C70_ignored_refuted.

(** ** Grid point files *)
Definition assigns (line a b : string) : Prop := line = (a ++ "=" ++ b)%string /\ py_in "=" a = false /\ py_in "=" b = false.
Definition RENAMED := [ ("m1", "star_1_mass"); ("m2", "star_2_mass"); ("initial_period_in_days", "period_days") ].
Definition column_of (n c : string) : Prop := In (n, c) RENAMED \/ (~ In n (map fst RENAMED) /\ c = n).
(** A number with a Fortran exponent. *)
Definition denotes {num} (float : string -> option num) (scale : num -> num -> num) (b : string) (v : num) : Prop :=
  (py_in "d" b = false /\ exists t, stripped b t /\ float t = Some v) \/
  (exists m e r t t' x y, b = (m ++ "d" ++ e ++ r)%string /\ py_in "d" m = false /\ py_in "d" e = false /\ (r = "" \/ exists r', r = ("d" ++ r')%string) /\
     stripped m t /\ stripped e t' /\ float t = Some x /\ float t' = Some y /\ v = scale x y).
(** The line sets this column to this value. *)
Definition sets {num} (float : string -> option num) (scale : num -> num -> num) (line c : string) (v : num) : Prop :=
  exists a b n, assigns line a b /\ stripped a n /\ column_of n c /\ denotes float scale b v.
Definition skipped (line : string) : Prop := ~ exists a b, assigns line a b.

Lemma in_app1 c : forall a b, py_in (String c "") (a ++ b) = py_in (String c "") a || py_in (String c "") b.
Proof.
  intros a b. assert (P : forall x s, prefix (String c "") (String x s) = Ascii.eqb c x).
  { intros x s. cbn [prefix]. destruct (ascii_dec c x) as [-> |N]; [rewrite Ascii.eqb_refl; destruct s; reflexivity|]. symmetry. apply Ascii.eqb_neq. exact N. }
  induction a as [|x a IH]; [reflexivity|]. cbn [append]. unfold py_in. fold py_in. rewrite !P, IH, orb_assoc. reflexivity.
Qed.
Lemma blank_free c u : is_space c = false -> blank u -> py_in (String c "") u = false.
Proof.
  intros S B. destruct (py_in (String c "") u) eqn:P; [|reflexivity]. apply py_in_iff in P as (x & y & ->). exfalso.
  assert (Q : is_space c = true); [|congruence]. apply B. rewrite !list_app. apply in_or_app. right. left. reflexivity.
Qed.
Lemma part_char c a b : py_in (String c "") a = false -> partition (String c "") (a ++ String c b) = Some (a, b).
Proof.
  intros N. apply partition_some. split; [reflexivity|]. intros a' b' E. destruct (Nat.le_gt_cases (String.length a) (String.length a')) as [L|L]; [exact L|]. exfalso.
  assert (X : exists y, a = (a' ++ String c y)%string).
  { clear N. revert a' E L. induction a as [|x a IH]; intros [|x' a'] E L; cbn in *; try lia.
    - exists a. congruence.
    - destruct (IH a') as [y Y]; [congruence|lia|]. exists y. congruence. }
  destruct X as [y ->]. rewrite in_app1 in N. apply orb_false_iff in N as [_ N]. unfold py_in in N. fold py_in in N. cbn [prefix] in N.
  destruct (ascii_dec c c); [destruct y; discriminate|congruence].
Qed.
Lemma in_here c r : py_in (String c "") (String c r) = true.
Proof. apply py_in_iff. exists "", r. reflexivity. Qed.
Lemma in_here' c r : py_in (String c "") (String c "" ++ r) = true.
Proof. apply in_here. Qed.
Lemma stripped_pad u s w t : blank u -> blank w -> stripped s t -> stripped (u ++ s ++ w) t.
Proof.
  intros U W (a & b & -> & A & B & T). exists (u ++ a)%string, (b ++ w)%string. split; [|split; [apply blank_app; assumption|split; [apply blank_app; assumption|exact T]]].
  rewrite <- !str_app_assoc. reflexivity.
Qed.
Lemma denotes_pad num float scale b w (v : num) : blank w -> (denotes float scale (b ++ w) v <-> denotes float scale b v).
Proof.
  intros W. assert (DW : py_in "d" w = false) by (apply blank_free; [reflexivity|exact W]).
  assert (ST : forall s t, stripped (s ++ w) t <-> stripped s t).
  { intros s t. split; intros H.
    - assert (S0 := strip_stripped s). assert (S1 := stripped_pad "" s w _ blank_nil W S0). cbn [append] in S1. rewrite (stripped_unique _ _ _ H S1). exact S0.
    - exact (stripped_pad "" s w t blank_nil W H). }
  split; intros [(N & t & T & F)|(m & e & r & t & t' & x & y & E & Nm & Ne & R & Sm & Se & Fx & Fy & ->)].
  - left. rewrite in_app1, orb_false_iff in N. split; [apply N|]. exists t. split; [apply ST; exact T|exact F].
  - right. assert (X : exists z, b = (m ++ "d" ++ z)%string /\ (z ++ w)%string = (e ++ r)%string).
    { clear -E Nm DW. revert b E. induction m as [|c m IH]; intros b E.
      - destruct b as [|c b]; cbn in E.
        + exfalso. subst w. change (py_in "d" (String "d" (e ++ r)) = false) in DW. rewrite in_here in DW. discriminate.
        + exists b. split; [|congruence]. assert (c = "d"%char) by congruence. subst. reflexivity.
      - destruct b as [|c' b]; cbn in E.
        + exfalso. subst w. change (String c (m ++ String "d" (e ++ r)))%string with (String c m ++ String "d" (e ++ r))%string in DW. rewrite in_app1, ?in_here, ?in_here', orb_true_r in DW. discriminate.
        + change (String c m) with (String c "" ++ m)%string in Nm. rewrite in_app1, orb_false_iff in Nm. destruct (IH (proj2 Nm) b) as (z & -> & Z); [cbn; congruence|].
          exists z. split; [|exact Z]. cbn. congruence. }
    destruct X as (z & -> & Z).
    destruct (partition "d" z) as [[e0 r0]|] eqn:P.
    + destruct (proj1 (partition_some _ _ _ _) P) as [Ez _].
      assert (Ne0 : py_in "d" e0 = false).
      { assert (SP := split_cons "d" z e0 r0 ltac:(discriminate) P). destruct (split_spec "d" z ltac:(discriminate)) as (_ & _ & FA). rewrite SP in FA. inversion FA; assumption. }
      rewrite Ez in Z. rewrite <- !str_app_assoc in Z.
      assert (P1 := part_char "d" e0 (r0 ++ w) Ne0). change (e0 ++ String "d" (r0 ++ w))%string with (e0 ++ "d" ++ r0 ++ w)%string in P1. rewrite Z in P1.
      destruct R as [-> |[r' ->]].
      * exfalso. rewrite str_app_nil in P1. assert (Q : partition "d" e = None) by (apply partition_none; exact Ne). congruence.
      * assert (P2 := part_char "d" e r' Ne). change (e ++ String "d" r')%string with (e ++ "d" ++ r')%string in P2. assert (e0 = e) by congruence. subst e0.
        exists m, e, ("d" ++ r0)%string, t, t', x, y. rewrite Ez. repeat (split; [first [reflexivity|assumption|right; eauto]|]). reflexivity.
    + assert (Nz : py_in "d" z = false) by (apply partition_none; exact P).
      destruct R as [-> |[r' ->]].
      * rewrite str_app_nil in Z. subst e. exists m, z, "", t, t', x, y. rewrite str_app_nil. repeat (split; [first [reflexivity|assumption|left; reflexivity|apply ST; assumption]|]). reflexivity.
      * exfalso. assert (Q : py_in "d" (z ++ w) = true) by (rewrite Z, in_app1, ?in_here, ?in_here', orb_true_r; reflexivity). rewrite in_app1, Nz, DW in Q. discriminate.
  - left. split; [rewrite in_app1, N, DW; reflexivity|]. exists t. split; [apply ST; exact T|exact F].
  - right. subst b. destruct R as [-> |[r' ->]].
    + exists m, (e ++ w)%string, "", t, t', x, y. rewrite !str_app_nil, <- !str_app_assoc. repeat (split; [first [reflexivity|assumption|left; reflexivity|apply ST; assumption|rewrite in_app1, Ne, DW; reflexivity]|]). reflexivity.
    + exists m, e, ("d" ++ r' ++ w)%string, t, t', x, y. rewrite <- !str_app_assoc. repeat (split; [first [reflexivity|assumption|right; eexists; reflexivity]|]). reflexivity.
Qed.
Lemma assigns_unique line a b a' b' : assigns line a b -> assigns line a' b' -> a = a' /\ b = b'.
Proof.
  intros (E & A & B) (E' & A' & B'). assert (P := part_char "=" a b A). assert (P' := part_char "=" a' b' A').
  change (a ++ String "=" b)%string with (a ++ "=" ++ b)%string in P. change (a' ++ String "=" b')%string with (a' ++ "=" ++ b')%string in P'. rewrite <- E in P. rewrite <- E' in P'. split; congruence.
Qed.
Lemma variable_column n : column_of n (variable n) /\ forall c, column_of n c -> c = variable n.
Proof.
  unfold column_of, variable. destruct (String.eqb_spec n "m1") as [-> |N1]; [|destruct (String.eqb_spec n "m2") as [-> |N2]; [|destruct (String.eqb_spec n "initial_period_in_days") as [-> |N3]]].
  - split; [left; cbn; tauto|]. intros c [I|[N _]]; [cbn in I; intuition congruence|exfalso; apply N; cbn; tauto].
  - split; [left; cbn; tauto|]. intros c [I|[N _]]; [cbn in I; intuition congruence|exfalso; apply N; cbn; tauto].
  - split; [left; cbn; tauto|]. intros c [I|[N _]]; [cbn in I; intuition congruence|exfalso; apply N; cbn; tauto].
  - split; [right; split; [cbn; intuition congruence|reflexivity]|]. intros c [I|[_ ->]]; [cbn in I; intuition congruence|reflexivity].
Qed.
Section Lines.
  Context {num : Type} (float : string -> option num) (scale : num -> num -> num).
  Lemma to_float_spec s t : stripped s t -> to_float float s = match float t with Some x => Ok x | None => Raise ValueError end.
  Proof using Type. intros S0. unfold to_float. rewrite (stripped_unique _ _ _ (strip_stripped s) S0). reflexivity. Qed.
  (** The value read from the text after "=". *)
  Lemma value_read f1 (k : string) :
    match split "d" f1 with
    | m :: e :: _ => rbind (to_float float m) (fun x => rbind (to_float float e) (fun y => Ok (Some (k, scale x y))))
    | [ m ] => rbind (to_float float m) (fun x => Ok (Some (k, x)))
    | [] => Ok None
    end = Raise ValueError /\ (forall v, ~ denotes float scale f1 v) \/
    exists v, denotes float scale f1 v /\ (forall v', denotes float scale f1 v' -> v' = v) /\
    match split "d" f1 with
    | m :: e :: _ => rbind (to_float float m) (fun x => rbind (to_float float e) (fun y => Ok (Some (k, scale x y))))
    | [ m ] => rbind (to_float float m) (fun x => Ok (Some (k, x)))
    | [] => Ok None
    end = Ok (Some (k, v)).
  Proof using Type.
    destruct (partition "d" f1) as [[m r]|] eqn:P.
    - assert (SP := split_cons "d" f1 m r ltac:(discriminate) P). destruct (split_spec "d" f1 ltac:(discriminate)) as (_ & _ & FA). rewrite SP in FA |- *.
      inversion FA as [|? ? Nm FB]; subst. destruct (proj1 (partition_some _ _ _ _) P) as [Ef _].
      assert (EX : exists e rr, split "d" r = e :: rr /\ py_in "d" e = false /\ exists r0, r = (e ++ r0)%string /\ (r0 = "" \/ exists r', r0 = ("d" ++ r')%string)).
      { destruct (partition "d" r) as [[e r']|] eqn:P2.
        - exists e, (split "d" r'). rewrite (split_cons "d" r e r' ltac:(discriminate) P2) in FB |- *. inversion FB; subst. split; [reflexivity|]. split; [assumption|].
          exists ("d" ++ r')%string. split; [apply partition_some in P2; apply P2|right; eauto].
        - exists r, []. rewrite (split_one "d" r ltac:(discriminate) P2). split; [reflexivity|]. split; [apply partition_none; exact P2|]. exists "". rewrite str_app_nil. auto. }
      destruct EX as (e & rr & SE & Ne & r0 & Er & R0). rewrite SE. rewrite (to_float_spec m _ (strip_stripped m)), (to_float_spec e _ (strip_stripped e)).
      assert (ALL : forall v', denotes float scale f1 v' -> exists x y, float (strip m) = Some x /\ float (strip e) = Some y /\ v' = scale x y).
      { intros v' [(N & _)|(m' & e' & r'' & t & t' & x & y & E & Nm' & Ne' & R & Sm & Se & Fx & Fy & ->)].
        - exfalso. rewrite Ef, !in_app1 in N. apply orb_false_iff in N as [_ N]. apply orb_false_iff in N as [N _]. discriminate.
        - assert (P' := part_char "d" m' (e' ++ r'') Nm'). change (m' ++ String "d" (e' ++ r''))%string with (m' ++ "d" ++ e' ++ r'')%string in P'. rewrite <- E, P in P'.
          assert (m = m' /\ r = (e' ++ r'')%string) as [<- Er'] by (split; congruence).
          assert (e = e').
          { destruct R as [-> |[q ->]]; destruct R0 as [-> |[q0 ->]].
            - rewrite !str_app_nil in *. congruence.
            - exfalso. rewrite str_app_nil in Er'. subst r. assert (Q : py_in "d" e' = true) by (rewrite <- Er', in_app1; rewrite ?in_here, ?in_here', orb_true_r; reflexivity). congruence.
            - exfalso. rewrite str_app_nil in Er. subst r. assert (Q : py_in "d" e = true) by (rewrite Er', in_app1; rewrite ?in_here, ?in_here', orb_true_r; reflexivity). congruence.
            - assert (A := part_char "d" e q0 Ne). assert (B := part_char "d" e' q Ne'). change (e ++ String "d" q0)%string with (e ++ "d" ++ q0)%string in A.
              change (e' ++ String "d" q)%string with (e' ++ "d" ++ q)%string in B. rewrite <- Er in A. rewrite <- Er' in B. congruence. }
          subst e'. exists x, y. rewrite (stripped_unique _ _ _ (strip_stripped m) Sm), (stripped_unique _ _ _ (strip_stripped e) Se). auto. }
      destruct (float (strip m)) as [x|] eqn:Fx; cbn [rbind]; [|left; split; [reflexivity|intros v D; destruct (ALL v D) as (x & y & Q & _); congruence]].
      destruct (float (strip e)) as [y|] eqn:Fy; cbn [rbind]; [|left; split; [reflexivity|intros v D; destruct (ALL v D) as (x' & y & _ & Q & _); congruence]].
      right. exists (scale x y). split; [|split; [|reflexivity]].
      + right. exists m, e, r0, (strip m), (strip e), x, y. rewrite <- Er. repeat (split; [first [assumption|apply strip_stripped]|]). reflexivity.
      + intros v' D. destruct (ALL v' D) as (x' & y' & Q1 & Q2 & ->). congruence.
    - rewrite (split_one "d" f1 ltac:(discriminate) P), (to_float_spec f1 _ (strip_stripped f1)). assert (N : py_in "d" f1 = false) by (apply partition_none; exact P).
      assert (ALL : forall v', denotes float scale f1 v' -> float (strip f1) = Some v').
      { intros v' [(_ & t & T & F)|(m & e & r & t & t' & x & y & E & _)]; [rewrite (stripped_unique _ _ _ (strip_stripped f1) T); exact F|].
        exfalso. rewrite E, !in_app1 in N. apply orb_false_iff in N as [_ N]. apply orb_false_iff in N as [N _]. discriminate. }
      destruct (float (strip f1)) as [x|] eqn:F; cbn [rbind].
      + right. exists x. split; [left; split; [exact N|exists (strip f1); split; [apply strip_stripped|exact F]]|]. split; [|reflexivity]. intros v' D. specialize (ALL v' D). congruence.
      + left. split; [reflexivity|]. intros v D. specialize (ALL v D). congruence.
  Qed.
  Lemma line_spec line :
    (skipped line /\ read_line float scale line = Ok None) \/
    (exists a b n c v, assigns line a b /\ stripped a n /\ column_of n c /\ denotes float scale b v /\ (forall v', denotes float scale b v' -> v' = v) /\ read_line float scale line = Ok (Some (c, v))) \/
    (exists a b, assigns line a b /\ (forall v, ~ denotes float scale b v) /\ read_line float scale line = Raise ValueError).
  Proof using Type.
    unfold read_line. destruct (py_in "=" line) eqn:PE; cbn [negb].
    - destruct (strip_stripped line) as (u & w & EL & U & W & _). set (t := strip line) in *. clearbody t.
      assert (DU : py_in "=" u = false) by (apply blank_free; [reflexivity|exact U]). assert (DW : py_in "=" w = false) by (apply blank_free; [reflexivity|exact W]).
      assert (SK : forall a b, assigns line a b -> exists a' b', assigns t a' b').
      { intros a b (E & A & B). rewrite EL in E. rewrite EL, !in_app1, DU, DW, orb_false_r in PE. cbn [orb] in PE.
        destruct (partition "=" t) as [[a' b']|] eqn:P; [|apply partition_none in P; congruence]. destruct (proj1 (partition_some _ _ _ _) P) as [Et _].
        assert (Na' : py_in "=" a' = false).
        { assert (SP := split_cons "=" t a' b' ltac:(discriminate) P). destruct (split_spec "=" t ltac:(discriminate)) as (_ & _ & FA). rewrite SP in FA. inversion FA; assumption. }
        exists a', b'. split; [exact Et|]. split; [exact Na'|].
        assert (P1 := part_char "=" a b A). change (a ++ String "=" b)%string with (a ++ "=" ++ b)%string in P1. rewrite <- E in P1.
        assert (NU : py_in "=" (u ++ a') = false) by (rewrite in_app1, DU, Na'; reflexivity). assert (P2 := part_char "=" (u ++ a') (b' ++ w) NU).
        assert (EE : (u ++ t ++ w)%string = ((u ++ a') ++ String "=" (b' ++ w))%string) by (rewrite Et, <- !str_app_assoc; reflexivity). rewrite <- EE in P2.
        assert (b = (b' ++ w)%string) by congruence. subst b. rewrite in_app1 in B. apply orb_false_iff in B. apply B. }
      destruct (partition "=" t) as [[f0 r]|] eqn:P.
      + assert (SP := split_cons "=" t f0 r ltac:(discriminate) P). destruct (split_spec "=" t ltac:(discriminate)) as (_ & _ & FA). rewrite SP in FA. inversion FA as [|? ? N0 FB]; subst.
        destruct (proj1 (partition_some _ _ _ _) P) as [Et _]. rewrite SP. destruct (partition "=" r) as [[f1 r']|] eqn:P2.
        * rewrite (split_cons "=" r f1 r' ltac:(discriminate) P2). left. split; [|destruct (split "=" r') eqn:Q; [destruct (split_spec "=" r' ltac:(discriminate)) as (_ & X & _); congruence|reflexivity]].
          intros (a & b & A). destruct (SK a b A) as (a' & b' & (E' & A' & B')). assert (P3 := part_char "=" a' b' A'). change (a' ++ String "=" b')%string with (a' ++ "=" ++ b')%string in P3.
          rewrite <- E', P in P3. assert (r = b') by congruence. subst b'. apply partition_none in B'. congruence.
        * rewrite (split_one "=" r ltac:(discriminate) P2). assert (Nr : py_in "=" r = false) by (apply partition_none; exact P2).
          assert (AS : assigns (u ++ t ++ w) (u ++ f0) (r ++ w)).
          { split; [rewrite Et, <- !str_app_assoc; reflexivity|]. rewrite !in_app1, DU, DW, N0, Nr. auto. }
          assert (ST : stripped (u ++ f0) (strip f0)).
          { assert (X := stripped_pad u f0 "" _ U blank_nil (strip_stripped f0)). rewrite str_app_nil in X. exact X. }
          right. destruct (value_read r (variable (strip f0))) as [(E & N)|(v & DV & UV & E)]; rewrite E.
          -- right. exists (u ++ f0)%string, (r ++ w)%string. split; [exact AS|]. split; [|reflexivity]. intros v D. apply (denotes_pad num float scale r w v W) in D. exact (N v D).
          -- left. exists (u ++ f0)%string, (r ++ w)%string, (strip f0), (variable (strip f0)), v. split; [exact AS|]. split; [exact ST|]. split; [apply variable_column|].
             split; [apply denotes_pad; assumption|]. split; [|reflexivity]. intros v' D. apply UV. apply (denotes_pad num float scale r w v' W). exact D.
      + exfalso. apply partition_none in P. rewrite EL, !in_app1, DU, DW, P in PE. discriminate.
    - left. split; [|reflexivity]. intros (a & b & (E & _)). rewrite E, !in_app1 in PE. apply orb_false_iff in PE as [_ PE]. apply orb_false_iff in PE as [PE _]. discriminate.
  Qed.
End Lines.
Lemma sets_iff num float scale line (c : string) (v : num) : read_line float scale line = Ok (Some (c, v)) <-> sets float scale line c v.
Proof.
  destruct (line_spec float scale line) as [(S0 & E)|[(a & b & n & c' & v' & A & SN & CO & DV & UV & E)|(a & b & A & N & E)]]; rewrite E; split; try discriminate.
  - intros (a & b & n & A & _). exfalso. apply S0. eauto.
  - intros Q. injection Q as <- <-. exists a, b, n. auto.
  - intros (a' & b' & n' & A' & SN' & CO' & DV'). destruct (assigns_unique _ _ _ _ _ A A') as [<- <-]. assert (n = n') by (apply (stripped_unique a); assumption). subst n'.
    rewrite (UV _ DV'). rewrite (proj2 (variable_column n) _ CO), (proj2 (variable_column n) _ CO'). reflexivity.
  - intros (a' & b' & n' & A' & SN' & CO' & DV'). exfalso. destruct (assigns_unique _ _ _ _ _ A A') as [<- <-]. exact (N v DV').
Qed.

(** The values of a grid point file: the last setting of each column; a line with one "=" and no number ends the reading. *)
Theorem C70_points : forall num (float : string -> option num) (scale : num -> num -> num) lines,
  ((exists values, read_initial_values float scale (Some lines) = Ok (Some values)) <-> Forall (fun line => skipped line \/ exists c v, sets float scale line c v) lines) /\
  ((exists line, In line lines /\ ~ skipped line /\ forall c v, ~ sets float scale line c v) -> read_initial_values float scale (Some lines) = Raise ValueError) /\
  forall values, read_initial_values float scale (Some lines) = Ok (Some values) -> forall c v, dget String.eqb values c = Some v <->
    exists i line, nth_error lines i = Some line /\ sets float scale line c v /\ forall j line' v', i < j -> nth_error lines j = Some line' -> ~ sets float scale line' c v'.
Proof.
  intros num float scale lines.
  assert (BAD : forall line, ~ skipped line -> (forall c v, ~ sets float scale line c v) -> read_line float scale line = Raise ValueError).
  { intros line NS NO. destruct (line_spec float scale line) as [(S0 & E)|[(a & b & n & c' & v' & A & SN & CO & DV & UV & E)|(a & b & A & N & E)]]; [contradiction| |exact E].
    exfalso. apply (NO c' v'). exists a, b, n. auto. }
  assert (GOOD : forall line, (exists kv, read_line float scale line = Ok kv) <-> (skipped line \/ exists c v, sets float scale line c v)).
  { intros line. destruct (line_spec float scale line) as [(S0 & E)|[(a & b & n & c' & v' & A & SN & CO & DV & UV & E)|(a & b & A & N & E)]]; rewrite E; split; eauto.
    - intros _. right. exists c', v', a, b, n. auto.
    - intros [kv Q]. discriminate.
    - intros [S0|(c & v & H)]; exfalso; [apply S0; eauto|]. apply sets_iff in H. congruence. }
  unfold read_initial_values. split; [|split].
  - assert (G : forall vs, (exists values, read_lines float scale lines vs = Ok values) <-> Forall (fun line => skipped line \/ exists c v, sets float scale line c v) lines).
    { clear BAD. induction lines as [|line lines IH]; intros vs; [split; [constructor|intros _; exists vs; reflexivity]|]. cbn [read_lines].
      destruct (read_line float scale line) as [kv|] eqn:E; cbn [rbind].
      - rewrite IH. split; [intros F; constructor; [apply GOOD; eauto|exact F]|]. intros F. inversion F; assumption.
      - split; [intros [x Q]; discriminate|]. intros F. inversion F as [|? ? H _]; subst. apply GOOD in H as [kv Q]. congruence. }
    rewrite <- (G []). destruct (read_lines float scale lines []) as [x|]; cbn [rbind]; split; intros [y Y]; try discriminate; eauto.
  - intros (line & I & NS & NO). assert (G : forall vs, read_lines float scale lines vs = Raise ValueError); [|rewrite G; reflexivity].
    induction lines as [|l0 lines IH]; intros vs; [destruct I|]. cbn [read_lines]. destruct I as [E0|I].
    + rewrite E0, (BAD line NS NO). reflexivity.
    + destruct (read_line float scale l0) as [kv|e] eqn:E; cbn [rbind]; [apply IH; exact I|].
      destruct (line_spec float scale l0) as [(_ & E')|[(a & b & n & c' & v' & _ & _ & _ & _ & _ & E')|(a & b & _ & _ & E')]]; congruence.
  - intros values H. assert (G : forall vs, read_lines float scale lines vs = Ok values -> forall c v, dget String.eqb values c = Some v <->
      (exists i line, nth_error lines i = Some line /\ sets float scale line c v /\ forall j line' v', i < j -> nth_error lines j = Some line' -> ~ sets float scale line' c v') \/
      (dget String.eqb vs c = Some v /\ forall j line' v', nth_error lines j = Some line' -> ~ sets float scale line' c v')).
    { clear BAD GOOD H. induction lines as [|line lines IH]; intros vs H c v; cbn [read_lines] in H.
      - assert (vs = values) by congruence. subst. split; [intros E; right; split; [exact E|intros [|j] line' v'; discriminate]|]. intros [([|i] & line & N & _)|[E _]]; try discriminate. exact E.
      - destruct (read_line float scale line) as [kv|] eqn:E; [|discriminate]. cbn [rbind] in H. rewrite (IH _ H c v). split.
        + intros [(i & l & N & S0 & L)|[DG L]].
          * left. exists (S i), l. split; [exact N|]. split; [exact S0|]. intros [|j] line' v' LT N'; [lia|]. apply (L j line' v'); [lia|exact N'].
          * assert (L' : forall j line' v', 0 < j -> nth_error (line :: lines) j = Some line' -> ~ sets float scale line' c v') by (intros [|j] line' v' LT N'; [lia|apply (L j); exact N']).
            destruct kv as [[k x]|].
            -- rewrite (dget_dset String.eqb_spec) in DG. destruct (String.eqb_spec c k) as [<-|NK].
               ++ left. exists 0, line. split; [reflexivity|]. split; [apply sets_iff; congruence|exact L'].
               ++ right. split; [exact DG|]. intros [|j] line' v' N'; [|apply (L j); exact N']. injection N' as <-. intros S0. apply sets_iff in S0. congruence.
            -- right. split; [exact DG|]. intros [|j] line' v' N'; [|apply (L j); exact N']. injection N' as <-. intros S0. apply sets_iff in S0. congruence.
        + intros [([|i] & l & N & S0 & L)|[DG L]].
          * injection N as <-. right. apply sets_iff in S0. rewrite E in S0. injection S0 as ->. rewrite (dget_dset String.eqb_spec), String.eqb_refl. split; [reflexivity|].
            intros j line' v' N'. apply (L (S j)); [lia|exact N'].
          * left. exists i, l. split; [exact N|]. split; [exact S0|]. intros j line' v' LT N'. apply (L (S j)); [lia|exact N'].
          * right. split; [|intros j line' v' N'; apply (L (S j)); exact N']. destruct kv as [[k x]|]; [|exact DG]. rewrite (dget_dset String.eqb_spec).
            destruct (String.eqb_spec c k) as [<-|NK]; [|exact DG]. exfalso. apply (L 0 line x eq_refl). apply sets_iff. exact E. }
    intros c v. destruct (read_lines float scale lines []) as [x|] eqn:R; [|discriminate]. cbn [rbind] in H. assert (x = values) by congruence. subst x.
    rewrite (G [] R c v). split; [intros [X|[X _]]; [exact X|discriminate]|auto].
Qed.
Print Assumptions C70_points.
Example C70_points_case : read_initial_values (num := string * string) (fun t => if String.eqb t "" then None else Some (t, "")) (fun x y => (fst x, fst y))
  (Some ["&controls"; "   m1 = 1.5d1 ! dwarf"; " m2=3"; "m2 = 5d-1"; "initial_z = 1.42d-02  "; "a = b = c"; "/"]) =
  Ok (Some [("star_1_mass", ("1.5", "1 !")); ("star_2_mass", ("5", "-1")); ("initial_z", ("1.42", "-02"))]).
Proof. vm_compute. reflexivity. Qed.
