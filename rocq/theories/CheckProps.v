(** C161: which batches are missing; C162: checking and rescuing a run. *)
From Coq Require Import String Ascii List Bool ZArith Lia Sorted Permutation.
From Verif Require Import PyBase PyStr PySplit PyStrip PyReplace PopModel PopProofs SimPropModel RescueModel RescueSpec RescueProofs RescueParse RescueProps.
Import ListNotations.
Open Scope list_scope.
Open Scope string_scope.

(** ** Scripts which submit *)
Lemma concat_script : forall A (f : A -> list string) l, String.concat "" (map (fun x => script (f x)) l) = script (flat_map f l).
Proof.
  intros A f l. induction l as [|x l IH]; [reflexivity|]. cbn [map flat_map]. rewrite script_app, <- IH.
  destruct l as [|y l]; [cbn; rewrite str_nil_r; reflexivity|]. reflexivity.
Qed.
Lemma flat_lf : forall A (f : A -> list string) l, (forall x, In x l -> Forall (lacks lf) (f x)) -> Forall (lacks lf) (flat_map f l).
Proof. intros A f l H. apply Forall_flat_map. apply Forall_forall. exact H. Qed.
Lemma submits_app : forall (first merge : string -> string) (block : string -> list string) var mets,
  (forall m, In m mets -> exists e1 e2 l1 l2, block m = [l1; e1; l2; e2] /\ submission e1 = None /\ submission e2 = None /\
     submission l1 = Some (var, None, first m) /\ submission l2 = Some ("merge", Some var, merge m)) ->
  forall env n, submits (flat_map block mets ++ [""])%list env n = 
    flat_map (fun p => [(first (snd p), None); (merge (snd p), Some (Some (fst p)))]) (combine (map (fun i => n + 2 * i) (seq 0 (length mets))) mets).
Proof.
  intros first merge block var mets. induction mets as [|m mets IH]; intros H env n; [reflexivity|].
  destruct (H m (or_introl eq_refl)) as (e1 & e2 & l1 & l2 & B & N1 & N2 & S1 & S2).
  cbn [flat_map]. rewrite B. cbn [app submits]. rewrite S1, N1, S2, N2. cbn [option_map lookup]. rewrite String.eqb_refl.
  rewrite IH by (intros; apply H; right; assumption). cbn [length seq map combine flat_map app fst snd].
  rewrite Nat.mul_0_r, Nat.add_0_r. do 2 f_equal. do 2 f_equal.
  rewrite <- seq_shift, map_map. apply map_ext. intro. lia.
Qed.
Definition array_script (met : string) : string := met ++ "_Zsun_slurm_array.slurm".
Definition rescue_script (met : string) : string := met ++ "_Zsun_rescue.slurm".
Definition merge_script (met : string) : string := met ++ "_Zsun_merge_popsyn.slurm".
(** The jobs of a script which submits one job [first] for each metallicity and a merge waiting for it. *)
Definition chained (first : string -> string) (mets : list string) (l : list (string * option (option nat))) : Prop :=
  length l = 2 * length mets /\
  forall k met, nth_error mets k = Some met ->
    nth_error l (2 * k) = Some (first met, None) /\ nth_error l (2 * k + 1) = Some (merge_script met, Some (Some (2 * k))).
Lemma chained_flat : forall first mets n0, n0 = 0 ->
  chained first mets (flat_map (fun p => [(first (snd p), None); (merge_script (snd p), Some (Some (fst p)))])
    (combine (map (fun i => n0 + 2 * i) (seq 0 (length mets))) mets)).
Proof.
  intros first mets n0 ->. unfold chained.
  assert (G : forall s, let l := flat_map (fun p => [(first (snd p), None); (merge_script (snd p), Some (Some (fst p)))])
    (combine (map (fun i => 0 + 2 * i) (seq s (length mets))) mets) in length l = 2 * length mets /\
    forall k met, nth_error mets k = Some met ->
    nth_error l (2 * k) = Some (first met, None) /\ nth_error l (2 * k + 1) = Some (merge_script met, Some (Some (2 * (s + k))))).
  { induction mets as [|m mets IH]; intros s l; [split; [reflexivity|]; intros [|k] met H; discriminate|].
    destruct (IH (S s)) as [L N]. split; [cbn in *; lia|]. intros [|k] met H.
    - assert (W : m = met) by (cbn in H; congruence). subst met. split; [reflexivity|]. unfold l. cbn. rewrite !Nat.add_0_r. reflexivity.
    - destruct (N k met H) as [N1 N2]. unfold l. cbn [length seq map combine flat_map app].
      replace (2 * S k) with (S (S (2 * k))) by lia. cbn [nth_error Nat.add]. split; [exact N1|].
      etransitivity; [exact N2|]. do 4 f_equal. lia. }
  exact (G 0).
Qed.
Definition setup_block (met : string) : list string :=
  ["array=$(sbatch --parsable " ++ met ++ "_Zsun_slurm_array.slurm)"; "echo '" ++ met ++ " job array submitted as '${array}";
   "merge=$(sbatch --parsable --dependency=afterok:${array} --kill-on-invalid-dep=yes " ++ met ++ "_Zsun_merge_popsyn.slurm)";
   "echo '" ++ met ++ " merge job submitted as '${merge}"].
Definition known (met : string) : Prop := exists z, zstring (VNum z) = Ok met.
Lemma known_in : forall met, known met -> In met (map snd supported).
Proof. intros met (z & H). apply zstring_in in H. apply in_map_iff. exists (z, met). auto. Qed.
Ltac each_known H := apply known_in in H; cbn [In map snd supported] in H; repeat (destruct H as [<- |H]); try contradiction.
Lemma setup_block_ok : forall met, known met -> Forall (lacks lf) (setup_block met) /\
  exists e1 e2 l1 l2, setup_block met = [l1; e1; l2; e2] /\ submission e1 = None /\ submission e2 = None /\
     submission l1 = Some ("array", None, array_script met) /\ submission l2 = Some ("merge", Some "array", merge_script met).
Proof.
  intros met H. split.
  - each_known H; repeat constructor; discriminate.
  - do 4 eexists. split; [reflexivity|]. each_known H; repeat split; vm_compute; reflexivity.
Qed.
(** Setting up a run: each array, and its merge only after it has succeeded. *)
Theorem C160_submit : forall zs mets, Forall2 (fun z met => zstring (VNum z) = Ok met) zs mets ->
  exists text, create_bash_submit_script zs = Ok text /\ chained array_script mets (submitted text).
Proof.
  intros zs mets F. exists (script ("#!/bin/bash" :: flat_map setup_block mets)).
  assert (K : forall m, In m mets -> known m).
  { clear - F. induction F as [|z m zs ms E F IH]; [intros m []|]. intros m' [<- |I]; [exists z; exact E|apply IH; exact I]. }
  split.
  - unfold create_bash_submit_script.
    assert (R : rmap (fun z => rbind (zstring (VNum z)) (fun met => Ok (script (setup_block met)))) zs = Ok (map (fun m => script (setup_block m)) mets)).
    { clear - F. induction F as [|z m zs ms E F IH]; [reflexivity|]. cbn [rmap map]. rewrite E. cbn [rbind]. rewrite IH. reflexivity. }
    unfold setup_block in R at 1. rewrite R. cbn [rbind]. rewrite concat_script. reflexivity.
  - unfold submitted. rewrite lines_of.
    + cbn [app submits]. change (submission "#!/bin/bash") with (@None (string * option string * string)).
      rewrite (submits_app array_script merge_script setup_block "array"); [apply chained_flat; reflexivity|].
      intros m I. apply setup_block_ok. apply K, I.
    + constructor; [repeat constructor; discriminate|]. apply flat_lf. intros m I. apply setup_block_ok. apply K, I.
Qed.
Definition rescue_block (name : string) : list string :=
  let met := hd "" (split "_" name) in
  ["resubmit=$(sbatch --parsable " ++ name ++ ")"; "echo 'Rescue script submitted as '${resubmit}";
   "merge=$(sbatch --parsable --dependency=afterok:${resubmit} --kill-on-invalid-dep=yes " ++ met ++ "_Zsun_merge_popsyn.slurm)";
   "echo 'Merge job submitted as '${merge}"].
Lemma rescue_block_ok : forall met, known met -> Forall (lacks lf) (rescue_block (rescue_script met)) /\
  exists e1 e2 l1 l2, rescue_block (rescue_script met) = [l1; e1; l2; e2] /\ submission e1 = None /\ submission e2 = None /\
     submission l1 = Some ("resubmit", None, rescue_script met) /\ submission l2 = Some ("merge", Some "resubmit", merge_script met).
Proof.
  intros met H. split.
  - each_known H; repeat constructor; discriminate.
  - do 4 eexists. split; [reflexivity|]. each_known H; repeat split; vm_compute; reflexivity.
Qed.
Lemma flat_map_map : forall A B C (f : B -> list C) (g : A -> B) l, flat_map f (map g l) = flat_map (fun x => f (g x)) l.
Proof. induction l as [|x l IH]; [reflexivity|]. cbn. rewrite IH. reflexivity. Qed.
(** Resubmitting: each rescue, and its merge only after it has succeeded. *)
Theorem C160_resubmit : forall mets, (forall m, In m mets -> known m) ->
  chained rescue_script mets (submitted (create_bash_submit_rescue_script (map rescue_script mets))).
Proof.
  intros mets K.
  assert (E : create_bash_submit_rescue_script (map rescue_script mets) = script ("#!/bin/bash" :: flat_map (fun m => rescue_block (rescue_script m)) mets)).
  { unfold create_bash_submit_rescue_script.
    change (script ["#!/bin/bash"] ++ String.concat "" (map (fun name => script (rescue_block name)) (map rescue_script mets)) =
            script ("#!/bin/bash" :: flat_map (fun m => rescue_block (rescue_script m)) mets)).
    rewrite concat_script, flat_map_map. reflexivity. }
  rewrite E. unfold submitted. rewrite lines_of.
  - cbn [app submits]. change (submission "#!/bin/bash") with (@None (string * option string * string)).
    rewrite (submits_app rescue_script merge_script (fun m => rescue_block (rescue_script m)) "resubmit"); [apply chained_flat; reflexivity|].
    intros m I. apply rescue_block_ok. apply K, I.
  - constructor; [repeat constructor; discriminate|]. apply flat_lf. intros m I. apply rescue_block_ok. apply K, I.
Qed.
Print Assumptions C160_resubmit.
Example C160_submit_case : exists text, create_bash_submit_script [10000; 1000]%Z = Ok text /\
  submitted text = [("1e+00_Zsun_slurm_array.slurm", None); ("1e+00_Zsun_merge_popsyn.slurm", Some (Some 0));
                    ("1e-01_Zsun_slurm_array.slurm", None); ("1e-01_Zsun_merge_popsyn.slurm", Some (Some 2))].
Proof. eexists. split; vm_compute; reflexivity. Qed.

(** ** C161: missing batches *)
Definition batch_file (k : nat) : string := "evolution.combined." ++ str_nat k ++ ".h5".
Lemma index_of : forall k, py_int (second_last (split "." (batch_file k))) = Ok (Z.of_nat k).
Proof.
  intro k. unfold batch_file.
  change ("evolution.combined." ++ str_nat k ++ ".h5") with ("evolution" ++ String "." ("combined" ++ String "." (str_nat k ++ String "." "h5"))).
  rewrite split_char by lits. rewrite split_char by lits. rewrite split_char by (apply str_nat_lacks; cbn; tauto).
  rewrite split_lacks by lits. cbn. apply py_int_nat.
Qed.
Lemma batch_file_inj : forall a b, batch_file a = batch_file b -> a = b.
Proof.
  intros a b H. pose proof (index_of a) as A. rewrite H, index_of in A. assert (Z.of_nat b = Z.of_nat a) by congruence. lia.
Qed.
Lemma indices_of : forall l, (forall f, In f l -> exists k, f = batch_file k) -> exists ks, l = map batch_file ks.
Proof.
  induction l as [|f l IH]; intro H; [exists []; reflexivity|]. destruct (H f (or_introl eq_refl)) as (k & ->).
  destruct IH as (ks & ->); [intros; apply H; right; assumption|]. exists (k :: ks). reflexivity.
Qed.
Lemma rmap_ok : forall A B (f : A -> result B) g l, (forall x, In x l -> f x = Ok (g x)) -> rmap f l = Ok (map g l).
Proof.
  intros A B f g l. induction l as [|x l IH]; intro H; [reflexivity|]. cbn. rewrite (H x (or_introl eq_refl)). cbn.
  rewrite IH by (intros; apply H; right; assumption). reflexivity.
Qed.
Lemma rmap_files : forall ks, rmap (fun f => py_int (second_last (split "." f))) (map batch_file ks) = Ok (map Z.of_nat ks).
Proof.
  induction ks as [|k ks IH]; [reflexivity|]. cbn [map rmap]. rewrite index_of. cbn [rbind]. rewrite IH. reflexivity.
Qed.
Definition absent (ks : list nat) (n : nat) : list nat := filter (fun i => negb (existsb (Nat.eqb i) ks)) (seq 0 n).
Lemma absent_in : forall ks n i, In i (absent ks n) <-> i < n /\ ~ In i ks.
Proof.
  intros ks n i. unfold absent. rewrite filter_In, in_seq, negb_true_iff. split; intros [A B]; (split; [lia|]).
  - intro Q. rewrite (existsb_in i ks Q) in B. discriminate.
  - destruct (existsb (Nat.eqb i) ks) eqn:E; [|reflexivity]. apply existsb_exists in E. destruct E as (j & J & E).
    apply Nat.eqb_eq in E. subst j. contradiction.
Qed.
Lemma filter_sorted : forall (f : nat -> bool) l, StronglySorted lt l -> StronglySorted lt (filter f l).
Proof.
  intros f l H. induction H as [|x l H IH F]; [constructor|]. cbn. destruct (f x); [|exact IH]. constructor; [exact IH|].
  apply Forall_forall. intros y Y. apply filter_In in Y. rewrite Forall_forall in F. apply F, Y.
Qed.
Lemma seq_sorted : forall n s, StronglySorted lt (seq s n).
Proof.
  induction n as [|n IH]; intro s; cbn; constructor; [apply IH|]. apply Forall_forall. intros y Y. apply in_seq in Y. lia.
Qed.
Lemma filter_map : forall A B (f : B -> bool) (g : A -> B) l, filter f (map g l) = map g (filter (fun x => f (g x)) l).
Proof. induction l as [|x l IH]; [reflexivity|]. cbn. destruct (f (g x)); cbn; rewrite IH; reflexivity. Qed.
Lemma existsb_nat : forall i ks, existsb (Z.eqb (Z.of_nat i)) (map Z.of_nat ks) = existsb (Nat.eqb i) ks.
Proof.
  intros i ks. induction ks as [|k ks IH]; [reflexivity|]. cbn. rewrite IH. f_equal.
  destruct (Nat.eqb_spec i k) as [->|N]; [apply Z.eqb_refl|]. apply Z.eqb_neq. lia.
Qed.
Lemma missing_absent : forall names ks n, batch_files names = map batch_file ks ->
  find_missing_batch_indices names (Z.of_nat n) = Ok (map Z.of_nat (absent ks n)).
Proof.
  intros names ks n E. unfold find_missing_batch_indices. rewrite E, rmap_files. cbn [rbind]. f_equal.
  unfold zrange, absent. rewrite Nat2Z.id, filter_map. f_equal. apply filter_ext. intro i. f_equal. apply existsb_nat.
Qed.
Lemma batch_file_prefix : forall k, prefix "evolution.combined." (batch_file k) = true.
Proof. intro k. apply prefix_append. Qed.
Lemma file_listed : forall names ks i, batch_files names = map batch_file ks -> (In i ks <-> In (batch_file i) names).
Proof.
  intros names ks i E. split; intro H.
  - assert (Q : In (batch_file i) (batch_files names)) by (rewrite E; apply in_map; exact H). apply filter_In in Q. apply Q.
  - assert (Q : In (batch_file i) (batch_files names)) by (apply filter_In; split; [exact H|apply batch_file_prefix]).
    rewrite E in Q. apply in_map_iff in Q. destruct Q as (j & J & Q). apply batch_file_inj in J. subst j. exact Q.
Qed.
(** Among well-named files exactly the absent ones are found missing; any other file of this pattern is refused. *)
Theorem C161_missing : forall names n,
  (forall f, In f names -> prefix "evolution.combined." f = true -> exists k, f = "evolution.combined." ++ str_nat k ++ ".h5") ->
  exists M, find_missing_batch_indices names (Z.of_nat n) = Ok (map Z.of_nat M) /\ StronglySorted lt M /\
    forall i, In i M <-> i < n /\ ~ In ("evolution.combined." ++ str_nat i ++ ".h5") names.
Proof.
  intros names n H. destruct (indices_of (batch_files names)) as (ks & E).
  { intros f F. apply filter_In in F. apply H; apply F. }
  exists (absent ks n). split; [apply missing_absent; exact E|]. split; [apply filter_sorted, seq_sorted|].
  intro i. rewrite absent_in, (file_listed names ks i E). reflexivity.
Qed.
(** ** Logs *)
Definition log_file (job i : nat) : string := "popsyn_" ++ str_nat job ++ "_" ++ str_nat i ++ ".out".
Definition job_in (f : string) : result Z := py_int (hd "" (split "." (nth 1 (split "_" f) ""))).
Lemma job_of : forall job i, job_in (log_file job i) = Ok (Z.of_nat job).
Proof.
  intros job i. unfold job_in, log_file.
  change ("popsyn_" ++ str_nat job ++ "_" ++ str_nat i ++ ".out") with ("popsyn" ++ String "_" (str_nat job ++ String "_" (str_nat i ++ ".out"))).
  rewrite split_char by lits. rewrite split_char by (apply str_nat_lacks; cbn; tauto). cbn [nth].
  rewrite split_lacks by (apply str_nat_lacks; cbn; tauto). cbn [hd]. apply py_int_nat.
Qed.
Lemma unique_same : forall z l, l <> [] -> (forall x, In x l -> x = z) -> unique l = [z].
Proof.
  intros z l N H. unfold unique. pose proof (sort_perm l) as P.
  assert (N' : sort l <> []) by (intro E; rewrite E in P; apply Permutation_nil in P; congruence).
  assert (H' : forall x, In x (sort l) -> x = z) by (intros x X; apply H; apply (Permutation_in _ P X)).
  clear - N' H'. induction (sort l) as [|x r IH]; [congruence|]. rewrite (H' x (or_introl eq_refl)). destruct r as [|y r]; [reflexivity|].
  rewrite (H' y (or_intror (or_introl eq_refl))). cbn [adjacent_unique]. rewrite Z.eqb_refl.
  rewrite (H' y (or_intror (or_introl eq_refl))) in IH. apply IH; [discriminate|]. intros w W. apply H'. right.
  destruct W as [<- |W]; [left; apply H'; right; left; reflexivity|right; exact W].
Qed.
(** The logs of one array of jobs (others, like those of rescues, have other names). *)
Definition one_array (w : folder) (met : string) : Prop :=
  exists job, forall l f, listing w (met ++ "_logs") = Some l -> In f l -> prefix "popsyn_" f = true -> exists i, f = log_file job i.
Lemma analysis_quiet : forall w met M st, one_array w met -> analyze_missing_batch_logs w met M st = (Ok tt, st).
Proof.
  intros w met M st (job & H). unfold analyze_missing_batch_logs. destruct M as [|x M]; [reflexivity|]. unfold bind, select_job_id.
  set (l := filter _ _).
  assert (Q : forall f, In f l -> job_in f = Ok (Z.of_nat job)).
  { intros f F. unfold l in F. apply filter_In in F. destruct F as [F P]. apply andb_true_iff in P. destruct P as [P _].
    destruct (listing w (met ++ "_logs")) as [names|] eqn:E; [|destruct F]. destruct (H names f eq_refl F P) as (i & ->). apply job_of. }
  destruct l as [|f l]; [reflexivity|]. unfold bind, lift.
  change (fun f0 => py_int (hd "" (split "." (nth 1 (split "_" f0) "")))) with job_in.
  rewrite (rmap_ok _ _ job_in (fun _ => Z.of_nat job) (f :: l) Q).
  rewrite (unique_same (Z.of_nat job)); [reflexivity|discriminate|]. intros y Y. apply in_map_iff in Y. destruct Y as (_ & <- & _). reflexivity.
Qed.
(** ** The status of batches *)
Lemma absent_count : forall ks n, NoDup ks -> (forall k, In k ks -> k < n) -> length ks + length (absent ks n) = n.
Proof.
  intros ks n N B. rewrite <- app_length. rewrite <- (seq_length n 0) at 2. apply Permutation_length. apply NoDup_Permutation.
  - assert (G : forall (a b : list nat), NoDup a -> NoDup b -> (forall x, In x a -> ~ In x b) -> NoDup (a ++ b)).
    { clear. intros a b A B D. induction A as [|x a X A IH]; [exact B|]. cbn. constructor.
      - rewrite in_app_iff. intros [Q|Q]; [exact (X Q)|exact (D x (or_introl eq_refl) Q)].
      - apply IH. intros y Y. apply D. right. exact Y. }
    apply G; [exact N|apply NoDup_filter, seq_NoDup|]. intros x X Q. apply absent_in in Q. apply Q. exact X.
  - apply seq_NoDup.
  - intro x. rewrite in_app_iff, absent_in, in_seq. split; [intros [Q|Q]; [specialize (B x Q); lia|lia]|].
    intro Q. destruct (in_dec Nat.eq_dec x ks); [left; assumption|right; split; [lia|assumption]].
Qed.
(** When the files are those of the array, a metallicity is complete exactly if no batch is missing, and otherwise the
    missing ones are listed. *)
Theorem C161_batch : forall w z met temp names n st,
  zstring (VNum z) = Ok met -> get_expected_batch_count w met = Ok (Some (Z.of_nat n)) ->
  listing w (met ++ "_Zsun_" ++ temp) = Some names -> NoDup names -> one_array w met ->
  (forall f, In f names -> prefix "evolution.combined." f = true -> exists k, k < n /\ f = "evolution.combined." ++ str_nat k ++ ".h5") ->
  exists b, check_batch w z temp st = (Ok b, st) /\ b_metallicity b = z /\
    ((b_status b = "complete" /\ b_missing b = None /\ forall i, i < n -> In ("evolution.combined." ++ str_nat i ++ ".h5") names) \/
     (b_status b = "incomplete" /\ exists M, b_missing b = Some (map Z.of_nat M) /\ M <> [] /\ StronglySorted lt M /\
       forall i, In i M <-> i < n /\ ~ In ("evolution.combined." ++ str_nat i ++ ".h5") names)).
Proof.
  intros w z met temp names n st H E L ND OA F.
  destruct (indices_of (batch_files names)) as (ks & K).
  { intros f I. apply filter_In in I. destruct (F f (proj1 I) (proj2 I)) as (k & _ & ->). exists k. reflexivity. }
  assert (KB : forall k, In k ks -> k < n).
  { intros k I. apply (file_listed names ks k K) in I. destruct (F _ I (batch_file_prefix k)) as (j & J & Q). apply batch_file_inj in Q. subst j. exact J. }
  assert (KN : NoDup ks).
  { assert (Q : NoDup (map batch_file ks)) by (rewrite <- K; apply NoDup_filter; exact ND). apply NoDup_map_inv in Q. exact Q. }
  pose proof (absent_count ks n KN KB) as C.
  assert (LB : length (batch_files names) = length ks) by (rewrite K; apply map_length).
  unfold check_batch, bind, lift. rewrite H, E, L. rewrite LB. cbn [print_batch_status].
  destruct (absent ks n) as [|i M] eqn:A.
  - cbn in C. destruct (Z.ltb_spec (Z.of_nat (length ks)) (Z.of_nat n)); [lia|]. cbn [analyze_missing_batch_logs ret].
    replace (Z.of_nat (length ks) =? Z.of_nat n)%Z with true by (symmetry; apply Z.eqb_eq; lia).
    eexists. split; [reflexivity|]. split; [reflexivity|]. left. split; [reflexivity|]. split; [reflexivity|].
    intros i I. apply (file_listed names ks i K). destruct (in_dec Nat.eq_dec i ks); [assumption|]. exfalso.
    assert (Q : In i (absent ks n)) by (apply absent_in; split; assumption). rewrite A in Q. exact Q.
  - cbn [length] in C. destruct (Z.ltb_spec (Z.of_nat (length ks)) (Z.of_nat n)); [|lia].
    rewrite (missing_absent names ks n K). rewrite (analysis_quiet w met _ st OA). cbn [ret].
    eexists. split; [reflexivity|]. split; [reflexivity|]. right. split; [reflexivity|]. exists (absent ks n).
    split; [reflexivity|]. split; [rewrite A; discriminate|]. split; [apply filter_sorted, seq_sorted|].
    intro j. rewrite absent_in, (file_listed names ks j K). reflexivity.
Qed.
Print Assumptions C161_batch.
(** Batches are counted before they are looked at: a file left over from a longer array hides a missing one. *)
Definition array_of (n : Z) : string := match create_slurm_array 10000 n usual "/opt/POSYDON" "/data/v2" with Ok (_, t) => t | Raise _ => "" end.
Definition batches (n : Z) (names logs : list string) : folder :=
  Folder (fun _ => None) (fun f => if String.eqb f "1e+00_Zsun_slurm_array.slurm" then Some (array_of n) else None)
    (fun d => if String.eqb d "1e+00_Zsun_batches" then Some names else if String.eqb d "1e+00_logs" then Some logs else None).
Theorem C161_stale_refuted :
  let names := map batch_file [0; 1; 2; 12] in
  find_missing_batch_indices names 4 = Ok [3%Z] /\
  check_batch (batches 4 names []) 10000 "batches" (State [] []) = (Ok (Batch "complete" (Some 4%Z) 4 10000 None), State [] []).
Proof. split; vm_compute; reflexivity. Qed.
(** The log of a merge has a name which is taken for one of the array: nothing is reported about missing batches. *)
Theorem C161_merge_log_refuted : forall w z met temp names n M st,
  zstring (VNum z) = Ok met -> get_expected_batch_count w met = Ok (Some n) -> listing w (met ++ "_Zsun_" ++ temp) = Some names ->
  (Z.of_nat (length (batch_files names)) < n)%Z -> find_missing_batch_indices names n = Ok M -> M <> [] ->
  (exists l, listing w (met ++ "_logs") = Some l /\ In "popsyn_merge.out" l) ->
  check_batch w z temp st = (Raise ValueError, st).
Proof.
  intros w z met temp names n M st H E L LT F N (l & LL & I). unfold check_batch, bind, lift. rewrite H, E, L.
  apply Z.ltb_lt in LT. rewrite LT, F. destruct M as [|x M]; [congruence|].
  unfold analyze_missing_batch_logs, bind, select_job_id. rewrite LL.
  set (g := filter _ _). assert (G : In "popsyn_merge.out" g) by (apply filter_In; split; [exact I|reflexivity]).
  clearbody g. destruct g as [|f g]; [destruct G|]. unfold bind, lift.
  change (fun f0 => py_int (hd "" (split "." (nth 1 (split "_" f0) "")))) with job_in.
  assert (R : rmap job_in (f :: g) = Raise ValueError); [|rewrite R; reflexivity].
  assert (V : forall x, job_in x = Raise ValueError \/ exists z, job_in x = Ok z).
  { intro y. unfold job_in, py_int. match goal with |- context [match ?o with Some _ => _ | None => _ end] => destruct o end; eauto. }
  revert G. generalize (f :: g). clear - V. intros l G. induction l as [|y l IH]; [destruct G|]. cbn.
  destruct G as [-> |G]; [reflexivity|]. destruct (V y) as [-> |(z & ->)]; [reflexivity|]. cbn. rewrite (IH G). reflexivity.
Qed.
Example C161_case :
  check_batch (batches 5 (map batch_file [4; 0; 2] ++ ["notes.txt"]) [log_file 77 1; log_file 77 3; "rescue_78_1.out"]) 10000 "batches" (State [] []) =
    (Ok (Batch "incomplete" (Some 5%Z) 3 10000 (Some [1; 3]%Z)), State [] []) /\
  check_batch (batches 5 (map batch_file [4; 0; 2]) ["popsyn_merge.out"]) 10000 "batches" (State [] []) = (Raise ValueError, State [] []) /\
  check_batch (batches 3 (map batch_file [1; 0; 2]) ["popsyn_merge.out"]) 10000 "batches" (State [] []) =
    (Ok (Batch "complete" (Some 3%Z) 3 10000 None), State [] []).
Proof. split; [|split]; vm_compute; reflexivity. Qed.
