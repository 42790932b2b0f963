(** C160: scripts of job arrays and of rescues. *)
From Coq Require Import String Ascii List Bool ZArith Lia Sorted Permutation.
From Verif Require Import PyBase PyStr PySplit PyStrip PyReplace PopModel PopProofs SimPropModel RescueModel RescueSpec RescueProofs RescueParse.
Import ListNotations.
Open Scope list_scope.
Open Scope string_scope.

(** ** Sorting *)
Lemma insert_perm : forall x l, Permutation (insert x l) (x :: l).
Proof.
  intros x l. induction l as [|y l IH]; [reflexivity|]. cbn. destruct (x <=? y)%Z; [reflexivity|].
  rewrite IH. apply perm_swap.
Qed.
Lemma sort_perm : forall l, Permutation (sort l) l.
Proof. induction l as [|x l IH]; [reflexivity|]. cbn. rewrite insert_perm. constructor. exact IH. Qed.
Lemma insert_sorted : forall x l, StronglySorted Z.le l -> StronglySorted Z.le (insert x l).
Proof.
  intros x l H. induction H as [|y l H IH F]; cbn; [repeat constructor|].
  destruct (Z.leb_spec x y).
  - constructor; [constructor; assumption|]. constructor; [assumption|]. eapply Forall_impl; [|exact F]. cbn. lia.
  - constructor; [exact IH|]. apply Forall_forall. intros z Q. apply (Permutation_in _ (insert_perm x l)) in Q.
    destruct Q as [<- |Q]; [lia|]. rewrite Forall_forall in F. apply F. exact Q.
Qed.
Lemma sort_sorted : forall l, StronglySorted Z.le (sort l).
Proof. induction l as [|x l IH]; cbn; [constructor|]. apply insert_sorted. exact IH. Qed.
Lemma strict_of : forall l : list nat, StronglySorted le l -> NoDup l -> StronglySorted lt l.
Proof.
  intros l H N. induction H as [|y l H IH F]; [constructor|]. inversion N; subst. constructor; [apply IH; assumption|].
  apply Forall_forall. intros z Q. rewrite Forall_forall in F. specialize (F z Q).
  assert (z <> y) by congruence. lia.
Qed.
Lemma sort_nat : forall M, NoDup M -> exists L, sort (map Z.of_nat M) = map Z.of_nat L /\ StronglySorted lt L /\ Permutation L M.
Proof.
  intros M N. exists (map Z.to_nat (sort (map Z.of_nat M))). pose proof (sort_perm (map Z.of_nat M)) as P.
  pose proof (sort_sorted (map Z.of_nat M)) as S. revert P S. generalize (sort (map Z.of_nat M)). intros l P S.
  assert (G : Forall (fun z => (0 <= z)%Z) l).
  { apply Forall_forall. intros z Q. apply (Permutation_in _ P) in Q. apply in_map_iff in Q. destruct Q as (k & <- & _). lia. }
  assert (Q : Permutation (map Z.to_nat l) M).
  { rewrite P. rewrite map_map. rewrite (map_ext _ (fun x => x)) by (intro; apply Nat2Z.id). rewrite map_id. reflexivity. }
  split; [|split; [|exact Q]].
  - rewrite map_map. symmetry. rewrite <- (map_id l) at 2. apply map_ext_in. intros z Z. rewrite Forall_forall in G. apply Z2Nat.id, G, Z.
  - apply strict_of; [|apply (Permutation_NoDup (Permutation_sym Q) N)]. clear - G S.
    induction S as [|y l S IH F]; [constructor|]. inversion G; subst. cbn. constructor; [apply IH; assumption|].
    apply Forall_forall. intros k K. apply in_map_iff in K. destruct K as (z & <- & K). rewrite Forall_forall in F. specialize (F z K). lia.
Qed.

(** ** What scripts say *)
Notation dirs text s := (directive "time" text = Some (show (s_time s)) /\ directive "mem-per-cpu" text = Some (show (s_mem s)) /\
  directive "partition" text = s_partition s /\ directive "account" text = s_account s /\
  directive "mail-user" text = s_email s /\ directive "exclude" text = s_exclude s).
Lemma array_dirs : forall z met n s path data, zstring (VNum z) = Ok met -> one_line s -> lacks lf path -> lacks lf data ->
  let text := script (array_lines z met n s path data) in
  directive "array" text = Some ("0-" ++ limited (str_Z (n - 1)) (s_limit s)) /\ dirs text s /\
  exported "PATH_TO_POSYDON" text = Some path /\ exported "PATH_TO_POSYDON_DATA" text = Some data /\
  exported "SLURM_ARRAY_TASK_MIN" text = None /\ exported "SLURM_ARRAY_TASK_COUNT" text = None /\
  last_after "srun " (lines text) = Some ("python ./run_metallicity.py " ++ zrepr z).
Proof.
  intros z met n s path data H O P D text. unfold directive, exported. unfold text. rewrite lines_of by (apply array_lines_lf; assumption).
  unfold array_lines. destruct s as [ti me [pa|] [ac|] [em|] [ex|] li]; repeat split; reflexivity.
Qed.
Lemma rescue_dirs : forall z met l n s path data, zstring (VNum z) = Ok met -> one_line s -> lacks lf (show path) -> lacks lf (show data) ->
  let text := script (rescue_lines z met l n s path data) in
  directive "array" text = Some (limited (sjoin "," (map str_Z (sort l))) (s_limit s)) /\ dirs text s /\
  exported "PATH_TO_POSYDON" text = Some (show path) /\ exported "PATH_TO_POSYDON_DATA" text = Some (show data) /\
  exported "SLURM_ARRAY_TASK_MIN" text = Some "0" /\
  exported "SLURM_ARRAY_TASK_COUNT" text = Some (match n with Some k => str_Z k | None => "None" end) /\
  last_after "srun " (lines text) = Some ("python ./run_metallicity.py " ++ zrepr z).
Proof.
  intros z met l n s path data H O P D text. unfold directive, exported. unfold text. rewrite lines_of by (apply rescue_lines_lf; assumption).
  unfold rescue_lines. destruct s as [ti me [pa|] [ac|] [em|] [ex|] li]; repeat split; reflexivity.
Qed.
Lemma min_seq : forall k n, fold_right Nat.min k (seq (S k) n) = k.
Proof.
  intros k n. assert (G : forall m, k <= m -> fold_right Nat.min k (seq m n) = k).
  { induction n as [|n IH]; intros m L; [reflexivity|]. cbn. rewrite IH by lia. lia. }
  apply G. lia.
Qed.
Lemma existsb_in : forall i l, In i l -> existsb (Nat.eqb i) l = true.
Proof. intros i l H. apply existsb_exists. exists i. split; [exact H|apply Nat.eqb_refl]. Qed.

(** An array of [n] jobs: jobs 0 to n - 1, each taking its own one of n places; the options as given. *)
Theorem C160_array : forall z met n s path data, zstring (VNum z) = Ok met -> 1 <= n -> one_line s ->
  (forall k, s_limit s = Some k -> (0 <= k)%Z) -> lacks lf path -> lacks lf data ->
  exists text, create_slurm_array z (Z.of_nat n) s path data = Ok (met ++ "_Zsun_slurm_array.slurm", text) /\
    jobs text = Some (seq 0 n, option_map Z.to_nat (s_limit s)) /\ (forall i, i < n -> place text i = Some (i, n)) /\
    dirs text s /\ exported "PATH_TO_POSYDON" text = Some path /\ exported "PATH_TO_POSYDON_DATA" text = Some data /\
    (forall w, text_of w (met ++ "_Zsun_slurm_array.slurm") = Some text -> get_expected_batch_count w met = Ok (Some (Z.of_nat n))).
Proof.
  intros z met n s path data H N O K P D. exists (script (array_lines z met (Z.of_nat n) s path data)).
  destruct (array_dirs z met (Z.of_nat n) s path data H O P D) as (A & B & E1 & E2 & E3 & E4 & _).
  assert (J : jobs (script (array_lines z met (Z.of_nat n) s path data)) = Some (seq 0 n, option_map Z.to_nat (s_limit s))).
  { unfold jobs. rewrite A. apply array_range; assumption. }
  split; [apply array_text; exact H|]. split; [exact J|]. split; [|split; [exact B|split; [exact E1|split; [exact E2|]]]].
  - intros i I. unfold place. rewrite J. destruct n as [|n]; [lia|]. cbn [seq]. rewrite E3, E4, min_seq.
    change (0 :: seq 1 n) with (seq 0 (S n)). rewrite seq_length, existsb_in by (apply in_seq; lia). do 2 f_equal. lia.
  - intros w W. unfold get_expected_batch_count. rewrite W. apply expected_array_text; assumption.
Qed.

Definition given (a : option string) (b : option string) : option string := match a with Some _ => a | None => b end.
(** A rescue: exactly the missing jobs, each taking the place it had in the array, with the options of the command line
    or else those of the array. *)
Theorem C160_rescue : forall w args z met n s path data text M b st,
  zstring (VNum z) = Ok met -> 1 <= n -> clean_settings s -> s_time s <> None -> s_mem s <> None -> clean path -> clean data ->
  one_line args -> (forall k, s_limit args = Some k -> (0 <= k)%Z) ->
  create_slurm_array z (Z.of_nat n) s path data = Ok (met ++ "_Zsun_slurm_array.slurm", text) ->
  text_of w (met ++ "_Zsun_slurm_array.slurm") = Some text ->
  NoDup M -> M <> [] -> (forall i, In i M -> i < n) -> b_metallicity b = z -> b_missing b = Some (map Z.of_nat M) ->
  exists rescue, create_batch_rescue_script w args b st =
      (Ok (met ++ "_Zsun_rescue.slurm"), State (effects st ++ [WroteHere (met ++ "_Zsun_rescue.slurm") rescue])%list (inputs st)) /\
    (exists L, jobs rescue = Some (L, option_map Z.to_nat (either (s_limit args) (s_limit s))) /\ StronglySorted lt L /\ Permutation L M) /\
    (forall i, In i M -> place rescue i = place text i /\ place text i = Some (i, n)) /\
    directive "time" rescue = given (s_time args) (directive "time" text) /\
    directive "mem-per-cpu" rescue = given (s_mem args) (directive "mem-per-cpu" text) /\
    directive "partition" rescue = given (s_partition args) (directive "partition" text) /\
    directive "account" rescue = given (s_account args) (directive "account" text) /\
    directive "mail-user" rescue = given (s_email args) (directive "mail-user" text) /\
    directive "exclude" rescue = given (s_exclude args) (directive "exclude" text) /\
    exported "PATH_TO_POSYDON" rescue = exported "PATH_TO_POSYDON" text /\
    exported "PATH_TO_POSYDON_DATA" rescue = exported "PATH_TO_POSYDON_DATA" text /\
    last_after "srun " (lines rescue) = last_after "srun " (lines text).
Proof.
  intros w args z met n s path data text M b st H N C T ME P D OA KA CT W ND NE R BM BI.
  destruct (s_time s) as [t|] eqn:ET; [clear T|congruence]. destruct (s_mem s) as [m|] eqn:EM; [clear ME|congruence].
  pose proof (clean_one_line s C) as O.
  assert (KS : forall k, s_limit s = Some k -> (0 <= k)%Z) by apply C.
  destruct (C160_array z met n s path data H N O KS (proj1 (proj2 P)) (proj1 (proj2 D))) as (text' & CT' & J & PL & DI & X1 & X2 & _).
  assert (W0 : text' = text) by congruence. subst text'.
  rewrite (array_text _ _ _ _ _ _ H) in CT.
  assert (TX : text = script (array_lines z met (Z.of_nat n) s path data)) by congruence.
  set (o := override args s).
  assert (OO : one_line o).
  { destruct OA as (A1 & A2 & A3 & A4 & A5 & A6), O as (B1 & B2 & B3 & B4 & B5 & B6). unfold o, override, one_line.
    cbn [s_time s_mem s_partition s_account s_email s_exclude].
    repeat split; intros x X; match type of X with either ?a _ = _ => destruct a eqn:?; cbn in X; [injection X as <-|]; eauto end. }
  assert (KO : forall k, s_limit o = Some k -> (0 <= k)%Z).
  { unfold o, override. cbn [s_limit]. intros k X. destruct (s_limit args) eqn:?; cbn in X; [injection X as <-|]; eauto. }
  exists (script (rescue_lines z met (map Z.of_nat M) (Some (Z.of_nat n)) o (Some path) (Some data))).
  destruct (rescue_dirs z met (map Z.of_nat M) (Some (Z.of_nat n)) o (Some path) (Some data) H OO (proj1 (proj2 P)) (proj1 (proj2 D)))
    as (A & (B1 & B2 & B3 & B4 & B5 & B6) & Y1 & Y2 & Y3 & Y4 & Y5).
  destruct (array_dirs z met (Z.of_nat n) s path data H O (proj1 (proj2 P)) (proj1 (proj2 D))) as (_ & _ & _ & _ & _ & _ & Z5).
  destruct (sort_nat M ND) as (L & SL & LS & LP).
  assert (LN : L <> []) by (intro E; subst L; apply Permutation_nil in LP; congruence).
  assert (MS : map str_Z (map Z.of_nat L) = map str_nat L) by (rewrite map_map; apply map_ext; apply str_Z_nat).
  rewrite SL, MS in A.
  assert (JR : jobs (script (rescue_lines z met (map Z.of_nat M) (Some (Z.of_nat n)) o (Some path) (Some data))) =
               Some (L, option_map Z.to_nat (s_limit o))).
  { unfold jobs. rewrite A. apply array_list; assumption. }
  destruct DI as (D1 & D2 & D3 & D4 & D5 & D6).
  rewrite D1, D2, D3, D4, D5, D6, X1, X2, B1, B2, B3, B4, B5, B6, Y1, Y2, Y5. rewrite TX, Z5, <- TX.
  split.
  - unfold create_batch_rescue_script, bind, lift. rewrite BM, H, BI. destruct M as [|i M]; [congruence|]. cbn [map].
    rewrite W, TX. rewrite (parse_array_text z met n s path data t m H N C ET EM P D).
    cbn [p_length p_settings p_path p_data]. fold o. rewrite (rescue_text _ _ _ _ _ _ _ H). reflexivity.
  - split; [exists L; auto|]. split.
    + intros i I. rewrite (PL i (R i I)). split; [|reflexivity]. unfold place. rewrite JR. destruct L as [|x L]; [congruence|].
      rewrite Y3, Y4, str_Z_nat, number_str. change (number "0") with (Some 0).
      rewrite existsb_in by (apply (Permutation_in _ (Permutation_sym LP)); exact I). do 2 f_equal. lia.
    + unfold o, override. cbn [s_time s_mem s_partition s_account s_email s_exclude]. rewrite ET, EM.
      destruct (s_time args), (s_mem args); repeat split; reflexivity.
Qed.
Print Assumptions C160_rescue.

(** Values with a sign of equality are cut: the rescued jobs look for their data elsewhere. *)
Definition odd_folder (text : string) : folder :=
  Folder (fun _ => None) (fun f => if String.eqb f "1e+00_Zsun_slurm_array.slurm" then Some text else None) (fun _ => None).
Definition usual : settings := Settings (Some "23:00:00") (Some "9G") None None None None None.
Definition no_args : settings := Settings None None None None None None None.
Theorem C160_equals_refuted : exists text rescue st,
  create_slurm_array 10000 10 usual "/opt/POSYDON" "/data/v=2" = Ok ("1e+00_Zsun_slurm_array.slurm", text) /\
  create_batch_rescue_script (odd_folder text) no_args (Batch "incomplete" (Some 10%Z) 8 10000 (Some [4; 7]%Z)) (State [] []) =
    (Ok "1e+00_Zsun_rescue.slurm", State [WroteHere "1e+00_Zsun_rescue.slurm" rescue] st) /\
  exported "PATH_TO_POSYDON_DATA" text = Some "/data/v=2" /\ exported "PATH_TO_POSYDON_DATA" rescue = Some "/data/v".
Proof. do 3 eexists. split; [vm_compute; reflexivity|]. split; [vm_compute; reflexivity|]. split; vm_compute; reflexivity. Qed.
Example C160_case : exists text rescue,
  create_slurm_array 4500 12 (Settings (Some "23:00:00") (Some "9G") (Some "posydon-priority") (Some "b1119") (Some "me@there.ch") None (Some 5%Z))
    "/opt/POSYDON" "/data/v2" = Ok ("4.5e-01_Zsun_slurm_array.slurm", text) /\
  create_batch_rescue_script (Folder (fun _ => None) (fun _ => Some text) (fun _ => None))
    (Settings (Some "47:00:00") None None None None (Some "node3,node7") None) (Batch "incomplete" (Some 12%Z) 9 4500 (Some [11; 4; 7]%Z)) (State [] []) =
    (Ok "4.5e-01_Zsun_rescue.slurm", State [WroteHere "4.5e-01_Zsun_rescue.slurm" rescue] []) /\
  jobs text = Some (seq 0 12, Some 5) /\ jobs rescue = Some ([4; 7; 11], Some 5) /\ place rescue 7 = Some (7, 12) /\ place text 7 = Some (7, 12) /\
  directive "time" rescue = Some "47:00:00" /\ directive "mem-per-cpu" rescue = Some "9G" /\ directive "exclude" rescue = Some "node3,node7" /\
  directive "mail-user" rescue = Some "me@there.ch".
Proof. do 2 eexists. split; [vm_compute; reflexivity|]. split; [vm_compute; reflexivity|]. repeat split; vm_compute; reflexivity. Qed.
