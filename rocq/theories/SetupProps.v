(** Properties of setting up a population run (C179). *)
From Coq Require Import String Ascii List Bool ZArith QArith Lia.
From Verif Require Import PyBase PyStr PySplit PyReplace PopModel PopSpec PopProofs PopProps SimPropModel SNNameModel RescueModel RescueSpec RescueProofs RescueProps CheckProps SetupModel.
Import ListNotations.
Open Scope list_scope.
Open Scope string_scope.

(** ** What is meant *)
(** The text of a file after all was written *)
Fixpoint written (name : string) (es : list effect) : option string :=
  match es with
  | [] => None
  | MkDir _ :: r => written name r
  | Wrote n t :: r => match written name r with Some t' => Some t' | None => if String.eqb n name then Some t else None end
  end.
(** A Python literal without escape sequences, up to its closing quote, and what follows *)
Fixpoint until (q : ascii) (s : string) : option (string * string) :=
  match s with
  | EmptyString => None
  | String c r => if Ascii.eqb c q then Some ("", r) else if Ascii.eqb c "\" then None
                  else match until q r with Some (a, b) => Some (String c a, b) | None => None end
  end.
(** The literal given in a line [pre('...')] or [pre("...")] of a program *)
Definition reads (pre text : string) : option string :=
  match first_after (pre ++ "(") (lines text) with
  | Some (String q r) => if Ascii.eqb q "'" || Ascii.eqb q """" then match until q r with Some (x, ")") => Some x | _ => None end else None
  | _ => None
  end.

(** ** Auxiliary *)
Lemma written_in : forall name es t, In (Wrote name t) es -> (forall t', In (Wrote name t') es -> t' = t) -> written name es = Some t.
Proof.
  intros name es t. induction es as [|e es IH]; intros I U; [destruct I|]. destruct e as [d|n x]; cbn [written].
  - apply IH; [destruct I as [I|I]; [discriminate|exact I]|]. intros t' H. apply U. now right.
  - destruct (written name es) as [y|] eqn:W.
    + assert (G : forall l y, written name l = Some y -> In (Wrote name y) l).
      { clear. induction l as [|e l IH]; intros y H; [discriminate|]. destruct e as [d|n x]; cbn [written] in H; [right; auto|].
        destruct (written name l) as [z|]; [right; apply IH; congruence|]. destruct (String.eqb_spec n name) as [-> |]; [left; congruence|discriminate]. }
      f_equal. apply U. right. apply G. exact W.
    + destruct I as [I|I].
      * assert (n = name) by congruence. assert (x = t) by congruence. subst. now rewrite String.eqb_refl.
      * specialize (IH I (fun t' H => U t' (or_intror H))). discriminate.
Qed.
Lemma suffix_inj : forall a b s, a ++ s = b ++ s -> a = b.
Proof.
  assert (L : forall a s, String.length (a ++ s) = (String.length a + String.length s)%nat).
  { induction a as [|c a IH]; intro s; [reflexivity|]. cbn. now rewrite IH. }
  induction a as [|c a IH]; intros [|d b] s H; auto.
  - apply (f_equal String.length) in H. cbn in H. rewrite L in H. lia.
  - apply (f_equal String.length) in H. cbn in H. rewrite L in H. lia.
  - cbn in H. assert (c = d) by congruence. subst. f_equal. apply (IH b s). congruence.
Qed.
Lemma zstring_inj : forall z z' m, zstring (SimPropModel.VNum z) = Ok m -> zstring (SimPropModel.VNum z') = Ok m -> z = z'.
Proof.
  intros z z' m H H'. apply zstring_in in H. apply zstring_in in H'. cbn [In supported] in H, H'.
  repeat (destruct H as [H|H]); try contradiction; repeat (destruct H' as [H'|H']); try contradiction; congruence.
Qed.
Definition run_text (a : arguments) (z : Z) (met : string) : string := script (array_lines z met (job_array a) (common a) (path a) (data a)).
Lemma scripts_ok : forall a l x es, scripts a l = (Ok x, es) ->
  exists mets, Forall2 (fun z met => zstring (SimPropModel.VNum z) = Ok met) l mets /\
  forall e, In e es <-> exists z met, In z l /\ zstring (SimPropModel.VNum z) = Ok met /\
    (e = MkDir (met ++ "_logs") \/ e = Wrote (array_script met) (run_text a z met) \/
     exists t, create_slurm_merge z (merge_settings a) (path a) (data a) = Ok (merge_script met, t) /\ e = Wrote (merge_script met) t).
Proof.
  intros a l. induction l as [|z l IH]; intros x es H.
  - cbn in H. assert (es = []) by congruence. subst. exists []. split; [constructor|]. intro e. split; [intros []|intros (z & m & [] & _)].
  - cbn [scripts] in H. destruct (zstring (SimPropModel.VNum z)) as [met|e] eqn:Z; [|congruence].
    rewrite (array_text _ _ _ _ _ _ Z) in H. destruct (create_slurm_merge z (merge_settings a) (path a) (data a)) as [[n2 t2]|e] eqn:M; [|congruence].
    assert (N2 : n2 = merge_script met). { unfold create_slurm_merge in M. rewrite Z in M. cbn [rbind] in M. unfold merge_script. congruence. }
    subst n2. destruct (scripts a l) as [y es'] eqn:S. assert (y = Ok x) by congruence. subst y.
    assert (es = MkDir (met ++ "_logs") :: Wrote (array_script met) (run_text a z met) :: Wrote (merge_script met) t2 :: es') by (unfold array_script, run_text; congruence).
    clear H. subst es. destruct (IH x es' eq_refl) as (mets & F & E). exists (met :: mets). split; [constructor; auto|]. intro e. split.
    + intros [H|[H|[H|H]]]; [exists z, met; split; [now left|split; auto]..|].
      * right. right. exists t2. auto.
      * apply E in H. destruct H as (z' & m' & I & H). exists z', m'. split; [now right|auto].
    + intros (z' & m' & [<- |I] & Z' & H).
      * assert (m' = met) by congruence. subst m'. destruct H as [-> |[-> |(t & T & ->)]]; [now left|right; now left|right; right; left; congruence].
      * right. right. right. apply E. exists z', m'. auto.
Qed.
Ltac each_pair H H' := apply zstring_in in H; cbn [In supported] in H; repeat (destruct H as [H|H]); try contradiction;
  apply zstring_in in H'; cbn [In supported] in H'; repeat (destruct H' as [H'|H']); try contradiction.
Lemma names_differ : forall z z' m m', zstring (SimPropModel.VNum z) = Ok m -> zstring (SimPropModel.VNum z') = Ok m' ->
  array_script m <> merge_script m' /\ array_script m <> "run_metallicity.py" /\ array_script m <> "merge_metallicity.py" /\ array_script m <> "slurm_submit.sh" /\
  merge_script m <> "run_metallicity.py" /\ merge_script m <> "merge_metallicity.py" /\ merge_script m <> "slurm_submit.sh".
Proof.
  assert (K : forallb (fun p => forallb (fun p' => negb (String.eqb (array_script (snd p)) (merge_script (snd p'))) && negb (String.eqb (array_script (snd p)) "run_metallicity.py") &&
     negb (String.eqb (array_script (snd p)) "merge_metallicity.py") && negb (String.eqb (array_script (snd p)) "slurm_submit.sh") && negb (String.eqb (merge_script (snd p)) "run_metallicity.py") &&
     negb (String.eqb (merge_script (snd p)) "merge_metallicity.py") && negb (String.eqb (merge_script (snd p)) "slurm_submit.sh")) supported) supported = true) by (vm_compute; reflexivity).
  intros z z' m m' H H'. apply zstring_in in H. apply zstring_in in H'. rewrite forallb_forall in K. specialize (K _ H). cbv beta in K.
  rewrite forallb_forall in K. specialize (K _ H'). cbn [snd] in K. rewrite !andb_true_iff, !negb_true_iff, !String.eqb_neq in K. tauto.
Qed.

Lemma checks_ok : forall f j l n, checks f j = Ok (l, n) -> exists i, f = Some i /\ metallicities i = Some l /\ number_of_binaries i = Some n /\
  j <> 0%Z /\ ((0 < j)%Z -> (j <= n)%Z) /\ ((j < 0)%Z -> (n <= j)%Z) /\ exists m, step_SN i = Some m /\ check_SN_MODEL_validity m = Ok true.
Proof.
  intros f j l n H. unfold checks, validate_ini_file in H. destruct f as [i|]; [|discriminate].
  destruct (step_SN i) as [m|] eqn:SN; cbn [key rbind] in H; [|discriminate].
  destruct (check_SN_MODEL_validity m) as [[|]|] eqn:V; cbn [rbind] in H; try discriminate.
  destruct (secondary_mass_scheme i) as [s|]; cbn [key rbind] in H; [|discriminate].
  destruct (if String.eqb s "flat_mass_ratio" then _ else _); cbn [rbind] in H; [|discriminate].
  destruct (metallicities i) as [l'|] eqn:ML; cbn [key rbind] in H; [|discriminate].
  destruct (number_of_binaries i) as [n'|] eqn:NB; cbn [key rbind] in H; [|discriminate].
  destruct (Z.eqb_spec j 0); [discriminate|]. destruct (Qle_bool 1 _) eqn:Q; [|discriminate].
  assert (l' = l) by congruence. assert (n' = n) by congruence. subst. exists i.
  split; [reflexivity|]. split; [congruence|]. split; [congruence|]. split; [assumption|]. split; [|split; [|eauto]].
  - intro P. apply Qle_bool_iff in Q. destruct j as [|p|p]; try lia. unfold Qle, Qdiv, Qmult, Qinv, inject_Z in Q. cbn in Q. lia.
  - intro P. apply Qle_bool_iff in Q. destruct j as [|p|p]; try lia. unfold Qle, Qdiv, Qmult, Qinv, inject_Z in Q. cbn in Q. lia.
Qed.
Lemma python_names : forall a name t, In (Wrote name t) [Wrote "run_metallicity.py" (create_run_script_text (ini_file a)); Wrote "merge_metallicity.py" (create_merge_script_text (ini_file a))] ->
  name = "run_metallicity.py" /\ t = create_run_script_text (ini_file a) \/ name = "merge_metallicity.py" /\ t = create_merge_script_text (ini_file a).
Proof. intros a name t [H|[H|[]]]; [left|right]; split; congruence. Qed.

(** ** C179 *)

(** After a set-up without an exception, the directory has for each metallicity the script of an array of j jobs, and the one which merges; the
    submission script submits them, each merge waiting for its array; *)
Theorem C179_files : forall f a es j, setup_popsyn_function f a = (Ok tt, es) -> job_array a = Z.of_nat j -> one_line (common a) ->
  (forall k, s_limit (common a) = Some k -> (0 <= k)%Z) -> lacks lf (path a) -> lacks lf (data a) ->
  exists i l n mets text, f = Some i /\ metallicities i = Some l /\ number_of_binaries i = Some n /\ (1 <= j)%nat /\ (Z.of_nat j <= n)%Z /\
  Forall2 (fun z met => zstring (SimPropModel.VNum z) = Ok met) l mets /\
  (forall z met, In z l -> zstring (SimPropModel.VNum z) = Ok met ->
     In (MkDir (met ++ "_logs")) es /\
     (exists t, written (array_script met) es = Some t /\ jobs t = Some (seq 0 j, option_map Z.to_nat (s_limit (common a))) /\
        (forall r, (r < j)%nat -> place t r = Some (r, j)) /\ dirs t (common a) /\ exported "PATH_TO_POSYDON" t = Some (path a) /\
        exported "PATH_TO_POSYDON_DATA" t = Some (data a)) /\
     (exists t, written (merge_script met) es = Some t /\ create_slurm_merge z (merge_settings a) (path a) (data a) = Ok (merge_script met, t))) /\
  written "slurm_submit.sh" es = Some text /\ chained array_script mets (submitted text) /\
  written "run_metallicity.py" es = Some (create_run_script_text (ini_file a)) /\ written "merge_metallicity.py" es = Some (create_merge_script_text (ini_file a)).
Proof.
  intros f a es j H J O LI P D. unfold setup_popsyn_function in H. destruct (checks f (job_array a)) as [[l n]|] eqn:C; [|congruence].
  destruct (checks_ok _ _ _ _ C) as (i & -> & ML & NB & J0 & JP & _ & _). rewrite J in *. assert (J1 : (1 <= j)%nat) by lia.
  destruct (scripts a l) as [[[]|e] es'] eqn:S; [|congruence]. destruct (scripts_ok _ _ _ _ S) as (mets & F & E).
  destruct (C160_submit l mets F) as (text & CT & CH). rewrite CT in H. cbv zeta in H.
  set (python := [Wrote "run_metallicity.py" (create_run_script_text (ini_file a)); Wrote "merge_metallicity.py" (create_merge_script_text (ini_file a))]) in H.
  assert (ES : es = (python ++ es' ++ [Wrote "slurm_submit.sh" text])%list) by congruence. clear H. subst es.
  assert (ALL : forall name t, In (Wrote name t) (python ++ es' ++ [Wrote "slurm_submit.sh" text])%list ->
    (name = "run_metallicity.py" /\ t = create_run_script_text (ini_file a)) \/ (name = "merge_metallicity.py" /\ t = create_merge_script_text (ini_file a)) \/
    (name = "slurm_submit.sh" /\ t = text) \/ exists z met, In z l /\ zstring (SimPropModel.VNum z) = Ok met /\
      (name = array_script met /\ t = run_text a z met \/ name = merge_script met /\ create_slurm_merge z (merge_settings a) (path a) (data a) = Ok (merge_script met, t))).
  { intros name t I. apply in_app_or in I. destruct I as [I|I]; [destruct (python_names _ _ _ I); auto|]. apply in_app_or in I. destruct I as [I|[I|[]]].
    - apply E in I. right. right. right. destruct I as (z & met & I & Z & [X|[X|(t' & T & X)]]); [discriminate| |]; exists z, met; split; auto; split; auto;
        [left; split; congruence|right]. assert (name = merge_script met) by congruence. assert (t' = t) by congruence. subst. auto.
    - right. right. left. split; congruence. }
  exists i, l, n, mets, text. split; [reflexivity|]. split; [exact ML|]. split; [exact NB|]. split; [exact J1|]. split; [lia|]. split; [exact F|]. split.
  - intros z met I Z. split; [|split].
    + apply in_or_app. right. apply in_or_app. left. apply E. exists z, met. auto.
    + destruct (C160_array z met j (common a) (path a) (data a) Z J1 O LI P D) as (t & T & J2 & PL & DI & X1 & X2 & _). exists t.
      rewrite (array_text _ _ _ _ _ _ Z) in T. assert (TT : t = run_text a z met) by (unfold run_text; rewrite J; congruence).
      split; [|auto]. apply written_in.
      * apply in_or_app. right. apply in_or_app. left. apply E. exists z, met. split; auto. split; auto. right. left. now subst.
      * intros t' I'. destruct (ALL _ _ I') as [[X _]|[[X _]|[[X _]|(z' & m' & _ & Z' & [[X ->]|[X _]])]]]; destruct (names_differ z z met met Z Z) as (N0 & N1 & N2 & N3 & _); try contradiction.
        -- assert (met = m') by (eapply suffix_inj; exact X). subst m'. assert (z = z') by (eapply zstring_inj; eauto). now subst.
        -- destruct (names_differ z z' met m' Z Z') as (N & _). contradiction.
    + destruct (create_slurm_merge z (merge_settings a) (path a) (data a)) as [[nm t]|] eqn:M; [|unfold create_slurm_merge in M; rewrite Z in M; discriminate].
      assert (nm = merge_script met) by (unfold create_slurm_merge in M; rewrite Z in M; cbn [rbind] in M; unfold merge_script; congruence). subst nm.
      exists t. split; [|reflexivity]. apply written_in.
      * apply in_or_app. right. apply in_or_app. left. apply E. exists z, met. split; auto. split; auto. right. right. exists t. auto.
      * intros t' I'. destruct (ALL _ _ I') as [[X _]|[[X _]|[[X _]|(z' & m' & _ & Z' & [[X _]|[X M']])]]]; destruct (names_differ z z met met Z Z) as (_ & _ & _ & _ & N1 & N2 & N3); try contradiction.
        -- destruct (names_differ z' z m' met Z' Z) as (N & _). congruence.
        -- assert (met = m') by (eapply suffix_inj; exact X). subst m'. assert (z = z') by (eapply zstring_inj; eauto). subst. congruence.
  - assert (NO : forall name t, In (Wrote name t) (python ++ es' ++ [Wrote "slurm_submit.sh" text])%list ->
      (name = "run_metallicity.py" -> t = create_run_script_text (ini_file a)) /\ (name = "merge_metallicity.py" -> t = create_merge_script_text (ini_file a)) /\ (name = "slurm_submit.sh" -> t = text)).
    { intros name t I. destruct (ALL _ _ I) as [[-> ->]|[[-> ->]|[[-> ->]|(z & m & _ & Z & [[-> _]|[-> _]])]]]; repeat split; intro X; try discriminate; auto;
      destruct (names_differ z z m m Z Z) as (_ & N1 & N2 & N3 & N4 & N5 & N6); contradiction. }
    split; [|split; [exact CH|split]]; apply written_in.
    + apply in_or_app. right. apply in_or_app. right. now left.
    + intros t' I'. apply (NO _ _ I'). reflexivity.
    + now left.
    + intros t' I'. apply (NO _ _ I'). reflexivity.
    + right. now left.
    + intros t' I'. apply (NO _ _ I'). reflexivity.
Qed.
(** the jobs share the binaries: each is evolved by exactly one of them, and none has nothing to do *)
Theorem C179_shared : forall n j, (1 <= j)%nat -> (Z.of_nat j <= n)%Z ->
  (forall i, (0 <= i < n)%Z -> exists! r, exists part, (r < j)%nat /\ evolve_indices (Parallel (Z.of_nat r) (Z.of_nat j)) n None None = Ok (part, Some part) /\ In i part) /\
  (forall r, (r < j)%nat -> exists part, evolve_indices (Parallel (Z.of_nat r) (Z.of_nat j)) n None None = Ok (part, Some part) /\ part <> []).
Proof.
  intros n j J N. split.
  - intros i I. destruct (split_once n (Z.of_nat j) i ltac:(lia) I) as (r & H & U). rewrite Nat2Z.id in *. exists r. split; [exact H|exact U].
  - intros r R. destruct (split_total _ (PopModel.range n) (Z.of_nat j) ltac:(lia)) as (parts & E). destruct (split_fair _ _ _ _ E) as (_ & L & C & B).
    rewrite Nat2Z.id in L. destruct (nth_error parts r) as [p|] eqn:NE; [|apply nth_error_None in NE; lia].
    exists p. unfold evolve_indices. rewrite E. cbn [rbind]. rewrite py_nth_nonneg, NE. split; [reflexivity|]. intros ->.
    assert (LE : forall q, In q parts -> (length q <= 1)%nat). { intros q Q. pose proof (B q [] Q (nth_error_In _ _ NE)). cbn in *. lia. }
    assert (LC : (length (concat parts) < length parts)%nat).
    { assert (IE : In (@nil Z) parts) by (eapply nth_error_In; eauto). clear - LE IE. induction parts as [|q ps IH]; [destruct IE|].
      cbn. rewrite app_length. assert (G : (length (concat ps) <= length ps)%nat).
      { clear IH IE. assert (LE' : forall q, In q ps -> (length q <= 1)%nat) by (intros; apply LE; now right). clear LE. induction ps as [|q' ps IH]; [cbn; lia|].
        cbn. rewrite app_length. pose proof (LE' q' (or_introl eq_refl)). specialize (IH (fun x H => LE' x (or_intror H))). lia. }
      destruct IE as [-> |IE]; [cbn; lia|]. specialize (IH (fun x H => LE x (or_intror H)) IE). pose proof (LE q (or_introl eq_refl)). lia. }
    rewrite C, L in LC. unfold PopModel.range in LC. rewrite map_length, seq_length in LC. lia.
Qed.
(** Nothing is written when the file is missing, its supernova model has no interpolated values, or there are too few binaries for the jobs *)
Theorem C179_refused : forall f a, 
  (f = None -> setup_popsyn_function f a = (Raise FileNotFoundError, [])) /\
  (forall i m, f = Some i -> step_SN i = Some m -> check_SN_MODEL_validity m = Ok false -> setup_popsyn_function f a = (Raise ValueError, [])) /\
  (forall i m s l n, f = Some i -> step_SN i = Some m -> check_SN_MODEL_validity m = Ok true -> secondary_mass_scheme i = Some s -> s <> "flat_mass_ratio" ->
     metallicities i = Some l -> number_of_binaries i = Some n ->
     ((0 < job_array a)%Z -> (n < job_array a)%Z -> setup_popsyn_function f a = (Raise ValueError, [])) /\
     (job_array a = 0%Z -> setup_popsyn_function f a = (Raise (OtherError "ZeroDivisionError"), []))).
Proof.
  intros f a. split; [|split].
  - intros ->. reflexivity.
  - intros i m -> SN V. unfold setup_popsyn_function, checks, validate_ini_file. rewrite SN. cbn [key rbind]. rewrite V. reflexivity.
  - intros i m s l n -> SN V SM NF ML NB. unfold setup_popsyn_function, checks, validate_ini_file. rewrite SN. cbn [key rbind]. rewrite V. cbn [rbind].
    rewrite SM. cbn [key rbind]. apply String.eqb_neq in NF. rewrite NF. cbn [rbind]. rewrite ML, NB. cbn [key rbind]. split.
    + intros P L. destruct (Z.eqb_spec (job_array a) 0); [lia|]. destruct (Qle_bool 1 _) eqn:Q; [|reflexivity]. exfalso.
      apply Qle_bool_iff in Q. destruct (job_array a) as [|p|p]; try lia. unfold Qle, Qdiv, Qmult, Qinv, inject_Z in Q. cbn in Q. lia.
    + intros ->. reflexivity.
Qed.
(** A metallicity that is not supported is found late: the other files are there, and no script that submits them *)
Definition good_SN : dict := [("use_interp_values", VBool false)].
Definition good (l : list Z) (n : Z) : option ini := Some (Ini (Some good_SN) (Some "flat_mass_ratio") (Some 1%Q) (Some 150%Q) (Some l) (Some n)).
Definition args (ini : string) (j : Z) : arguments := Arguments ini j usual (Some "12:00:00") "/opt/POSYDON" "/data".
Theorem C179_atomic_refuted : exists es t, setup_popsyn_function (good [10000; 5000]%Z 100) (args "p.ini" 10) = (Raise ValueError, es) /\
  written "run_metallicity.py" es <> None /\ written "1e+00_Zsun_slurm_array.slurm" es = Some t /\ written "slurm_submit.sh" es = None.
Proof. do 2 eexists. split; [vm_compute; reflexivity|]. split; [vm_compute; discriminate|]. split; vm_compute; reflexivity. Qed.
(** A negative number of binaries goes with a negative number of jobs, which the batch system cannot read *)
Theorem C179_negative_refuted : exists es t, setup_popsyn_function (good [10000]%Z (-100)) (args "p.ini" (-10)) = (Ok tt, es) /\
  written "1e+00_Zsun_slurm_array.slurm" es = Some t /\ jobs t = None.
Proof. do 2 eexists. split; [vm_compute; reflexivity|]. split; vm_compute; reflexivity. Qed.
(** A metallicity listed twice is run twice, at the same time and with the same files *)
Theorem C179_twice_refuted : exists es t, setup_popsyn_function (good [10000; 10000]%Z 100) (args "p.ini" 10) = (Ok tt, es) /\
  written "slurm_submit.sh" es = Some t /\ nth_error (submitted t) 0 = Some (array_script "1e+00", None) /\ nth_error (submitted t) 2 = Some (array_script "1e+00", None).
Proof. do 2 eexists. split; [vm_compute; reflexivity|]. split; [vm_compute; reflexivity|]. split; vm_compute; reflexivity. Qed.

Lemma until_app : forall q s r, lacks q s -> lacks "\" s -> until q (s ++ String q r) = Some (s, r).
Proof.
  intros q s r. induction s as [|c s IH]; intros A B; cbn; [now rewrite Ascii.eqb_refl|]. destruct A as [A1 A2], B as [B1 B2].
  apply Ascii.eqb_neq in A1. apply Ascii.eqb_neq in B1. rewrite A1, B1, IH; auto.
Qed.
Lemma app_assoc_s : forall a b c : string, (a ++ b) ++ c = a ++ b ++ c.
Proof. induction a as [|x a IH]; intros; cbn; congruence. Qed.
(** The scripts read the file that was checked, for names without quotes and backslashes *)
Theorem C179_ini : forall ini, lacks "'" ini -> lacks """" ini -> lacks "\" ini -> lacks lf ini ->
  reads "    ini_kw = binarypop_kwargs_from_ini" (create_run_script_text ini) = Some ini /\
  reads "    sim_props = SimulationProperties.from_ini" (create_run_script_text ini) = Some ini /\
  reads "    ini_kw = binarypop_kwargs_from_ini" (create_merge_script_text ini) = Some ini.
Proof.
  intros ini A B C D.
  assert (L : forall s t, lacks lf s -> lacks lf t -> lacks lf (s ++ ini ++ t)) by (intros; apply lacks_app; split; auto; apply lacks_app; auto).
  assert (X : forall s, Forall (fun c => c <> lf) (list_ascii_of_string s) -> lacks lf s) by (induction s as [|c s IH]; intros F; cbn; [auto|]; inversion F; auto).
  assert (LIT : forall s, forallb (fun c => negb (Ascii.eqb c lf)) (list_ascii_of_string s) = true -> lacks lf s).
  { intros s F. apply X. rewrite forallb_forall in F. apply Forall_forall. intros c I. specialize (F c I). apply negb_true_iff in F. now apply Ascii.eqb_neq. }
  assert (UA : until "'" (ini ++ "')") = Some (ini, ")")) by (apply (until_app "'" ini ")"); auto).
  assert (UB : until """" (ini ++ """)") = Some (ini, ")")) by (apply (until_app """" ini ")"); auto).
  unfold reads. split; [|split].
  - unfold create_run_script_text. rewrite lines_of by (repeat (constructor; [first [apply LIT; reflexivity|apply L; apply LIT; reflexivity]|]); constructor).
    match goal with |- context [first_after ?p ?l] => replace (first_after p l) with (Some (String "'" (ini ++ "')"))) by reflexivity end.
    cbn [Ascii.eqb orb]. rewrite UA. reflexivity.
  - unfold create_run_script_text. rewrite lines_of by (repeat (constructor; [first [apply LIT; reflexivity|apply L; apply LIT; reflexivity]|]); constructor).
    match goal with |- context [first_after ?p ?l] => replace (first_after p l) with (Some (String "'" (ini ++ "')"))) by reflexivity end.
    cbn [Ascii.eqb orb]. rewrite UA. reflexivity.
  - unfold create_merge_script_text. rewrite lines_of by (repeat (constructor; [first [apply LIT; reflexivity|apply L; apply LIT; reflexivity]|]); constructor).
    match goal with |- context [first_after ?p ?l] => replace (first_after p l) with (Some (String """" (ini ++ """)"))) by reflexivity end.
    cbn [Ascii.eqb orb]. rewrite UB. reflexivity.
Qed.
(** With an apostrophe in its name the file passes all checks, and no job can be started *)
Theorem C179_apostrophe_refuted : exists es t, setup_popsyn_function (good [10000]%Z 100) (args "Joe's.ini" 10) = (Ok tt, es) /\
  written "run_metallicity.py" es = Some t /\ reads "    ini_kw = binarypop_kwargs_from_ini" t = None.
Proof. do 2 eexists. split; [vm_compute; reflexivity|]. split; vm_compute; reflexivity. Qed.
Example C179_nonvacuous : exists es t, setup_popsyn_function (good [20000; 4500]%Z 1000) (args "runs/p.ini" 12) = (Ok tt, es) /\
  written "4.5e-01_Zsun_slurm_array.slurm" es = Some t /\ jobs t = Some (seq 0 12, None).
Proof. do 2 eexists. split; [vm_compute; reflexivity|]. split; vm_compute; reflexivity. Qed.

Print Assumptions C179_files.
Print Assumptions C179_shared.
Print Assumptions C179_refused.
Print Assumptions C179_atomic_refuted.
Print Assumptions C179_negative_refuted.
Print Assumptions C179_twice_refuted.
Print Assumptions C179_ini.
Print Assumptions C179_apostrophe_refuted.
