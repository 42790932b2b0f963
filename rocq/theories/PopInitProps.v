(** Properties of the setting up of populations (C177, C178). *)
From Coq Require Import String List Bool ZArith Lia.
From Verif Require Import PyBase PopInitModel.
Import ListNotations.
Open Scope string_scope.
Open Scope list_scope.
Open Scope Z_scope.

(** ** C177: the random numbers of processes *)

(** What is meant: the process of rank r among n working on metallicity m, the k-th of the list, as a task of the job array id. *)
Definition task (mets : list Z) (e : option Z) (id m n r t : Z) : options := Options mets 0 (Some m) e None (Some id) (Some r) (Some n) t.
Definition mpi (mets : list Z) (e m n r t : Z) : options := Options mets 0 (Some m) (Some e) (Some (r, n)) None None None t.
(** Position in a list without repetitions *)
Definition at_pos (l : list Z) (k : nat) (m : Z) : Prop := nth_error l k = Some m.

Lemma index_from_spec : forall l k m i, NoDup l -> nth_error l k = Some m -> index_from i l m = Ok (i + Z.of_nat k).
Proof.
  induction l as [|y l IH]; intros k m i ND H; [destruct k; discriminate|].
  destruct k as [|k]; cbn in *.
  - assert (y = m) by congruence. subst. rewrite Z.eqb_refl. f_equal. lia.
  - inversion ND as [|? ? NI ND']; subst. destruct (Z.eqb_spec y m) as [E|NE].
    + exfalso. apply NI. subst. eapply nth_error_In; eauto.
    + rewrite (IH k m (i + 1) ND' H). f_equal. lia.
Qed.
Lemma index_spec : forall l k m, NoDup l -> at_pos l k m -> index l m = Ok (Z.of_nat k).
Proof. intros. unfold index. rewrite (index_from_spec l k m 0); auto. Qed.
Lemma index_none : forall l m i, ~ In m l -> index_from i l m = Raise ValueError.
Proof.
  induction l as [|y l IH]; intros m i NI; [reflexivity|]. cbn. destruct (Z.eqb_spec y m) as [E|NE]; [exfalso; apply NI; now left|].
  apply IH. intro H. apply NI. now right.
Qed.
Lemma spawn_in : forall s n r, 0 <= r < n -> spawn s n r = Ok (Seed (entropy s) (Some r)).
Proof.
  intros s n r H. unfold spawn. rewrite Z.max_l by lia. replace (- n <=? r) with true by (symmetry; apply Z.leb_le; lia).
  replace (r <? n) with true by (symmetry; apply Z.ltb_lt; lia). cbn. replace (r <? 0) with false by (symmetry; apply Z.ltb_ge; lia). reflexivity.
Qed.

(** A task of a job array draws from the stream number r of the entropy id + k *)
Theorem C177_task : forall os mets id m n r t k, NoDup mets -> at_pos mets k m -> 0 <= id -> 0 <= r < n ->
  seed_of os (task mets None id m n r t) m = Ok (Seed (id + Z.of_nat k) (Some r)).
Proof.
  intros os mets id m n r t k ND P H R. unfold seed_of, task. cbn [given_entropy comm job job_size job_rank metallicities rbind].
  rewrite (index_spec mets k m ND P). cbn [rbind]. unfold seed_sequence. replace (id + Z.of_nat k <? 0) with false by (symmetry; apply Z.ltb_ge; lia).
  cbn [rbind]. now rewrite spawn_in.
Qed.
(** So no two tasks of a run share their random numbers: all of one array by their ranks, and arrays by their numbers, which grow along the list of
    metallicities when they are submitted in its order (as slurm_submit.sh does, C160) *)
Theorem C177_distinct : forall os mets (ids : nat -> Z) n t t' k k' m m' r r' s s', NoDup mets -> at_pos mets k m -> at_pos mets k' m' ->
  (forall i, 0 <= ids i) -> (forall i j, (i < j)%nat -> ids i < ids j) -> 0 <= r < n -> 0 <= r' < n ->
  seed_of os (task mets None (ids k) m n r t) m = Ok s -> seed_of os (task mets None (ids k') m' n r' t') m' = Ok s' ->
  s = s' -> k = k' /\ r = r'.
Proof.
  intros os mets ids n t t' k k' m m' r r' s s' ND P P' POS INC R R' H H' E.
  rewrite (C177_task os mets (ids k) m n r t k) in H by auto. rewrite (C177_task os mets (ids k') m' n r' t' k') in H' by auto.
  assert (E1 : ids k + Z.of_nat k = ids k' + Z.of_nat k') by congruence. assert (E2 : r = r') by congruence. split; auto.
  destruct (lt_eq_lt_dec k k') as [[L|L]|L]; auto; [pose proof (INC _ _ L)|pose proof (INC _ _ L)]; lia.
Qed.
(** A job submitted later for one of the metallicities, as a rescue is, may share them with one of another metallicity *)
Theorem C177_rescue_refuted : exists mets id id' m m' n r s, NoDup mets /\ In m mets /\ In m' mets /\ m <> m' /\ id < id' /\ 0 <= r < n /\
  seed_of 0 (task mets None id m n r 0) m = Ok s /\ seed_of 0 (task mets None id' m' n r 0) m' = Ok s.
Proof.
  exists [20000; 10000; 4500], 1040, 1042, 4500, 20000, 10, 3, (Seed 1042 (Some 3)).
  repeat split; try (cbn; tauto); try lia; try reflexivity.
  repeat constructor; cbn; intuition lia.
Qed.
(** but never with another job of its own metallicity *)
Theorem C177_rescue : forall os mets id id' m n r r' t t' s k, NoDup mets -> at_pos mets k m -> 0 <= id -> 0 <= id' -> 0 <= r < n -> 0 <= r' < n ->
  seed_of os (task mets None id m n r t) m = Ok s -> seed_of os (task mets None id' m n r' t') m = Ok s -> id = id' /\ r = r'.
Proof.
  intros os mets id id' m n r r' t t' s k ND P I I' R R' H H'. rewrite (C177_task os mets id m n r t k) in H by auto.
  rewrite (C177_task os mets id' m n r' t' k) in H' by auto. split; [|congruence].
  assert (id + Z.of_nat k = id' + Z.of_nat k) by congruence. lia.
Qed.
(** With an entropy given, the tasks of a job array draw the same numbers for every metallicity, whatever the number of the array, *)
Theorem C177_entropy_refuted : forall os mets e id id' m m' n r t t', 0 <= e -> 0 <= r < n ->
  seed_of os (task mets (Some e) id m n r t) m = Ok (Seed e (Some r)) /\
  seed_of os (task mets (Some e) id m n r t) m = seed_of os (task mets (Some e) id' m' n r t') m'.
Proof.
  intros os mets e id id' m m' n r t t' H R. unfold seed_of, task. cbn [given_entropy comm job job_size job_rank rbind].
  unfold seed_sequence. replace (e <? 0) with false by (symmetry; apply Z.ltb_ge; lia). cbn [rbind]. now rewrite spawn_in.
Qed.
(** while those of MPI do not *)
Theorem C177_mpi : forall os mets e m m' n r r' t t' k k' , NoDup mets -> at_pos mets k m -> at_pos mets k' m' -> 0 <= e -> 0 <= r < n -> 0 <= r' < n ->
  exists s s', seed_of os (mpi mets e m n r t) m = Ok s /\ seed_of os (mpi mets e m' n r' t') m' = Ok s' /\ (s = s' <-> k = k' /\ r = r').
Proof.
  assert (G : forall os mets e m n r t k, NoDup mets -> at_pos mets k m -> 0 <= e -> 0 <= r < n ->
    seed_of os (mpi mets e m n r t) m = Ok (Seed (e + Z.of_nat k) (Some r))).
  { intros os mets e m n r t k ND P H R. unfold seed_of, mpi. cbn [given_entropy comm job metallicities rbind].
    unfold seed_sequence at 1. replace (e <? 0) with false by (symmetry; apply Z.ltb_ge; lia). cbn [rbind].
    rewrite (index_spec mets k m ND P). cbn [rbind]. unfold seed_sequence. replace (e + Z.of_nat k <? 0) with false by (symmetry; apply Z.ltb_ge; lia).
    cbn [rbind]. now rewrite spawn_in. }
  intros os mets e m m' n r r' t t' k k' ND P P' H R R'. exists (Seed (e + Z.of_nat k) (Some r)), (Seed (e + Z.of_nat k') (Some r')).
  split; [|split]; [apply G; auto|apply G; auto|]. split.
  - intro E. assert (E1 : e + Z.of_nat k = e + Z.of_nat k') by congruence. assert (E2 : r = r') by congruence. split; auto. lia.
  - intros [-> ->]. reflexivity.
Qed.
(** What is refused *)
Theorem C177_refused : forall os o m,
  (comm o <> None -> job o <> None -> seed_of os o m = Raise ValueError) /\
  (comm o <> None -> job o = None -> given_entropy o = None -> seed_of os o m = Raise ValueError) /\
  (~ In m (metallicities o) -> (comm o <> None \/ job o <> None /\ given_entropy o = None) -> seed_of os o m = Raise ValueError) /\
  (forall e, given_entropy o = Some e -> e < 0 -> seed_of os o m = Raise ValueError) /\
  (forall id n r k, comm o = None -> job o = Some id -> given_entropy o = None -> 0 <= id -> NoDup (metallicities o) -> at_pos (metallicities o) k m ->
     job_size o = Some n -> job_rank o = Some r -> 0 <= n <= r -> seed_of os o m = Raise IndexError).
Proof.
  intros os o m. assert (NEG : forall e, e < 0 -> seed_sequence e = Raise ValueError).
  { intros e H. unfold seed_sequence. replace (e <? 0) with true by (symmetry; apply Z.ltb_lt; lia). reflexivity. }
  assert (SS : forall e, seed_sequence e = Raise ValueError \/ exists s, seed_sequence e = Ok s).
  { intro e. unfold seed_sequence. destruct (e <? 0); eauto. }
  repeat split.
  - intros C J. unfold seed_of. destruct (comm o) as [[a b]|]; [|congruence]. destruct (job o); [|congruence].
    destruct (given_entropy o) as [e|]; cbn [rbind]; auto. destruct (SS e) as [-> | [s ->]]; reflexivity.
  - intros C J E. unfold seed_of. destruct (comm o) as [[a b]|]; [|congruence]. rewrite J, E. reflexivity.
  - intros NI H. unfold seed_of, index. destruct (given_entropy o) as [e|] eqn:GE.
    + destruct H as [H|[_ H]]; [|discriminate]. destruct (SS e) as [-> | [s ->]]; [reflexivity|]. cbn [rbind].
      destruct (comm o) as [[a b]|]; [|congruence]. destruct (job o); auto. rewrite (index_none _ _ 0 NI). reflexivity.
    + cbn [rbind]. destruct (comm o) as [[a b]|] eqn:C; [destruct (job o); reflexivity|].
      destruct H as [H|[H _]]; [congruence|]. destruct (job o); [|congruence]. rewrite (index_none _ _ 0 NI). reflexivity.
  - intros e GE H. unfold seed_of. rewrite GE, (NEG e H). reflexivity.
  - intros id n r k C J GE I ND P SZ RK H. unfold seed_of. rewrite C, J, GE, SZ, RK. cbn [rbind]. rewrite (index_spec _ k m ND P). cbn [rbind].
    unfold seed_sequence. replace (id + Z.of_nat k <? 0) with false by (symmetry; apply Z.ltb_ge; lia). cbn [rbind]. unfold spawn.
    rewrite Z.max_l by lia. replace (r <? n) with false by (symmetry; apply Z.ltb_ge; lia). now rewrite andb_false_r.
Qed.
Example C177_nonvacuous : seed_of 7 (task [20000; 10000; 4500] None 1040 4500 10 3 0) 4500 = Ok (Seed 1042 (Some 3)).
Proof. reflexivity. Qed.

(** ** C178: the metallicity of the steps *)

Lemma nth_upd : forall h i f, nth_error (upd h i f) i = option_map f (nth_error h i).
Proof. induction h as [|p h IH]; intros [|i] f; cbn; auto. Qed.
Lemma nth_upd_other : forall h i j f, i <> j -> nth_error (upd h i f) j = nth_error h j.
Proof. induction h as [|p h IH]; intros [|i] [|j] f N; cbn; auto; try congruence; try (now elim N). Qed.
(** What is meant: a step which loads a grid has the metallicity m *)
Definition at_metallicity (m : Z) (l : list (string * option Z)) : Prop :=
  forall k o, In (k, o) l -> In k STEP_NAMES_LOADING_GRIDS -> o = Some m.
Lemma loads_grid_in : forall k, In k STEP_NAMES_LOADING_GRIDS -> loads_grid k = true.
Proof. intros k H. unfold loads_grid. apply existsb_exists. exists k. split; auto. apply String.eqb_refl. Qed.
Lemma loads_grid_not : forall k, ~ In k STEP_NAMES_LOADING_GRIDS -> loads_grid k = false.
Proof.
  intros k H. unfold loads_grid. destruct (existsb _ _) eqn:E; auto. apply existsb_exists in E. destruct E as (x & I & E).
  apply String.eqb_eq in E. subst. contradiction.
Qed.
Lemma force_at : forall m p, at_metallicity m (steps (force m p)).
Proof.
  intros m p k o H G. unfold force in H. cbn [steps] in H. apply in_map_iff in H. destruct H as ([k' o'] & E & _). cbn [fst snd] in E.
  assert (k' = k) by congruence. subst. rewrite loads_grid_in in E by assumption. congruence.
Qed.

(** The first population to evolve with its properties evolves at its own metallicity and with its own random numbers, whatever populations were made
    with the same properties before or after it; steps that load no grid keep their options *)
Theorem C178_first : forall p h s, nth_error h (p_props p) = Some s -> loaded s = None ->
  exists l, used p h = Some (l, Some (p_seed p)) /\ at_metallicity (p_metallicity p) l /\ map fst l = map fst (steps s) /\
  forall k o, ~ In k STEP_NAMES_LOADING_GRIDS -> In (k, o) (steps s) -> In (k, o) l.
Proof.
  intros p h s H L. exists (steps (force (p_metallicity p) s)). split; [|split; [apply force_at|split]].
  - unfold used, ensure_loaded. rewrite nth_upd, H. cbn. rewrite L. reflexivity.
  - cbn. rewrite map_map. apply map_ext. reflexivity.
  - intros k o NG I. unfold force. cbn [steps]. apply in_map_iff. exists (k, o). split; auto. cbn [fst snd]. now rewrite (loads_grid_not k NG).
Qed.
(** A population has the metallicity asked for, or else the one of the list *)
Theorem C178_metallicity : forall os o at_ h p h', new_population os o at_ h = (Ok p, h') ->
  (forall m, metallicity o = Some m -> p_metallicity p = m) /\
  (metallicity o = None -> py_nth (metallicities o) (metallicity_index o) = Some (p_metallicity p)) /\ p_props p = at_ /\
  (forall j, j <> at_ -> nth_error h' j = nth_error h j) /\
  (forall s, nth_error h at_ = Some s -> exists s', nth_error h' at_ = Some s' /\ at_metallicity (p_metallicity p) (steps s') /\ max_time s' = max_simulation_time o /\ loaded s' = loaded s).
Proof.
  intros os o at_ h p h' H. unfold new_population in H. destruct (py_nth (metallicities o) (metallicity_index o)) as [d|]; [|congruence].
  destruct (seed_of os o _) as [s|] eqn:SE; cbn [rbind] in H; [|congruence].
  assert (E : p = Population (match metallicity o with Some m => m | None => d end) s at_) by congruence.
  assert (E' : h' = upd h at_ (fun p => set_time (max_simulation_time o) (force (match metallicity o with Some m => m | None => d end) p))) by congruence.
  subst. cbn [p_metallicity p_props]. split; [|split; [|split; [|split]]]; auto.
  - intros m ->. reflexivity.
  - intros ->. reflexivity.
  - intros j N. apply nth_upd_other. congruence.
  - intros s0 H0. rewrite nth_upd, H0. cbn [option_map]. eexists; split; [reflexivity|]. cbn [set_time steps max_time loaded]. split; [apply force_at|split; reflexivity].
Qed.
(** A list of metallicities without the one of the index is refused even if a metallicity is given *)
Theorem C178_index : forall os o at_ h, py_nth (metallicities o) (metallicity_index o) = None -> new_population os o at_ h = (Raise IndexError, h).
Proof. intros os o at_ h H. unfold new_population. now rewrite H. Qed.
(** Once the steps are loaded they stay as they are: *)
Theorem C178_loaded : forall p h s x, nth_error h (p_props p) = Some s -> loaded s = Some x -> used p h = Some x.
Proof. intros p h s x H L. unfold used, ensure_loaded. rewrite nth_upd, H. cbn. rewrite L. exact L. Qed.
(** so the second of two populations with the same properties evolves at the metallicity, and with the random numbers, of the first, *)
Theorem C178_shared_refuted : exists os o1 o2 h0 p1 h1 p2 h2,
  new_population os o1 0 h0 = (Ok p1, h1) /\ new_population os o2 0 (ensure_loaded p1 h1) = (Ok p2, h2) /\ p_metallicity p1 <> p_metallicity p2 /\
  p_seed p1 <> p_seed p2 /\ exists l, used p2 h2 = Some (l, Some (p_seed p1)) /\ at_metallicity (p_metallicity p1) l /\ In ("step_detached", Some (p_metallicity p1)) l.
Proof.
  set (o m e := Options [20000; 10000] 0 (Some m) (Some e) None None None None 138).
  exists 0, (o 20000 1), (o 10000 2), [Props [("step_detached", None); ("step_SN", None)] None 0].
  eexists (Population 20000 (Seed 1 None) 0), _, (Population 10000 (Seed 2 None) 0), _.
  split; [reflexivity|]. split; [reflexivity|]. split; [discriminate|]. split; [discriminate|]. exists [("step_detached", Some 20000); ("step_SN", None)]. split; [reflexivity|].
  split; [|now left]. cbn [p_metallicity]. intros k v [H|[H|[]]] G; [congruence|]. assert (k = "step_SN") by congruence. subst. cbn in G.
  exfalso. repeat (destruct G as [G|G]; [discriminate|]). exact G.
Qed.
(** steps loaded by hand stay at the metallicity of their options, *)
Theorem C178_by_hand_refuted : exists os o h p h', new_population os o 0 (map (load_steps None) h) = (Ok p, h') /\ p_metallicity p = 10000 /\
  used p h' = Some ([("step_detached", Some 20000)], None).
Proof.
  exists 0, (Options [10000] 0 None None None None None None 138), [Props [("step_detached", Some 20000)] None 0]. eexists _, _.
  split; [reflexivity|]. split; reflexivity.
Qed.
(** and the second population sets when the first one ends *)
Theorem C178_time_refuted : exists os o1 o2 h0 p1 h1 p2 h2 s, new_population os o1 0 h0 = (Ok p1, h1) /\ new_population os o2 0 h1 = (Ok p2, h2) /\
  nth_error (ensure_loaded p1 h2) (p_props p1) = Some s /\ max_time s = max_simulation_time o2 /\ max_simulation_time o1 <> max_simulation_time o2.
Proof.
  exists 0, (Options [10000] 0 None None None None None None 138), (Options [10000] 0 None None None None None None 10), [Props [("step_detached", None)] None 0].
  eexists _, _, _, _, _. split; [reflexivity|]. split; [reflexivity|]. split; [reflexivity|]. split; [reflexivity|discriminate].
Qed.
(** A population that is refused has forced its metallicity upon the properties all the same *)
Theorem C178_refused_refuted : exists os o h h' e, new_population os o 0 h = (Raise e, h') /\ h <> h'.
Proof.
  exists 0, (Options [10000] 0 None None (Some (0, 4)) None None None 138), [Props [("step_detached", Some 20000)] None 0]. eexists _, ValueError.
  split; [reflexivity|discriminate].
Qed.
Example C178_nonvacuous : exists p h', new_population 5 (Options [20000; 10000] (-1) None None None None None None 138) 0 [Props [("step_CE", Some 1); ("flow", None)] None 0] = (Ok p, h') /\
  used p h' = Some ([("step_CE", Some 10000); ("flow", None)], Some (Seed 5 None)).
Proof. eexists _, _. split; reflexivity. Qed.

Print Assumptions C177_task.
Print Assumptions C177_distinct.
Print Assumptions C177_rescue_refuted.
Print Assumptions C177_rescue.
Print Assumptions C177_entropy_refuted.
Print Assumptions C177_mpi.
Print Assumptions C177_refused.
Print Assumptions C178_first.
Print Assumptions C178_metallicity.
Print Assumptions C178_index.
Print Assumptions C178_loaded.
Print Assumptions C178_shared_refuted.
Print Assumptions C178_by_hand_refuted.
Print Assumptions C178_time_refuted.
Print Assumptions C178_refused_refuted.
