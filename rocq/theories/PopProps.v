(** C20-C25: populations are split, evolved, saved and combined without losing binaries. *)
From Coq Require Import Ascii String List Bool ZArith QArith Lia Permutation.
From Verif Require Import PyBase PyList WarnModel WarnSpec WarnProofs PopModel PopSpec PopProofs PopLoop PopCombine PopRun.
From Verif Require BinaryModel BinarySpec HistoryProofs.
Import ListNotations.
Local Open Scope string_scope.

(** * C20 *)
(** The parts handed to processes 0 .. n-1 are a cut of the population into consecutive parts
    of nearly equal size. *)
Theorem split_partition : forall l n number stored, (0 < n)%Z ->
  exists parts, fair_split l (Z.to_nat n) parts
    /\ forall r part, nth_error parts r = Some part ->
         evolve_indices (Parallel (Z.of_nat r) n) number stored (Some l) = Ok (part, Some part).
Proof.
  intros l n number stored N. destruct (split_total _ l n N) as (parts & E).
  exists parts. split; [apply (split_fair _ _ _ _ E)|].
  intros r part Hr. unfold evolve_indices. rewrite E. cbn [rbind]. rewrite py_nth_nonneg, Hr. reflexivity.
Qed.
(** Without an argument the whole population 0 .. N-1 is split; every number is in the part of
    exactly one process. *)
Lemma range_nodup : forall n, NoDup (range n).
Proof.
  intro n. unfold range. apply NoDup_map_inj; [intros x y; lia|apply seq_NoDup].
Qed.
Lemma in_range : forall n i, In i (range n) <-> (0 <= i < n)%Z.
Proof.
  intros n i. unfold range. rewrite in_map_iff. split.
  - intros (k & <- & H). apply in_seq in H. lia.
  - intro H. exists (Z.to_nat i). rewrite in_seq. lia.
Qed.
Lemma concat_unique : forall A (parts : list (list A)) x, NoDup (concat parts) -> In x (concat parts) ->
  exists! r, exists part, nth_error parts r = Some part /\ In x part.
Proof.
  induction parts as [|p parts IH]; intros x ND I; [destruct I|]. cbn in ND, I.
  assert (D : In x p -> ~ In x (concat parts)).
  { intros H1 H2. clear - ND H1 H2. induction p as [|a p IHp]; [destruct H1|].
    cbn in ND. inversion ND as [|? ? Na ND']; subst. destruct H1 as [->|H1]; [|auto].
    apply Na. apply in_or_app. right. exact H2. }
  assert (ND2 : NoDup (concat parts)).
  { clear - ND. induction p as [|a p IHp]; [exact ND|]. inversion ND. auto. }
  assert (NI : forall r part, nth_error parts r = Some part -> In x part -> In x (concat parts)).
  { intros r part Hr Hp. apply in_concat. exists part. split; [apply nth_error_In with r; exact Hr|exact Hp]. }
  destruct (in_app_or _ _ _ I) as [H|H].
  - exists O. split; [exists p; split; [reflexivity|exact H]|].
    intros [|r] (part & Hr & Hp); [reflexivity|]. exfalso. apply (D H). exact (NI _ _ Hr Hp).
  - destruct (IH x ND2 H) as (r & (part & Hr & Hp) & U). exists (Datatypes.S r). split; [exists part; auto|].
    intros [|r'] (part' & Hr' & Hp').
    + injection Hr' as <-. contradiction (D Hp').
    + f_equal. apply U. exists part'. auto.
Qed.
Theorem split_once : forall number n i, (0 < n)%Z -> (0 <= i < number)%Z ->
  exists! r, exists part, (r < Z.to_nat n)%nat
    /\ evolve_indices (Parallel (Z.of_nat r) n) number None None = Ok (part, Some part) /\ In i part.
Proof.
  intros number n i N I. destruct (split_total _ (range number) n N) as (parts & E).
  destruct (split_fair _ _ _ _ E) as (_ & L & C & _).
  assert (EV : forall r part, nth_error parts r = Some part ->
     evolve_indices (Parallel (Z.of_nat r) n) number None None = Ok (part, Some part)).
  { intros r part Hr. unfold evolve_indices. rewrite E. cbn [rbind]. rewrite py_nth_nonneg, Hr. reflexivity. }
  destruct (concat_unique _ parts i) as (r & (part & Hr & Hp) & U).
  { rewrite C. apply range_nodup. }
  { rewrite C. apply in_range. exact I. }
  exists r. split.
  - exists part. split; [|split; [apply EV; exact Hr|exact Hp]].
    rewrite <- L. apply nth_error_Some. congruence.
  - intros r' (part' & Lr & Er & Ip). apply U. exists part'. split; [|exact Ip].
    destruct (nth_error parts r') as [q|] eqn:Hq.
    + rewrite (EV _ _ Hq) in Er. congruence.
    + apply nth_error_None in Hq. lia.
Qed.
(** Everything else is refused: no processes, or a rank that is too large. *)
Theorem split_refused : forall l n rank number stored,
  ((n <= 0)%Z -> evolve_indices (Parallel rank n) number stored (Some l) = Raise ValueError)
  /\ ((0 < n <= rank)%Z -> evolve_indices (Parallel rank n) number stored (Some l) = Raise IndexError).
Proof.
  intros l n rank number stored. split; intro H.
  - unfold evolve_indices, np_array_split. destruct (Z.leb_spec n 0); [reflexivity|lia].
  - unfold evolve_indices. destruct (split_total _ l n ltac:(lia)) as (parts & E).
    destruct (split_fair _ _ _ _ E) as (_ & L & _). rewrite E. cbn [rbind].
    unfold py_nth. destruct (Z.ltb_spec rank 0) as [|N]; [lia|]. destruct (Z.ltb_spec rank 0); [lia|].
    assert (Q : nth_error parts (Z.to_nat rank) = None) by (apply nth_error_None; lia).
    rewrite Q. reflexivity.
Qed.
(** A serial run takes everything, also when repeated. *)
Theorem split_serial : forall number given,
  let l := match given with Some l => l | None => range number end in
  evolve_indices Serial number None given = Ok (l, Some l)
  /\ evolve_indices Serial number (Some l) None = Ok (l, Some l).
Proof. intros number [l|]; split; reflexivity. Qed.

Example split_case :
  map (fun r => evolve_indices (Parallel r 3) 8 None None) [0; 1; 2; 3; -1]%Z
  = [ Ok ([0; 1; 2], Some [0; 1; 2]); Ok ([3; 4; 5], Some [3; 4; 5]); Ok ([6; 7], Some [6; 7]);
      Raise IndexError; Ok ([6; 7], Some [6; 7]) ]%Z.
Proof. reflexivity. Qed.
(** Calling evolve() a second time in a parallel run splits the part once more: binaries that
    were evolved by the first call are handed to nobody. *)
Theorem split_again_refuted :
  let second r := match evolve_indices (Parallel r 2) 4 None None with
    | Ok (_, stored) => evolve_indices (Parallel r 2) 4 stored None
    | Raise e => Raise e end in
  second 0%Z = Ok ([0%Z], Some [0%Z]) /\ second 1%Z = Ok ([3%Z], Some [3%Z]).
Proof. split; reflexivity. Qed.

(** * C21, C22 *)
Section Runs.
  Variables B G : Type.
  Variable b_index : B -> Z.
  Variable to_df : B -> result (list hrow).
  Variable to_oneline : B -> result orow.
  Variable gen : G -> Z -> G * result B.
  Variable evo : G -> B -> G * B * Z * list wcall * option exn.
  Variable fail : B -> exn -> B.
  Variable warned : B -> B.
  Variable fits_h : list hrow -> list hrow -> bool.
  Variable fits_o : list orow -> list orow -> bool.
  Notation world := (PopModel.world B G).
  Notation heap := (PopModel.heap B G).
  Notation rng := (PopModel.rng B G).
  Notation man := (PopModel.man B G).
  Notation warn := (PopModel.warn B G).
  Notation alarm := (PopModel.alarm B G).
  Notation files := (PopModel.files B G).
  Notation names := (PopModel.names B G).
  Notation save := (PopModel.save B G to_df to_oneline fits_h fits_o).
  Notation breakdown := (PopModel.breakdown B b_index to_df to_oneline).
  Notation all_binaries := (PopModel.all_binaries B G b_index to_df to_oneline gen evo fail warned fits_h fits_o).
  Notation leftover := (PopModel.leftover B G b_index to_df to_oneline fits_h fits_o).
  Notation safe_evolve := (PopModel.safe_evolve B G b_index to_df to_oneline gen evo fail warned fits_h fits_o).
  Notation combine_saved_files := (PopModel.combine_saved_files B G fits_h fits_o).
  Notation lived := (PopSpec.lived B G gen evo fail warned).
  Notation tabulated := (PopSpec.tabulated B to_df to_oneline).
  Notation keeps_index := (PopSpec.keeps_index B G b_index evo fail warned).
  Notation file_of := (PopSpec.file_of to_df to_oneline).
  Notation convertible := (PopLoop.convertible B to_df to_oneline).
  Notation ready := (PopRun.ready B G).
  Notation indexed := (PopRun.indexed B b_index to_df).

  (** Just before the batch files are combined: the population is cut into groups, one file per
      group, all names different, each file holding the tables of its group; the file named j
      ends with binary number j. *)
  Theorem saved_batches : forall o w indices bs g',
    (forall l, fits_h [] l = true) -> (forall l, fits_o [] l = true) -> keeps_index -> ready w -> op_ram o = true ->
    lived (rng w) indices bs g' -> Forall convertible bs ->
    exists w1 w2 groups rest,
      all_binaries o (length indices) 0 indices (start B G w) = (w1, None) /\ leftover o w1 = (w2, None)
      /\ heap w2 = (heap w ++ bs)%list /\ rng w2 = g' /\ man w2 = empty_mgr
      /\ undisturbed (warn w) (warn w2) /\ (op_verbose o = false -> emitted (warn w2) = emitted (warn w))
      /\ (bs <> [] -> alarm w2 = 0%Z)
      /\ concat (groups ++ rest) = bs
      /\ ends 0 groups = map Datatypes.S (times o (length indices))
      /\ rest = (match concat rest with [] => [] | _ => [concat rest] end)
      /\ names w2 = (map (fun j => batch_name j (op_rank o)) (times o (length indices))
                     ++ map (fun _ => leftover_name (op_rank o)) rest)%list
      /\ NoDup (names w2)
      /\ Forall2 (fun p g => exists c, dget String.eqb (files w2) p = Some c /\ file_of c g) (names w2) (groups ++ rest)
      /\ (forall p, ~ In p (names w2) -> dget String.eqb (files w2) p = dget String.eqb (files w) p).
  Proof. intros. eapply batches_ok; eauto. split; auto. Qed.

  (** When batches are written, without a memory limit: at the multiples of the dump rate
      (by default a tenth of the population), except at 0. *)
  Theorem batch_times : forall o n j, op_ram o = true -> op_memory o = None ->
    In j (times o n) <->
      (j < n)%nat /\ j <> 0%nat
      /\ exists k, Z.of_nat j = (k * Z.max 1 (match op_dump o with Some r => r | None => Z.of_nat n / 10 end))%Z.
  Proof.
    intros o n j R M. unfold times. rewrite filter_In, in_seq. unfold dumps, dump_rate. rewrite R, M. cbn [andb].
    rewrite andb_true_iff, Z.eqb_eq, negb_true_iff, Nat.eqb_neq.
    replace (Z.of_nat (n / 10)) with (Z.of_nat n / 10)%Z by (rewrite Nat2Z.inj_div; reflexivity).
    rewrite Z.max_comm. set (d := Z.max 1 _). assert (D : d <> 0%Z) by (unfold d; lia).
    split.
    - intros (H1 & H2 & H3). split; [lia|]. split; [exact H3|].
      exists (Z.of_nat j / d)%Z. pose proof (Z.div_mod (Z.of_nat j) d D). lia.
    - intros (H1 & H2 & k & H3). split; [lia|]. split; [|exact H2]. rewrite H3. apply Z.mod_mul. exact D.
  Qed.

  (** The whole run with RAM optimisation: one combined file with every binary exactly once, in
      the order of evolution, with the right totals; no batch file left, no other file touched. *)
  Theorem saved_once : forall o w indices bs g', keeps_index -> ready w -> op_ram o = true ->
    (forall a b, fits_h a b = true) -> (forall a b, fits_o a b = true) ->
    lived (rng w) indices bs g' -> Forall convertible bs -> indices <> [] ->
    exists w' hs os t, safe_evolve o indices w = (w', None)
      /\ heap w' = (heap w ++ bs)%list /\ rng w' = g' /\ man w' = empty_mgr /\ alarm w' = 0%Z
      /\ undisturbed (warn w) (warn w') /\ (op_verbose o = false -> emitted (warn w') = emitted (warn w))
      /\ tabulated bs hs os
      /\ dget String.eqb (files w') (combined_name (op_rank o)) = Some (FC (Some (concat hs)) (Some os) (Some t))
      /\ t_systems t = Z.of_nat (length bs)
      /\ (indexed bs -> exists rows, initial_rows (concat hs) rows /\ totals_of t rows (Z.of_nat (length bs)))
      /\ (forall p, p <> combined_name (op_rank o) ->
           (forall j, (j < length bs)%nat -> p <> batch_name j (op_rank o)) -> p <> leftover_name (op_rank o) ->
           dget String.eqb (files w') p = dget String.eqb (files w) p)
      /\ (forall p, In p (names w') -> dget String.eqb (files w') p = None).
  Proof. intros. eapply run_ram; eauto. Qed.
  Theorem saved_without_ram : forall o w indices bs g', keeps_index -> ready w -> op_ram o = false ->
    (forall l, fits_h [] l = true) -> (forall l, fits_o [] l = true) ->
    lived (rng w) indices bs g' -> Forall convertible bs -> indices <> [] -> op_breakdown o = true ->
    exists w' c, safe_evolve o indices w = (w', None)
      /\ heap w' = (heap w ++ bs)%list /\ rng w' = g' /\ undisturbed (warn w) (warn w')
      /\ dget String.eqb (files w') (combined_name (op_rank o)) = Some c /\ file_of c bs
      /\ (forall p, p <> combined_name (op_rank o) -> dget String.eqb (files w') p = dget String.eqb (files w) p).
  Proof. intros. eapply run_save; eauto. split; auto. Qed.
  Theorem kept_in_memory : forall o w indices bs g', keeps_index -> ready w -> op_ram o = false ->
    (forall l, fits_h [] l = true) -> (forall l, fits_o [] l = true) ->
    lived (rng w) indices bs g' -> Forall convertible bs -> op_breakdown o = false ->
    exists w', safe_evolve o indices w = (w', None)
      /\ heap w' = (heap w ++ bs)%list /\ rng w' = g' /\ undisturbed (warn w) (warn w')
      /\ man w' = Mgr (seq (length (heap w)) (length bs)) (map (fun x => IInt (b_index x)) bs) [] []
      /\ (forall p, dget String.eqb (files w') p = dget String.eqb (files w) p).
  Proof. intros. eapply run_keep; eauto. split; auto. Qed.
  (** A process without binaries stops with an exception. *)
  Theorem saved_nothing_refuted : forall o w, ready w -> op_ram o = true ->
    snd (safe_evolve o [] w) = Some IndexError /\ files (fst (safe_evolve o [] w)) = files w.
  Proof. intros. apply run_empty; assumption. Qed.

  (** C22: whatever binaries raise or leave behind, the loop goes on, without assumptions on the
      tables, and nothing of the warning or alarm state leaks into the next binary. *)
  Theorem failures_contained : forall o n indices j w bs g', op_ram o = false ->
    idle (warn w) -> (0 < length (regs (warn w)))%nat -> no_errors (filters (warn w)) ->
    lived (rng w) indices bs g' ->
    exists w', all_binaries o n j indices w = (w', None) /\ heap w' = (heap w ++ bs)%list /\ rng w' = g'
      /\ undisturbed (warn w) (warn w') /\ (indices <> [] -> alarm w' = 0%Z) /\ files w' = files w.
  Proof. intros. eapply loop_goes_on; eauto. Qed.
  (** The exception of one binary is visible in that binary only: another outcome with the same
      generator state leads to the same later binaries. *)
  Theorem failures_independent : forall g i g1 x g2 x2 al calls ex evo' x2' al' calls' ex' l bs g3,
    gen g i = (g1, Ok x) -> evo g1 x = (g2, x2, al, calls, ex) -> evo' g1 x = (g2, x2', al', calls', ex') ->
    Forall proper calls -> Forall proper calls' ->
    PopSpec.lived B G gen evo fail warned g2 l bs g3 ->
    (forall g i, In i l -> forall g1 x, gen g i = (g1, Ok x) -> evo' g1 x = evo g1 x) ->
    lived g (i :: l) (outcome B fail warned x2 calls ex :: bs) g3
    /\ PopSpec.lived B G gen evo' fail warned g (i :: l) (outcome B fail warned x2' calls' ex' :: bs) g3.
  Proof.
    intros g i g1 x g2 x2 al calls ex evo' x2' al' calls' ex' l bs g3 E1 E2 E3 P P' Lv EQ. split.
    - econstructor; eauto.
    - econstructor; eauto. clear - Lv EQ. induction Lv as [|h k l h1 y h2 y2 a c e bs h3 G1 V1 P1 Lv IH]; [constructor|].
      econstructor; eauto.
      + rewrite (EQ h k (or_introl eq_refl) _ _ G1). exact V1.
      + apply IH. intros g' i' I'. apply EQ. right. exact I'.
  Qed.

  (** * C23 *)
  Theorem breakdown_result : forall h m b x, nth_error h b = Some x -> In b (m_bins m) ->
    aligned B b_index h m ->
    (forall b' y, In b' (m_bins m) -> nth_error h b' = Some y -> b_index y = b_index x -> b' = b) ->
    (forall t1 t2, to_df x = Ok t1 -> to_oneline x = Ok t2 ->
       exists bs is_, breakdown h m b = Mgr bs is_ (m_hdfs m ++ [t1]) (m_odfs m ++ [t2])
         /\ Permutation (m_bins m) (b :: bs) /\ aligned B b_index h (breakdown h m b))
    /\ (forall e, to_df x = Raise e -> breakdown h m b = m)
    /\ (forall t1 e, to_df x = Ok t1 -> to_oneline x = Raise e ->
         breakdown h m b = Mgr (m_bins m) (m_idx m) (m_hdfs m ++ [t1]) (m_odfs m)).
  Proof. intros. apply breakdown_cases; assumption. Qed.
  (** The tables of the manager: of the binaries it holds if there are any, else the stored
      ones. *)
  Theorem tables_of_binaries : forall h m pre post bs hs os,
    h = (pre ++ bs ++ post)%list -> m_bins m = seq (length pre) (length bs) -> bs <> [] -> tabulated bs hs os ->
    PopModel.mgr_to_df B to_df h m = Ok (Some (concat hs))
    /\ PopModel.mgr_to_oneline B to_oneline h m = Ok (Some os).
  Proof.
    intros h m pre post bs hs os -> M NE T. destruct (tabulated_forall _ _ _ _ _ _ T) as [F1 F2].
    pose proof (tables_seq B _ to_df pre post bs hs F1) as E1.
    pose proof (tables_seq B _ to_oneline pre post bs os F2) as E2.
    unfold PopModel.mgr_to_df, PopModel.mgr_to_oneline. rewrite M in *.
    destruct bs as [|x bs]; [congruence|]. cbn [length seq] in *. rewrite E1, E2. split; reflexivity.
  Qed.
  Theorem tables_stored : forall h is_ hs os, hs <> [] -> os <> [] ->
    PopModel.mgr_to_df B to_df h (Mgr [] is_ hs os) = Ok (Some (concat hs))
    /\ PopModel.mgr_to_oneline B to_oneline h (Mgr [] is_ hs os) = Ok (Some os).
  Proof. intros h is_ [|h1 hs] [|o1 os] N1 N2; try congruence. split; reflexivity. Qed.
  (** A binary that could not be broken down hides the tables of all the others. *)
  Theorem kept_binary_hides_tables_refuted : forall h m, m_bins m <> [] ->
    PopModel.mgr_to_df B to_df h m = PopModel.mgr_to_df B to_df h (clear_dfs m)
    /\ PopModel.mgr_to_oneline B to_oneline h m = PopModel.mgr_to_oneline B to_oneline h (clear_dfs m).
  Proof. apply kept_hides. Qed.
  (** And the next save fails. *)
  Theorem save_with_failing_binary : forall w p b x e, In b (m_bins (man w)) -> nth_error (heap w) b = Some x ->
    (to_df x = Raise e \/ to_oneline x = Raise e) -> exists e', snd (save w p) = Some e'.
  Proof. apply save_fails. Qed.
  (** Saving touches one file only, and never the manager. *)
  Theorem save_touches : forall w p,
    heap (fst (save w p)) = heap w /\ man (fst (save w p)) = man w /\ names (fst (save w p)) = names w
    /\ forall q, q <> p -> dget String.eqb (files (fst (save w p))) q = dget String.eqb (files w) q.
  Proof.
    intros w p. unfold save.
    assert (W : forall c, heap (write B G w p c) = heap w /\ man (write B G w p c) = man w
      /\ names (write B G w p c) = names w
      /\ forall q, q <> p -> dget String.eqb (files (write B G w p c)) q = dget String.eqb (files w) q).
    { intro c. repeat split; try reflexivity. intros q N. cbn. rewrite dget_write.
      destruct (String.eqb_spec q p); [contradiction|reflexivity]. }
    destruct (PopModel.mgr_to_df B to_df (heap w) (man w)) as [[hs|]|]; [| |apply W];
      destruct (PopModel.mgr_to_oneline B to_oneline (heap w) (man w)) as [[os|]|]; try apply W.
    destruct (fits_h [] hs); apply W.
  Qed.

  (** * C24 *)
  Theorem combined_all : forall w target ps tabs,
    ps <> [] -> NoDup ps -> ~ In target ps -> Forall2 (has_tables (files w)) ps tabs ->
    all_fit fits_h fits_o [] [] tabs ->
    exists w' t rows, combine_saved_files w target ps = (w', None)
      /\ w' = set_files B G w (files w')
      /\ dget String.eqb (files w') target
         = Some (FC (Some (concat (map fst tabs))) (Some (concat (map snd tabs))) (Some t))
      /\ Forall2 (fun tab r => initial_rows (fst tab) r) tabs rows
      /\ totals_of t (concat rows) (Z.of_nat (length (concat (map snd tabs))))
      /\ (forall p, In p ps -> dget String.eqb (files w') p = None)
      /\ (forall p, p <> target -> ~ In p ps -> dget String.eqb (files w') p = dget String.eqb (files w) p).
  Proof.
    intros w target ps tabs N1 N2 N3 H F.
    destruct (combine_good B G fits_h fits_o w target ps tabs N1 N2 N3 H F) as (w' & t & A & C & D & E & R).
    exists w', t, (map (fun t => first_rows [] (fst t)) tabs). repeat (split; [assumption|]).
    split; [|split; assumption]. clear. induction tabs; cbn; constructor; auto. apply first_rows_ok.
  Qed.
  Theorem combined_untouched : forall w target ps p, p <> target -> ~ In p ps ->
    dget String.eqb (files (fst (combine_saved_files w target ps))) p = dget String.eqb (files w) p.
  Proof. apply combine_untouched. Qed.
  (** Nothing is written or deleted when there is no file, or the first one is incomplete. *)
  Theorem combined_bad_first : forall w target ps,
    (match ps with
     | [] => True
     | p :: _ => forall h o m, dget String.eqb (files w) p <> Some (FC (Some h) (Some o) m)
     end) ->
    fst (combine_saved_files w target ps) = w /\ snd (combine_saved_files w target ps) <> None.
  Proof. apply combine_bad_first. Qed.
  (** A later file without history is left out of the result and deleted nevertheless. *)
  Theorem combined_skips_refuted : forall w target a p b m1 m2,
    a <> [] -> NoDup (a ++ p :: b) -> ~ In target (a ++ p :: b) ->
    (forall q, In q (a ++ p :: b) -> dget String.eqb (files w) q <> None) ->
    dget String.eqb (files w) p = Some (FC None m1 m2) ->
    dget String.eqb (files (fst (combine_saved_files w target (a ++ p :: b)))) target
      = dget String.eqb (files (fst (combine_saved_files w target (a ++ b)))) target
    /\ snd (combine_saved_files w target (a ++ p :: b)) = snd (combine_saved_files w target (a ++ b))
    /\ (snd (combine_saved_files w target (a ++ p :: b)) = None ->
        dget String.eqb (files (fst (combine_saved_files w target (a ++ p :: b)))) p = None).
  Proof. apply combine_skip. Qed.

  (** * C25 *)
  Inductive mgr_op := Append (b : nat) | Remove (b : nat).
  Definition mgr_do (h : list B) (m : mgr) (op : mgr_op) : mgr :=
    match op with
    | Append b => PopModel.append_one B b_index h m b
    | Remove b => fst (PopModel.remove_one B b_index h m b)
    end.
  (** The objects a list of operations works with exist; what the manager should hold. *)
  Definition op_ok (h : list B) (op : mgr_op) : Prop :=
    match op with Append b | Remove b => (b < length h)%nat end.
  Fixpoint remove_first (l : list nat) (b : nat) : list nat :=
    match l with [] => [] | c :: l' => if Nat.eq_dec c b then l' else c :: remove_first l' b end.
  Definition expected (l : list nat) (op : mgr_op) : list nat :=
    match op with Append b => (l ++ [b])%list | Remove b => remove_first l b end.

  Lemma remove_first_ok : forall l b, list_remove Nat.eqb l b
    = if in_dec Nat.eq_dec b l then Some (remove_first l b) else None.
  Proof.
    induction l as [|c l IH]; intro b; [reflexivity|]. cbn [list_remove remove_first in_dec].
    rewrite IH. destruct (Nat.eqb_spec c b) as [->|N].
    - destruct (Nat.eq_dec b b); [|congruence]. destruct (in_dec Nat.eq_dec b (b :: l)) as [|Q]; [reflexivity|].
      exfalso. apply Q. left. reflexivity.
    - destruct (Nat.eq_dec c b); [contradiction|].
      destruct (in_dec Nat.eq_dec b l) as [I|I]; destruct (in_dec Nat.eq_dec b (c :: l)) as [J|J]; cbn; try reflexivity.
      + exfalso. apply J. right. exact I.
      + exfalso. destruct J; contradiction.
  Qed.
  Lemma remove_first_absent : forall l b, ~ In b l -> remove_first l b = l.
  Proof.
    induction l as [|c l IH]; intros b N; [reflexivity|]. cbn. destruct (Nat.eq_dec c b) as [->|].
    - exfalso. apply N. left. reflexivity.
    - f_equal. apply IH. intro. apply N. right. assumption.
  Qed.
  Lemma do_bins : forall h m op, m_bins (mgr_do h m op) = expected (m_bins m) op.
  Proof.
    intros h m [b|b]; [reflexivity|]. cbn [mgr_do expected]. unfold PopModel.remove_one.
    rewrite remove_first_ok. destruct (in_dec Nat.eq_dec b (m_bins m)) as [I|I].
    - destruct (nth_error h b); [|reflexivity]. destruct (list_remove ival_eqb (m_idx m) _); reflexivity.
    - cbn. rewrite remove_first_absent; auto.
  Qed.
  (** All objects carry different indices: positions always agree. *)
  Theorem indices_aligned : forall h ops, NoDup (map b_index h) -> Forall (op_ok h) ops ->
    let m := fold_left (mgr_do h) ops empty_mgr in
    m_bins m = fold_left expected ops []
    /\ map Some (m_idx m) = map (fun b => option_map (fun x => IInt (b_index x)) (nth_error h b)) (m_bins m).
  Proof.
    intros h ops ND OK.
    assert (U : forall b b' x y, nth_error h b = Some x -> nth_error h b' = Some y -> b_index y = b_index x -> b' = b).
    { intros b b' x y E1 E2 E. apply (map_nth_error b_index) in E1. apply (map_nth_error b_index) in E2.
      rewrite NoDup_nth_error in ND. apply ND; [apply nth_error_Some; congruence|congruence]. }
    assert (A : forall m, aligned B b_index h m -> aligned B b_index h (fold_left (mgr_do h) ops m)
                /\ m_bins (fold_left (mgr_do h) ops m) = fold_left expected ops (m_bins m)).
    { induction OK as [|op ops O1 _ IH]; intros m A; [split; [exact A|reflexivity]|]. cbn [fold_left].
      rewrite <- (do_bins h). apply IH.
      destruct op as [b|b]; cbn [mgr_do op_ok] in *; [apply append_one_aligned; assumption|].
      destruct (in_dec Nat.eq_dec b (m_bins m)) as [I|I].
      - destruct (nth_error h b) as [x|] eqn:E; [|apply nth_error_None in E; lia].
        destruct (remove_aligned B b_index h m b x A E I) as (m' & R & A' & _).
        { intros b' y _ E'. apply (U b b' x y E E'). }
        rewrite R. exact A'.
      - rewrite remove_absent by exact I. exact A. }
    destruct (A empty_mgr eq_refl) as [A1 A2]. cbv zeta. split; [exact A2|]. symmetry. exact A1.
  Qed.
  (** In general the indices are the right collection. *)
  Theorem indices_collection : forall h ops, Forall (op_ok h) ops ->
    let m := fold_left (mgr_do h) ops empty_mgr in
    m_bins m = fold_left expected ops []
    /\ Permutation (map Some (m_idx m))
         (map (fun b => option_map (fun x => IInt (b_index x)) (nth_error h b)) (m_bins m)).
  Proof.
    intros h ops OK.
    assert (A : forall m, same_indices B b_index h m -> same_indices B b_index h (fold_left (mgr_do h) ops m)
                /\ m_bins (fold_left (mgr_do h) ops m) = fold_left expected ops (m_bins m)).
    { induction OK as [|op ops O1 _ IH]; intros m A; [split; [exact A|reflexivity]|]. cbn [fold_left].
      rewrite <- (do_bins h). apply IH.
      destruct op as [b|b]; cbn [mgr_do op_ok] in *.
      - unfold same_indices, PopModel.append_one in *. cbn [m_bins m_idx]. rewrite !map_app.
        destruct (nth_error h b) as [x|] eqn:E; [|apply nth_error_None in E; lia].
        cbn [map]. rewrite E. apply Permutation_app_tail. exact A.
      - destruct (in_dec Nat.eq_dec b (m_bins m)) as [I|I].
        + destruct (remove_same B b_index h m b A I O1) as (m' & R & A' & _). rewrite R. exact A'.
        + rewrite remove_absent by exact I. exact A. }
    destruct (A empty_mgr) as [A1 A2]; [apply Permutation_refl|]. cbv zeta. split; [exact A2|exact A1].
  Qed.
  (** Removing raises exactly for absent objects, and then changes nothing. *)
  Theorem remove_raises : forall h ops b, Forall (op_ok h) ops -> (b < length h)%nat ->
    let m := fold_left (mgr_do h) ops empty_mgr in
    (In b (m_bins m) -> snd (PopModel.remove_one B b_index h m b) = None)
    /\ (~ In b (m_bins m) -> PopModel.remove_one B b_index h m b = (m, Some ValueError)).
  Proof.
    intros h ops b OK L. cbv zeta. destruct (indices_collection h ops OK) as [_ P]. split; intro I.
    - destruct (remove_same B b_index h _ b P I L) as (m' & R & _). rewrite R. reflexivity.
    - apply remove_absent. exact I.
  Qed.
End Runs.

(** set_binary_to_failed, the [fail] of a real run: the binary gets a last history row with
    state ERR and event FAILED, also while redirects are not recorded. *)
Theorem failed_marked : forall b n, BinarySpec.rows n b ->
  let b' := BinaryModel.set_binary_to_failed b in
  BinaryModel.cur (BinaryModel.bc b') "state" = BinaryModel.VStr "ERR"
  /\ BinaryModel.cur (BinaryModel.bc b') "event" = BinaryModel.VStr "FAILED"
  /\ BinaryModel.hist (BinaryModel.bc b') "state" = (BinaryModel.hist (BinaryModel.bc b) "state" ++ [BinaryModel.VStr "ERR"])%list
  /\ BinaryModel.hist (BinaryModel.bc b') "event" = (BinaryModel.hist (BinaryModel.bc b) "event" ++ [BinaryModel.VStr "FAILED"])%list
  /\ BinarySpec.rows (Datatypes.S n) b'.
Proof.
  intros b n R. cbv zeta. unfold BinaryModel.set_binary_to_failed.
  set (b0 := BinaryModel.with_bc b (BinaryModel.set_cur (BinaryModel.set_cur (BinaryModel.bc b) "state" (BinaryModel.VStr "ERR")) "event" (BinaryModel.VStr "FAILED"))).
  assert (U : BinaryModel.unrecorded b0 = false).
  { unfold BinaryModel.unrecorded. apply andb_false_iff. right. reflexivity. }
  destruct (HistoryProofs.append_state_recorded b0 U) as (G0 & _).
  destruct (G0 "state") as [S1 S2]; [left; reflexivity|].
  destruct (G0 "event") as [E1 E2]; [right; left; reflexivity|].
  rewrite S1, S2, E1, E2. repeat split.
  - pose proof (HistoryProofs.append_state_rows n b0) as H. rewrite U in H. apply H. exact R.
  - pose proof (HistoryProofs.append_state_rows n b0) as H. rewrite U in H. apply H. exact R.
  - pose proof (HistoryProofs.append_state_rows n b0) as H. rewrite U in H. apply H. exact R.
Qed.

(** * A concrete population *)
(** Binaries are an index, a failure mark and a warning mark; number 1 raises with the alarm
    still set, number 2 warns; the generator state counts the calls. *)
Record xb := XB { x_i : Z; x_err : option exn; x_w : bool }.
Definition x_gen (g : Z) (i : Z) : Z * result xb := ((g + 1)%Z, Ok (XB i None false)).
Definition x_warning := WCall [ ("step.py", 5%Z) ] "careful" (CatStr "StepWarning") 2.
Definition x_evo (g : Z) (x : xb) : Z * xb * Z * list wcall * option exn :=
  if (x_i x =? 1)%Z then ((g + 1)%Z, x, 60%Z, [], Some FlowError)
  else if (x_i x =? 2)%Z then ((g + 1)%Z, x, 0%Z, [ x_warning ], None)
  else ((g + 1)%Z, x, 0%Z, [], None).
Definition x_fail (x : xb) (e : exn) := XB (x_i x) (Some e) (x_w x).
Definition x_warned (x : xb) := XB (x_i x) (x_err x) true.
Definition x_df (x : xb) : result (list hrow) :=
  Ok [ HRow (x_i x) (if (x_i x =? 3)%Z then "initially_single_star" else "detached") (Some (10 # 1)) (Some (4 # 1)) [];
       HRow (x_i x) (match x_err x with None => "merged" | Some _ => "ERR" end) (Some (8 # 1)) None [] ].
Definition x_one (x : xb) : result orow :=
  Ok (ORow (x_i x) [ if x_w x then "True" else "False" ]).
Definition yes {A} (_ _ : list A) := true.
Definition x_w0 : PopModel.world xb Z :=
  World xb Z [] 0%Z empty_mgr (initial []) 7%Z [ ("other.h5", FC None None None) ] [].
Definition x_o (bd : bool) := Opts bd true (Some 2%Z) None false (Some 3%nat).
Definition x_bs :=
  [ XB 0 None false; XB 1 (Some FlowError) false; XB 2 None true; XB 3 None false; XB 4 None false; XB 5 None false ].

Example run_hypotheses :
  PopSpec.keeps_index xb Z x_i x_evo x_fail x_warned /\ PopRun.ready xb Z x_w0
  /\ PopSpec.lived xb Z x_gen x_evo x_fail x_warned 0%Z [0; 1; 2; 3; 4; 5]%Z x_bs 12%Z
  /\ Forall (PopLoop.convertible xb x_df x_one) x_bs /\ PopRun.indexed xb x_i x_df x_bs.
Proof.
  split; [|split; [|split; [|split]]].
  - split; [|split].
    + intros g x g2 x2 al calls ex H. unfold x_evo in H.
      destruct (x_i x =? 1)%Z; [inversion H; reflexivity|]. destruct (x_i x =? 2)%Z; inversion H; reflexivity.
    + intros x e. reflexivity.
    + intros x. reflexivity.
  - split; [reflexivity|]. split; [repeat split|]. split; [cbn; lia|]. intros w fr. discriminate.
  - unfold x_bs.
    repeat (match goal with |- PopSpec.lived _ _ _ _ _ _ _ (_ :: _) (?x :: _) _ =>
        match x with
        | XB 1%Z _ _ => change x with (outcome xb x_fail x_warned (XB 1 None false) [] (Some FlowError))
        | XB 2%Z _ _ => change x with (outcome xb x_fail x_warned (XB 2 None false) [x_warning] None)
        | _ => change x with (outcome xb x_fail x_warned x [] None)
        end; eapply lived_next; [reflexivity|reflexivity|repeat constructor; cbn; lia|cbn] end).
    apply lived_none.
  - repeat constructor; eexists; reflexivity.
  - split.
    + intros x h r _ E I. unfold x_df in E. injection E as <-. destruct I as [<-|[<-|[]]]; reflexivity.
    + cbn. repeat constructor; cbn; intuition discriminate.
Qed.
Definition x_run bd := PopModel.safe_evolve xb Z x_i x_df x_one x_gen x_evo x_fail x_warned yes yes (x_o bd)
                         [0; 1; 2; 3; 4; 5]%Z x_w0.
Example run_case : forall bd, let r := x_run bd in
  snd r = None /\ PopModel.heap _ _ (fst r) = x_bs /\ PopModel.alarm _ _ (fst r) = 0%Z
  /\ PopModel.names _ _ (fst r) = [ "2_evolution.batch.3"; "4_evolution.batch.3"; "leftover_evolution.batch.3" ]
  /\ map fst (PopModel.files _ _ (fst r)) = [ "other.h5"; "evolution.combined.3.h5" ]
  /\ match dget String.eqb (PopModel.files _ _ (fst r)) "evolution.combined.3.h5" with
     | Some (FC (Some hs) (Some os) (Some t)) =>
       map h_index hs = [0;0;1;1;2;2;3;3;4;4;5;5]%Z /\ map o_index os = [0;1;2;3;4;5]%Z
       /\ (t_mass t == 80)%Q /\ (t_single t == 10)%Q /\ t_systems t = 6%Z
     | _ => False
     end.
Proof. intros []; vm_compute; repeat split. Qed.

(** A conversion that fails: with breakdown_to_df the binary stays, the tables of the others
    disappear from to_df, and the run ends with that exception instead of a file. *)
Definition y_one (x : xb) : result orow := if (x_i x =? 1)%Z then Raise KeyError else x_one x.
Theorem failing_table_refuted :
  let r := PopModel.safe_evolve xb Z x_i x_df y_one x_gen x_evo x_fail x_warned yes yes (x_o true)
             [0; 1; 2; 3; 4; 5]%Z x_w0 in
  snd r = Some KeyError
  /\ length (PopModel.heap _ _ (fst r)) = 3%nat
  /\ map (fun h => map h_index h) (m_hdfs (PopModel.man _ _ (fst r))) = [ [0; 0]; [1; 1]; [2; 2] ]%Z
  /\ m_bins (PopModel.man _ _ (fst r)) = [ 1%nat ]
  /\ match PopModel.mgr_to_df xb x_df (PopModel.heap _ _ (fst r)) (PopModel.man _ _ (fst r)) with
     | Ok (Some hs) => map h_index hs = [1; 1]%Z
     | _ => False
     end.
Proof. vm_compute. repeat split. Qed.

(** Combining: three files, and what happens when the rows of the second do not fit. *)
Definition row i := HRow i "detached" (Some 3%Q) (Some 2%Q) [].
Definition c_files := [ ("a", FC (Some [ row 0 ]) (Some [ ORow 0 [] ]) None);
                        ("b", FC (Some [ row 1; row 1 ]) (Some [ ORow 1 ["a long text"] ]) None);
                        ("c", FC (Some [ row 2 ]) (Some [ ORow 2 [] ]) None) ].
Definition c_w := World xb Z [] 0%Z empty_mgr (initial []) 0%Z c_files [].
Example combined_case :
  let r := PopModel.combine_saved_files xb Z yes yes c_w "all" [ "a"; "b"; "c" ] in
  snd r = None /\ map fst (PopModel.files _ _ (fst r)) = [ "all" ]
  /\ match dget String.eqb (PopModel.files _ _ (fst r)) "all" with
     | Some (FC (Some hs) (Some os) (Some t)) =>
       map h_index hs = [0; 1; 1; 2]%Z /\ map o_index os = [0; 1; 2]%Z /\ (t_mass t == 15)%Q /\ t_systems t = 3%Z
     | _ => False
     end.
Proof. vm_compute. repeat split. Qed.
Definition short (_ l : list orow) := forallb (fun r => match o_rest r with [] => true | _ => false end) l.
Theorem combined_loses_refuted :
  let r := PopModel.combine_saved_files xb Z yes short c_w "all" [ "a"; "b"; "c" ] in
  snd r = None /\ map fst (PopModel.files _ _ (fst r)) = [ "all" ]
  /\ match dget String.eqb (PopModel.files _ _ (fst r)) "all" with
     | Some (FC (Some hs) (Some os) (Some t)) =>
       map h_index hs = [0; 1; 1; 2]%Z /\ map o_index os = [0; 2]%Z /\ t_systems t = 3%Z
     | _ => False
     end.
Proof. vm_compute. repeat split. Qed.

Definition h_heap := [ XB 7 None false; XB 8 None false; XB 7 (Some FlowError) false ].
Example aligned_case :
  let m := fold_left (mgr_do xb x_i h_heap) [ Append 0; Append 1; Remove 0; Append 0 ] empty_mgr in
  m_bins m = [1; 0]%nat /\ m_idx m = [ IInt 8; IInt 7 ].
Proof. split; reflexivity. Qed.
(** Repeated indices: the wrong position is removed, so positions no longer agree. *)
Theorem aligned_duplicates_refuted :
  let m := fold_left (mgr_do xb x_i h_heap) [ Append 0; Append 1; Append 2; Remove 2 ] empty_mgr in
  m_bins m = [0; 1]%nat /\ m_idx m = [ IInt 8; IInt 7 ].
Proof. split; reflexivity. Qed.
(** append(list) stores one nested list, so the binaries can no longer be removed: the object is
    taken out, the index is not found. *)
Theorem append_list_refuted :
  let m := PopModel.append_list xb x_i h_heap empty_mgr [0; 1]%nat in
  m_bins m = [0; 1]%nat /\ m_idx m = [ IList [7; 8]%Z ]
  /\ PopModel.remove_one xb x_i h_heap m 0 = (Mgr [1%nat] [ IList [7; 8]%Z ] [] [], Some ValueError).
Proof. repeat split. Qed.

Print Assumptions split_partition.
Print Assumptions split_once.
Print Assumptions saved_batches.
Print Assumptions batch_times.
Print Assumptions saved_once.
Print Assumptions saved_without_ram.
Print Assumptions kept_in_memory.
Print Assumptions failures_contained.
Print Assumptions failures_independent.
Print Assumptions failed_marked.
Print Assumptions breakdown_result.
Print Assumptions tables_of_binaries.
Print Assumptions combined_all.
Print Assumptions combined_skips_refuted.
Print Assumptions indices_aligned.
Print Assumptions indices_collection.
