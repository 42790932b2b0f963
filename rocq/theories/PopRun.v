From Coq Require Import Ascii String List Bool ZArith QArith Lia Permutation.
From Verif Require Import PyBase PyList WarnModel WarnSpec WarnProofs PopModel PopSpec PopProofs PopLoop PopCombine.
Import ListNotations.
Local Open Scope string_scope.

Lemma all_fit_always : forall fits_h fits_o, (forall a b, fits_h a b = true) -> (forall a b, fits_o a b = true) ->
  forall tabs h o, all_fit fits_h fits_o h o tabs.
Proof. intros fh fo H1 H2. induction tabs as [|[a b] tabs IH]; intros h o; cbn; auto. Qed.

Section Run.
  Variables B G : Type.
  Variable b_index : B -> Z.
  Variable to_df : B -> result (list hrow).
  Variable to_oneline : B -> result orow.
  Variable gen : G -> Z -> G * result B.
  Variable evo : G -> B -> G * B * Z * list wcall * option exn.
  Variable fail : B -> exn -> B.
  Variable warned : B -> B.
  Variable fits_h : list hrow -> list hrow -> bool.
  Variable fits_o : list orow -> list orow -> bool.

  Notation world := (PopModel.world B G).
  Notation World := (PopModel.World B G).
  Notation heap := (PopModel.heap B G).
  Notation rng := (PopModel.rng B G).
  Notation man := (PopModel.man B G).
  Notation warn := (PopModel.warn B G).
  Notation alarm := (PopModel.alarm B G).
  Notation files := (PopModel.files B G).
  Notation names := (PopModel.names B G).
  Notation breakdown := (PopModel.breakdown B b_index to_df to_oneline).
  Notation save := (PopModel.save B G to_df to_oneline fits_h fits_o).
  Notation dump := (PopModel.dump B G b_index to_df to_oneline fits_h fits_o).
  Notation one_binary := (PopModel.one_binary B G b_index to_df to_oneline gen evo fail warned fits_h fits_o).
  Notation all_binaries := (PopModel.all_binaries B G b_index to_df to_oneline gen evo fail warned fits_h fits_o).
  Notation leftover := (PopModel.leftover B G b_index to_df to_oneline fits_h fits_o).
  Notation safe_evolve := (PopModel.safe_evolve B G b_index to_df to_oneline gen evo fail warned fits_h fits_o).
  Notation outcome := (PopSpec.outcome B fail warned).
  Notation lived := (PopSpec.lived B G gen evo fail warned).
  Notation tabulated := (PopSpec.tabulated B to_df to_oneline).
  Notation keeps_index := (PopSpec.keeps_index B G b_index evo fail warned).
  Notation file_of := (PopSpec.file_of to_df to_oneline).
  Notation convertible := (PopLoop.convertible B to_df to_oneline).
  Notation inv := (PopLoop.inv B G b_index to_df to_oneline).
  Notation holds := (PopLoop.holds B b_index to_df to_oneline).
  Notation fits_empty := (PopLoop.fits_empty fits_h fits_o).

  Definition ready (w : world) : Prop :=
    man w = empty_mgr /\ idle (warn w) /\ (0 < length (regs (warn w)))%nat /\ no_errors (filters (warn w)).
  Definition start (w : world) : world := World (heap w) (rng w) (man w) (warn w) (alarm w) (files w) [].

  Lemma run_loop : forall o w indices bs g', fits_empty -> keeps_index -> ready w ->
    lived (rng w) indices bs g' -> Forall convertible bs ->
    exists w1, all_binaries o (length indices) 0 indices (start w) = (w1, None) /\ rng w1 = g'
      /\ inv o (length indices) (start w) bs w1.
  Proof.
    intros o w indices bs g' F K (M & I & L & NE) Lv C.
    pose proof (inv_start B G b_index to_df to_oneline o (length indices) (start w) M I L eq_refl) as I0.
    destruct (inv_loop B G b_index to_df to_oneline gen evo fail warned fits_h fits_o o (length indices) (start w)
               indices [] (start w) bs g' F K NE I0 Lv C) as (w1 & E & R & I1).
    exists w1. auto.
  Qed.

  Lemma lived_length : forall g l bs g', lived g l bs g' -> length bs = length l.
  Proof. induction 1; cbn; auto. Qed.

  Lemma leftover_needed : forall o h m pend, holds o h m pend ->
    (length (m_bins m) =? 0)%nat && (length (m_hdfs m) =? 0)%nat = (length pend =? 0)%nat.
  Proof.
    intros o h m pend H. unfold PopLoop.holds in H. destruct (op_breakdown o).
    - destruct H as (hs & os & T & ->).
      destruct (tabulated_lengths _ _ _ _ _ _ T) as [L _]. cbn. rewrite L. reflexivity.
    - destruct H as (pre & _ & ->). cbn. rewrite seq_length, andb_true_r. reflexivity.
  Qed.

  (** The batch times of a run of [n] binaries. *)
  Definition times o n := filter (dumps o n) (seq 0 n).

  Lemma batches_ok : forall o w indices bs g', fits_empty -> keeps_index -> ready w -> op_ram o = true ->
    lived (rng w) indices bs g' -> Forall convertible bs ->
    exists w1 w2 groups rest,
      all_binaries o (length indices) 0 indices (start w) = (w1, None) /\ leftover o w1 = (w2, None)
      /\ heap w2 = (heap w ++ bs)%list /\ rng w2 = g' /\ man w2 = empty_mgr
      /\ undisturbed (warn w) (warn w2) /\ (op_verbose o = false -> emitted (warn w2) = emitted (warn w))
      /\ (bs <> [] -> alarm w2 = 0%Z)
      /\ concat (groups ++ rest) = bs
      /\ ends 0 groups = map Datatypes.S (times o (length indices))
      /\ rest = (match concat rest with [] => [] | _ => [concat rest] end)
      /\ names w2 = (map (fun j => batch_name j (op_rank o)) (times o (length indices))
                     ++ map (fun _ => leftover_name (op_rank o)) rest)%list
      /\ NoDup (names w2)
      /\ Forall2 (fun p g => exists c, dget String.eqb (files w2) p = Some c /\ file_of c g) (names w2) (groups ++ rest)
      /\ (forall p, ~ In p (names w2) -> dget String.eqb (files w2) p = dget String.eqb (files w) p).
  Proof.
    intros o w indices bs g' F K R Ram Lv C.
    destruct (run_loop o w indices bs g' F K R Lv C) as (w1 & E1 & R1 & [Hh Hw Hr Ha He (groups & pend & Hd & Hn & Hends & Hfiles & Hhold) Hothers]).
    rewrite (lived_length _ _ _ _ Lv) in Hn, Hends. fold (times o (length indices)) in Hn, Hends.
    cbn [start PopModel.heap PopModel.warn PopModel.files] in *.
    assert (ND1 : NoDup (names w1)).
    { rewrite Hn. apply NoDup_map_inj.
      - intros a b. apply batch_name_inj.
      - apply NoDup_filter, seq_NoDup. }
    exists w1. unfold leftover. rewrite (leftover_needed _ _ _ _ Hhold), Ram, andb_true_r.
    destruct pend as [|x pend].
    - exists w1, groups, []. cbn [length Nat.eqb negb]. rewrite !app_nil_r in *.
      assert (M1 : man w1 = empty_mgr).
      { unfold PopLoop.holds in Hhold. destruct (op_breakdown o).
        - destruct Hhold as (hs & os & T & ->). inversion T; subst. reflexivity.
        - destruct Hhold as (pre & _ & ->). reflexivity. }
      cbn [map concat] in *. rewrite ?app_nil_r in *. auto 20.
    - cbn [length Nat.eqb negb].
      assert (CP : Forall convertible (x :: pend)).
      { rewrite <- Hd in C. apply Forall_app in C. apply C. }
      destruct (tabulated_exists _ _ _ _ CP) as (hs & os & T).
      destruct (dump_ok B G b_index to_df to_oneline fits_h fits_o o w1 (leftover_name (op_rank o)) (x :: pend) hs os Hhold T)
        as (c & Ed & Fc); [discriminate|apply F|apply F|].
      rewrite Ed. eexists. exists groups, [x :: pend]. split; [exact E1|]. split; [reflexivity|].
      cbn [PopModel.heap PopModel.rng PopModel.man PopModel.warn PopModel.alarm PopModel.files PopModel.names].
      assert (NL : ~ In (leftover_name (op_rank o)) (names w1)).
      { rewrite Hn. intro I. apply in_map_iff in I. destruct I as (k & Ek & _).
        exact (batch_not_leftover _ _ _ Ek). }
      split; [exact Hh|]. split; [exact R1|]. split; [reflexivity|]. split; [exact Hw|]. split; [exact He|].
      split; [exact Ha|]. split; [rewrite concat_app; cbn [concat]; rewrite app_nil_r; exact Hd|].
      split; [exact Hends|]. split; [cbn; rewrite app_nil_r; reflexivity|].
      split; [rewrite Hn; reflexivity|]. split; [|split].
      + apply (Permutation_NoDup (Permutation_cons_append (names w1) (leftover_name (op_rank o)))).
        constructor; assumption.
      + apply Forall2_app.
        * clear - Hfiles NL. induction Hfiles as [|p g ps gs (c0 & E0 & F0) _ IH]; constructor.
          -- exists c0. split; [|exact F0]. rewrite dget_write.
             destruct (String.eqb_spec p (leftover_name (op_rank o))) as [->|]; [|exact E0].
             exfalso. apply NL. left. reflexivity.
          -- apply IH. intro. apply NL. right. assumption.
        * constructor; [|constructor]. exists c. split; [|exact Fc].
          rewrite dget_write, String.eqb_refl. reflexivity.
      + intros p Np. rewrite dget_write. destruct (String.eqb_spec p (leftover_name (op_rank o))) as [->|].
        * exfalso. apply Np. apply in_or_app. right. left. reflexivity.
        * apply Hothers. intro I. apply Np. apply in_or_app. left. exact I.
  Qed.

  (** The whole run with RAM optimisation. *)
  Lemma groups_tabs : forall fs ps groups,
    Forall2 (fun p g => exists c, dget String.eqb fs p = Some c /\ file_of c g) ps groups ->
    exists tabs, Forall2 (has_tables fs) ps (map (fun t => (concat (fst t), snd t)) tabs)
      /\ Forall2 (fun g t => tabulated g (fst t) (snd t)) groups tabs.
  Proof.
    intros fs ps groups H. induction H as [|p g ps gs (c & E & hs & os & t & rows & T & -> & _) _ IH].
    - exists []. repeat split; constructor.
    - destruct IH as (tabs & F & T'). exists ((hs, os) :: tabs). cbn [map fst snd]. split.
      + constructor; [|exact F]. exists (Some t). exact E.
      + constructor; [exact T|exact T'].
  Qed.
  Lemma tabs_concat : forall groups tabs, Forall2 (fun g t => tabulated g (fst t) (snd t)) groups tabs ->
    tabulated (concat groups) (concat (map fst tabs)) (concat (map snd tabs)).
  Proof.
    induction 1; cbn [map concat]; [constructor|]. apply tabulated_app; assumption.
  Qed.
  Lemma concat_map_concat : forall A (l : list (list (list A))), concat (map (@concat A) l) = concat (concat l).
  Proof using Type. induction l; cbn; [reflexivity|]. rewrite concat_app. congruence. Qed.

  (** Every row of a table carries the index of its binary, and indices are all different. *)
  Definition indexed (bs : list B) : Prop :=
    (forall x h r, In x bs -> to_df x = Ok h -> In r h -> h_index r = b_index x) /\ NoDup (map b_index bs).

  Lemma tabulated_rows : forall bs hs os, tabulated bs hs os -> forall r, In r (concat hs) ->
    exists x h, In x bs /\ to_df x = Ok h /\ In r h.
  Proof.
    induction 1 as [|x bs h hs o os E1 E2 T IH]; intros r Hr; cbn in Hr; [destruct Hr|].
    apply in_app_or in Hr. destruct Hr as [Hr|Hr].
    - exists x, h. split; [left; reflexivity|]. auto.
    - destruct (IH r Hr) as (y & k & A & C & D). exists y, k. split; [right; exact A|]. auto.
  Qed.
  Lemma tabulated_split : forall a b hs os, tabulated (a ++ b) hs os ->
    exists h1 o1 h2 o2, hs = (h1 ++ h2)%list /\ os = (o1 ++ o2)%list /\ tabulated a h1 o1 /\ tabulated b h2 o2.
  Proof.
    induction a as [|x a IH]; intros b hs os T; cbn in T.
    - exists [], [], hs, os. repeat split; auto. constructor.
    - inversion T as [|? ? h hs' o os' E1 E2 T']; subst.
      destruct (IH _ _ _ T') as (h1 & o1 & h2 & o2 & -> & -> & T1 & T2).
      exists (h :: h1), (o :: o1), h2, o2. repeat split; auto. constructor; auto.
  Qed.
  Lemma first_rows_groups : forall groups tabs,
    Forall2 (fun g t => tabulated g (fst t) (snd t)) groups tabs -> indexed (concat groups) ->
    concat (map (fun t => first_rows [] (concat (fst t))) tabs) = first_rows [] (concat (concat (map fst tabs))).
  Proof.
    intros groups tabs H. induction H as [|g [h o] gs tabs T Ts IH]; intros I; [reflexivity|].
    cbn [map concat fst snd] in *. rewrite concat_app. destruct I as [I1 I2]. rewrite map_app in I2.
    rewrite first_rows_disjoint.
    - f_equal. apply IH. split.
      + intros x h0 r Hx. apply I1. apply in_or_app. right. exact Hx.
      + clear - I2. induction (map b_index g) as [|a l IH]; [exact I2|]. inversion I2. auto.
    - pose proof (tabs_concat _ _ Ts) as TT. intros r s Hr Hs E.
      destruct (tabulated_rows _ _ _ T r Hr) as (x & hx & X1 & X2 & X3).
      destruct (tabulated_rows _ _ _ TT s Hs) as (y & hy & Y1 & Y2 & Y3).
      assert (Ex : h_index r = b_index x) by (apply (I1 x hx); auto; apply in_or_app; auto).
      assert (Ey : h_index s = b_index y) by (apply (I1 y hy); auto; apply in_or_app; auto).
      assert (EE : b_index x = b_index y) by congruence.
      apply (in_map b_index) in X1. apply (in_map b_index) in Y1. rewrite EE in X1.
      clear - I2 X1 Y1. induction (map b_index g) as [|a l IH]; [destruct X1|].
      inversion I2 as [|? ? Na ND]; subst. destruct X1 as [->|X1]; [|auto].
      apply Na. apply in_or_app. right. exact Y1.
  Qed.

  Lemma run_ram : forall o w indices bs g', keeps_index -> ready w -> op_ram o = true ->
    (forall a b, fits_h a b = true) -> (forall a b, fits_o a b = true) ->
    lived (rng w) indices bs g' -> Forall convertible bs -> indices <> [] ->
    exists w' hs os t, safe_evolve o indices w = (w', None)
      /\ heap w' = (heap w ++ bs)%list /\ rng w' = g' /\ man w' = empty_mgr /\ alarm w' = 0%Z
      /\ undisturbed (warn w) (warn w') /\ (op_verbose o = false -> emitted (warn w') = emitted (warn w))
      /\ tabulated bs hs os
      /\ dget String.eqb (files w') (combined_name (op_rank o)) = Some (FC (Some (concat hs)) (Some os) (Some t))
      /\ t_systems t = Z.of_nat (length bs)
      /\ (indexed bs -> exists rows, initial_rows (concat hs) rows /\ totals_of t rows (Z.of_nat (length bs)))
      /\ (forall p, p <> combined_name (op_rank o) ->
           (forall j, (j < length bs)%nat -> p <> batch_name j (op_rank o)) -> p <> leftover_name (op_rank o) ->
           dget String.eqb (files w') p = dget String.eqb (files w) p)
      /\ (forall p, In p (names w') -> dget String.eqb (files w') p = None).
  Proof.
    intros o w indices bs g' K R Ram F1 F2 Lv C NE.
    assert (F : fits_empty) by (split; auto).
    destruct (batches_ok o w indices bs g' F K R Ram Lv C) as
      (w1 & w2 & groups & rest & E1 & E2 & Hh & Hr & Hm & Hw & He & Ha & Hc & Hends & Hrest & Hn & HND & Hf & Ho).
    assert (Lb := lived_length _ _ _ _ Lv).
    assert (NB : bs <> []) by (intros ->; destruct indices; [congruence|discriminate]).
    destruct (groups_tabs _ _ _ Hf) as (tabs & HT & TT).
    pose proof (tabs_concat _ _ TT) as TA. rewrite Hc in TA.
    set (ft := map (fun t : list (list hrow) * list orow => (concat (fst t), snd t)) tabs) in *.
    assert (NN : names w2 <> []).
    { intro Z. rewrite Z in Hf. inversion Hf as [Hz|]. apply NB. rewrite <- Hc.
      match goal with H : [] = (groups ++ rest)%list |- _ => rewrite <- H | H : (groups ++ rest)%list = [] |- _ => rewrite H end.
      reflexivity. }
    assert (NC : ~ In (combined_name (op_rank o)) (names w2)).
    { rewrite Hn. intro I. apply in_app_or in I. destruct I as [I|I]; apply in_map_iff in I; destruct I as (k & Ek & _).
      - exact (batch_not_combined _ _ _ Ek).
      - exact (leftover_not_combined _ _ Ek). }
    destruct (combine_good B G fits_h fits_o w2 (combined_name (op_rank o)) (names w2) ft NN HND NC HT)
      as (w' & t & E3 & Ew & Ec & Et & Ed & Eo); [apply all_fit_always; auto|].
    assert (M1 : concat (map fst ft) = concat (concat (map fst tabs))).
    { unfold ft. rewrite map_map. cbn [fst]. rewrite <- concat_map_concat, map_map. reflexivity. }
    assert (M2 : concat (map snd ft) = concat (map snd tabs)).
    { unfold ft. rewrite map_map. reflexivity. }
    assert (LO : length (concat (map snd ft)) = length bs).
    { rewrite M2. destruct (tabulated_lengths _ _ _ _ _ _ TA) as [_ L]. exact L. }
    exists w', (concat (map fst tabs)), (concat (map snd tabs)), t.
    assert (Ehp : heap w' = heap w2) by (rewrite Ew; reflexivity).
    assert (Erg : rng w' = rng w2) by (rewrite Ew; reflexivity).
    assert (Emn : man w' = man w2) by (rewrite Ew; reflexivity).
    assert (Eal : alarm w' = alarm w2) by (rewrite Ew; reflexivity).
    assert (Ewn : warn w' = warn w2) by (rewrite Ew; reflexivity).
    assert (Enm : names w' = names w2) by (rewrite Ew; reflexivity).
    rewrite Ehp, Erg, Emn, Eal, Ewn, Enm. rewrite LO in Et.
    split. { unfold safe_evolve. unfold start in E1. rewrite E1, E2, Ram. exact E3. }
    split; [exact Hh|]. split; [exact Hr|]. split; [exact Hm|]. split; [auto|]. split; [exact Hw|].
    split; [exact He|]. split; [exact TA|].
    split; [rewrite Ec, M1, M2; reflexivity|].
    split; [apply Et|]. split; [|split].
    - intro I. exists (first_rows [] (concat (concat (map fst tabs)))). split; [apply first_rows_ok|].
      rewrite <- Hc in I. rewrite <- (first_rows_groups _ _ TT I).
      unfold ft in Et. rewrite map_map in Et. exact Et.
    - intros p P1 P2 P3. rewrite Eo; auto.
      + apply Ho. rewrite Hn. intro I. apply in_app_or in I. destruct I as [I|I]; apply in_map_iff in I; destruct I as (k & Ek & Ik).
        * apply (P2 k); [|auto]. unfold times in Ik. apply filter_In in Ik. destruct Ik as [Ik _]. apply in_seq in Ik. lia.
        * congruence.
      + rewrite Hn. intro I. apply in_app_or in I. destruct I as [I|I]; apply in_map_iff in I; destruct I as (k & Ek & Ik).
        * apply (P2 k); [|auto]. unfold times in Ik. apply filter_In in Ik. destruct Ik as [Ik _]. apply in_seq in Ik. lia.
        * congruence.
    - exact Ed.
  Qed.

  (** No binaries at all. *)
  Lemma run_empty : forall o w, ready w -> op_ram o = true ->
    snd (safe_evolve o [] w) = Some IndexError /\ files (fst (safe_evolve o [] w)) = files w.
  Proof.
    intros o w (M & _) Ram. unfold safe_evolve, PopModel.all_binaries, leftover. cbn [length PopModel.man].
    rewrite M. cbn. rewrite Ram. split; reflexivity.
  Qed.

  (** ** Without RAM optimisation *)
  Lemma run_keep : forall o w indices bs g', keeps_index -> ready w -> op_ram o = false ->
    fits_empty -> lived (rng w) indices bs g' -> Forall convertible bs ->
    op_breakdown o = false ->
    exists w', safe_evolve o indices w = (w', None)
      /\ heap w' = (heap w ++ bs)%list /\ rng w' = g' /\ undisturbed (warn w) (warn w')
      /\ man w' = Mgr (seq (length (heap w)) (length bs)) (map (fun x => IInt (b_index x)) bs) [] []
      /\ (forall p, dget String.eqb (files w') p = dget String.eqb (files w) p).
  Proof.
    intros o w indices bs g' K R Ram F Lv C BD.
    destruct (run_loop o w indices bs g' F K R Lv C) as (w1 & E1 & R1 & [Hh Hw Hr Ha He (groups & pend & Hd & Hn & Hends & Hfiles & Hhold) Hothers]).
    assert (T0 : filter (dumps o (length indices)) (seq 0 (length bs)) = []).
    { clear - Ram. induction (seq 0 (length bs)); cbn; [reflexivity|]. unfold dumps at 1. rewrite Ram. exact IHl. }
    rewrite T0 in Hn, Hends. cbn in Hn, Hends. destruct groups; [|discriminate]. cbn in Hd. subst pend.
    exists w1. unfold safe_evolve. unfold start in E1. rewrite E1.
    unfold leftover. rewrite Ram, andb_false_r, BD.
    split; [reflexivity|]. split; [exact Hh|]. split; [exact R1|]. split; [exact Hw|].
    unfold PopLoop.holds in Hhold. rewrite BD in Hhold. destruct Hhold as (pre & Ep & ->).
    cbn [start PopModel.heap] in Hh. rewrite Hh in Ep. apply app_inv_tail in Ep. subst pre. split; [reflexivity|].
    intro p. apply Hothers. rewrite Hn. auto.
  Qed.

  Lemma run_save : forall o w indices bs g', keeps_index -> ready w -> op_ram o = false ->
    fits_empty -> lived (rng w) indices bs g' -> Forall convertible bs -> indices <> [] ->
    op_breakdown o = true ->
    exists w' c, safe_evolve o indices w = (w', None)
      /\ heap w' = (heap w ++ bs)%list /\ rng w' = g' /\ undisturbed (warn w) (warn w')
      /\ dget String.eqb (files w') (combined_name (op_rank o)) = Some c /\ file_of c bs
      /\ (forall p, p <> combined_name (op_rank o) -> dget String.eqb (files w') p = dget String.eqb (files w) p).
  Proof.
    intros o w indices bs g' K R Ram F Lv C NE BD.
    destruct (run_loop o w indices bs g' F K R Lv C) as (w1 & E1 & R1 & [Hh Hw Hr Ha He (groups & pend & Hd & Hn & Hends & Hfiles & Hhold) Hothers]).
    assert (T0 : filter (dumps o (length indices)) (seq 0 (length bs)) = []).
    { clear - Ram. induction (seq 0 (length bs)); cbn; [reflexivity|]. unfold dumps at 1. rewrite Ram. exact IHl. }
    rewrite T0 in Hn, Hends. cbn in Hn, Hends. destruct groups; [|discriminate]. cbn in Hd. subst pend.
    assert (Lb := lived_length _ _ _ _ Lv).
    assert (NB : bs <> []) by (intros ->; destruct indices; [congruence|discriminate]).
    destruct (tabulated_exists _ _ _ _ C) as (hs & os & T).
    eexists. eexists. unfold safe_evolve. unfold start in E1. rewrite E1.
    unfold leftover. rewrite Ram, andb_false_r, BD.
    rewrite (save_ok B G b_index to_df to_oneline fits_h fits_o o w1 _ bs hs os Hhold T NB) by apply F.
    split; [reflexivity|]. cbn [write set_files PopModel.heap PopModel.rng PopModel.warn PopModel.files].
    split; [exact Hh|]. split; [exact R1|]. split; [exact Hw|].
    split; [rewrite dget_write, String.eqb_refl; reflexivity|].
    split; [apply file_of_tables; exact T|].
    intros p Np. rewrite dget_write. destruct (String.eqb_spec p (combined_name (op_rank o))); [contradiction|].
    apply Hothers. rewrite Hn. auto.
  Qed.

  (** ** Failing conversions *)
  (** Breaking a binary down, in the situation of the loop: it is the last one appended. *)
  Lemma breakdown_cases : forall h m b x, nth_error h b = Some x -> In b (m_bins m) ->
    aligned B b_index h m ->
    (forall b' y, In b' (m_bins m) -> nth_error h b' = Some y -> b_index y = b_index x -> b' = b) ->
    (forall t1 t2, to_df x = Ok t1 -> to_oneline x = Ok t2 ->
       exists bs is_, breakdown h m b = Mgr bs is_ (m_hdfs m ++ [t1]) (m_odfs m ++ [t2])
         /\ Permutation (m_bins m) (b :: bs) /\ aligned B b_index h (breakdown h m b))
    /\ (forall e, to_df x = Raise e -> breakdown h m b = m)
    /\ (forall t1 e, to_df x = Ok t1 -> to_oneline x = Raise e ->
         breakdown h m b = Mgr (m_bins m) (m_idx m) (m_hdfs m ++ [t1]) (m_odfs m)).
  Proof.
    intros h m b x E I A U. unfold breakdown. rewrite E. split; [|split].
    - intros t1 t2 E1 E2. rewrite E1, E2. cbn [m_bins m_idx m_hdfs m_odfs].
      destruct (remove_aligned B b_index h (Mgr (m_bins m) (m_idx m) (m_hdfs m ++ [t1]) (m_odfs m ++ [t2])) b x)
        as (m' & R1 & A' & L & H1 & H2); auto.
      rewrite R1. cbn [fst]. destruct m' as [bs' is' hd' od']. cbn in *. subst hd' od'.
      exists bs', is'. split; [reflexivity|]. split; [|exact A'].
      apply (list_remove_perm _ _ Nat.eqb_spec) in L. exact L.
    - intros e ->. reflexivity.
    - intros t1 e -> ->. reflexivity.
  Qed.
  (** As soon as one binary stays in the manager, the tables already made are not reported. *)
  Lemma kept_hides : forall h m, m_bins m <> [] ->
    PopModel.mgr_to_df B to_df h m = PopModel.mgr_to_df B to_df h (clear_dfs m)
    /\ PopModel.mgr_to_oneline B to_oneline h m = PopModel.mgr_to_oneline B to_oneline h (clear_dfs m).
  Proof.
    intros h [bs is_ hd od] N. cbn in N. destruct bs as [|b bs]; [congruence|].
    unfold PopModel.mgr_to_df, PopModel.mgr_to_oneline. cbn [clear_dfs m_bins m_hdfs m_odfs].
    split; reflexivity.
  Qed.
  (** And if its conversion fails again, saving fails. *)
  Lemma save_fails : forall w p b x e, In b (m_bins (man w)) -> nth_error (heap w) b = Some x ->
    (to_df x = Raise e \/ to_oneline x = Raise e) -> exists e', snd (save w p) = Some e'.
  Proof.
    intros w p b x e I E H. unfold save.
    assert (TF : forall A (f : B -> result A) bs, In b bs -> f x = Raise e ->
             exists e', tables B f (heap w) bs = Raise e').
    { intros A f bs. induction bs as [|c bs IH]; intros Ib Ef; [destruct Ib|]. cbn [tables].
      destruct Ib as [->|Ib].
      - rewrite E, Ef. cbn. eauto.
      - destruct (match nth_error (heap w) c with Some x => f x | None => Raise AttributeError end); cbn; [|eauto].
        destruct (IH Ib Ef) as (e' & ->). cbn. eauto. }
    assert (NB : exists c bs, m_bins (man w) = c :: bs) by (destruct (m_bins (man w)); [destruct I|eauto]).
    destruct NB as (c & bs & EB).
    unfold PopModel.mgr_to_df, PopModel.mgr_to_oneline. rewrite EB in *.
    destruct H as [H|H].
    - destruct (TF _ to_df _ I H) as (e' & ->). cbn. eauto.
    - destruct (tables B to_df (heap w) (c :: bs)); cbn [rbind]; [|cbn; eauto].
      destruct (TF _ to_oneline _ I H) as (e' & ->). cbn. eauto.
  Qed.

  (** ** Failures in evolution never stop the loop *)
  Lemma loop_goes_on : forall o n indices j w bs g', op_ram o = false ->
    idle (warn w) -> (0 < length (regs (warn w)))%nat -> no_errors (filters (warn w)) ->
    lived (rng w) indices bs g' ->
    exists w', all_binaries o n j indices w = (w', None) /\ heap w' = (heap w ++ bs)%list /\ rng w' = g'
      /\ undisturbed (warn w) (warn w') /\ (indices <> [] -> alarm w' = 0%Z) /\ files w' = files w.
  Proof.
    intros o n indices. induction indices as [|i indices IH]; intros j w bs g' Ram I L NE Lv.
    - inversion Lv; subst. exists w. rewrite app_nil_r. repeat split; auto; try apply I. congruence.
    - inversion Lv as [|g i' l g1 x g2 x2 al calls ex bs' g3 Eg Ee P Lv' E1 E2 E3 E4]; subst.
      destruct (one_evolved B G b_index to_df to_oneline gen evo fail warned fits_h fits_o o n j i w g1 x g2 x2 al calls ex)
        as (s4 & U & L4 & _ & E); auto.
      assert (D : dumps o n j = false) by (unfold dumps; rewrite Ram; reflexivity).
      rewrite D in E. cbv zeta in E. cbn [PopModel.all_binaries]. rewrite E.
      match goal with |- context [PopModel.all_binaries B G b_index to_df to_oneline gen evo fail warned fits_h fits_o o n _ indices ?w1] =>
        set (w2 := w1) end.
      assert (W : heap w2 = (heap w ++ [outcome x2 calls ex])%list /\ rng w2 = g2 /\ warn w2 = s4
                  /\ alarm w2 = 0%Z /\ files w2 = files w).
      { unfold w2. destruct (op_breakdown o); repeat split; reflexivity. }
      destruct W as (W1 & W2 & W3 & W4 & W5).
      destruct U as (U1 & U2 & U3).
      destruct (IH (Datatypes.S j) w2 bs' g') as (w' & E' & H1 & H2 & H3 & H4 & H5); auto.
      { rewrite W3. exact U1. }
      { rewrite W3. exact L4. }
      { rewrite W3, U2. exact NE. }
      { rewrite W2. exact Lv'. }
      exists w'. split; [exact E'|]. split; [rewrite H1, W1, <- app_assoc; reflexivity|].
      split; [exact H2|]. split; [|split].
      + destruct H3 as (A1 & A2 & A3). rewrite W3 in A2, A3. split; [exact A1|]. split; congruence.
      + intros _. destruct indices; [|apply H4; discriminate].
        cbn in E'. assert (w' = w2) as -> by congruence. exact W4.
      + congruence.
  Qed.
End Run.
