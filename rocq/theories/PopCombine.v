From Coq Require Import Ascii String List Bool ZArith QArith Lia Permutation.
From Verif Require Import PyBase PyList WarnModel WarnSpec WarnProofs PopModel PopSpec PopProofs PopLoop.
Import ListNotations.
Local Open Scope string_scope.

(** ** Deleting files *)
Lemma dget_filter : forall A (fs : list (string * A)) p q,
  dget String.eqb (filter (fun kv => negb (String.eqb p (fst kv))) fs) q
  = if String.eqb q p then None else dget String.eqb fs q.
Proof.
  intros A fs p q. induction fs as [|[k v] fs IH]; cbn.
  - destruct (String.eqb q p); reflexivity.
  - destruct (String.eqb_spec p k) as [->|N]; cbn.
    + rewrite IH. destruct (String.eqb q k); reflexivity.
    + rewrite IH. destruct (String.eqb_spec q k) as [Ek|Ek]; [|reflexivity].
      destruct (String.eqb_spec q p); [congruence|reflexivity].
Qed.
Lemma remove_files_ok : forall ps fs, NoDup ps -> (forall p, In p ps -> dget String.eqb fs p <> None) ->
  exists fs', remove_files fs ps = (fs', None)
    /\ forall q, dget String.eqb fs' q = if inb String.eqb q ps then None else dget String.eqb fs q.
Proof.
  induction ps as [|p ps IH]; intros fs ND H; cbn [remove_files].
  - exists fs. auto.
  - inversion ND as [|? ? Np ND']; subst.
    destruct (dget String.eqb fs p) eqn:E; [|exfalso; apply (H p); [left|]; auto].
    destruct (IH (filter (fun kv => negb (String.eqb p (fst kv))) fs) ND') as (fs' & E' & Q).
    { intros q Hq. rewrite dget_filter. destruct (String.eqb_spec q p) as [->|]; [contradiction|].
      apply H. right. exact Hq. }
    exists fs'. split; [exact E'|]. intro q. rewrite Q, dget_filter. cbn [inb].
    destruct (String.eqb_spec q p) as [->|]; destruct (inb String.eqb _ ps); reflexivity.
Qed.
(** Whatever happens, only listed files disappear and none changes. *)
Lemma remove_files_only : forall ps fs q,
  dget String.eqb (fst (remove_files fs ps)) q = dget String.eqb fs q
  \/ (In q ps /\ dget String.eqb (fst (remove_files fs ps)) q = None).
Proof.
  induction ps as [|p ps IH]; intros fs q; cbn [remove_files]; [left; reflexivity|].
  destruct (dget String.eqb fs p) eqn:E; [|left; reflexivity].
  destruct (IH (filter (fun kv => negb (String.eqb p (fst kv))) fs) q) as [H|[H1 H2]].
  - rewrite dget_filter in H. destruct (String.eqb_spec q p) as [->|]; [|left; exact H].
    right. split; [left; reflexivity|exact H].
  - right. split; [right; exact H1|exact H2].
Qed.

(** ** Initial rows of tables with different indices *)
Lemma first_rows_ext : forall l s1 s2, (forall r, In r l -> (In (h_index r) s1 <-> In (h_index r) s2)) ->
  first_rows s1 l = first_rows s2 l.
Proof.
  induction l as [|x l IH]; intros s1 s2 H; cbn [first_rows]; [reflexivity|].
  assert (E : inb Z.eqb (h_index x) s1 = inb Z.eqb (h_index x) s2).
  { specialize (H x (or_introl eq_refl)).
    destruct (inb_spec Z.eqb_spec (h_index x) s1), (inb_spec Z.eqb_spec (h_index x) s2); tauto. }
  rewrite E. destruct (inb Z.eqb (h_index x) s2).
  - apply IH. intros r Hr. apply H. right. exact Hr.
  - f_equal. apply IH. intros r Hr. cbn. specialize (H r (or_intror Hr)). tauto.
Qed.
Lemma first_rows_app : forall a b s,
  first_rows s (a ++ b) = (first_rows s a ++ first_rows (map h_index a ++ s) b)%list.
Proof.
  induction a as [|x a IH]; intros b s; cbn [app map first_rows]; [reflexivity|].
  destruct (inb_spec Z.eqb_spec (h_index x) s) as [I|I].
  - rewrite IH. f_equal. apply first_rows_ext. intros r _. cbn. rewrite in_app_iff.
    split; [tauto|]. intros [<-|H]; tauto.
  - cbn [app]. f_equal. rewrite IH. f_equal. apply first_rows_ext. intros r _. cbn. rewrite !in_app_iff.
    cbn. tauto.
Qed.
Lemma first_rows_disjoint : forall a b, (forall r s, In r a -> In s b -> h_index r <> h_index s) ->
  first_rows [] (a ++ b) = (first_rows [] a ++ first_rows [] b)%list.
Proof.
  intros a b D. rewrite first_rows_app, app_nil_r. f_equal. apply first_rows_ext.
  intros r Hr. split; [|intros []]. intro H. apply in_map_iff in H. destruct H as (s & E & Hs).
  apply (D s r); auto.
Qed.

Lemma totals_add : forall t R n hs k, totals_of t R n ->
  totals_of (Totals ((t_single t + mass_single hs) + (t_binaries t + mass_binaries hs))
               (t_single t + mass_single hs) (t_binaries t + mass_binaries hs) (t_systems t + k))
            (R ++ first_rows [] hs) (n + k).
Proof.
  intros t R n hs k (A & C & D & E). destruct (mass_split (first_rows [] hs)) as (P & Q & _).
  destruct (mass_split R) as (_ & _ & S1). destruct (mass_split (first_rows [] hs)) as (_ & _ & S2).
  unfold totals_of, mass_single, mass_binaries. cbn [t_mass t_single t_binaries t_systems].
  rewrite !filter_app, !total_mass_app, P, Q, C, D, S1, S2, E. repeat split; ring.
Qed.

Lemma has_tables_write : forall fs ps tabs target c, Forall2 (has_tables fs) ps tabs -> ~ In target ps ->
  Forall2 (has_tables (dset String.eqb fs target c)) ps tabs.
Proof.
  intros fs ps tabs target c H NT. induction H as [|p t ps ts (m & E) _ IH]; constructor.
  - exists m. rewrite dget_write.
    destruct (String.eqb_spec p target) as [->|]; [exfalso; apply NT; left; reflexivity|exact E].
  - apply IH. intro. apply NT. right. assumption.
Qed.
Lemma has_tables_exist : forall fs ps tabs, Forall2 (has_tables fs) ps tabs ->
  forall p, In p ps -> dget String.eqb fs p <> None.
Proof.
  intros fs ps tabs H p Hp. induction H as [|q t1 qs ts (m & E) _ IH]; [destruct Hp|].
  destruct Hp as [<-|Hp]; [congruence|auto].
Qed.

Section Combine.
  Variables B G : Type.
  Variable fits_h : list hrow -> list hrow -> bool.
  Variable fits_o : list orow -> list orow -> bool.
  Notation world := (PopModel.world B G).
  Notation files := (PopModel.files B G).
  Notation combine_one := (PopModel.combine_one fits_h fits_o).
  Notation combine_saved_files := (PopModel.combine_saved_files B G fits_h fits_o).

  Lemma combine_fold : forall ps fs tabs s R,
    Forall2 (has_tables fs) ps tabs -> all_fit fits_h fits_o (s_hist s) (s_one s) tabs ->
    totals_of (s_totals s) R (Z.of_nat (length (s_one s))) ->
    exists t, fold_left (fun s f => combine_one s (dget String.eqb fs f)) ps s
              = Store (s_hist s ++ concat (map fst tabs)) (s_one s ++ concat (map snd tabs)) t
      /\ totals_of t (R ++ concat (map (fun t => first_rows [] (fst t)) tabs))
           (Z.of_nat (length (s_one s ++ concat (map snd tabs)))).
  Proof.
    intros ps fs tabs s R H. revert s R. induction H as [|p [h o] ps tabs (m & E) _ IH]; intros s R F T.
    - exists (s_totals s). cbn. rewrite !app_nil_r. destruct s; auto.
    - cbn [all_fit] in F. destruct F as (F1 & F2 & F3). cbn [fold_left fst snd] in *. rewrite E.
      assert (E1 : combine_one s (Some (FC (Some h) (Some o) m)) = Store (s_hist s ++ h) (s_one s ++ o)
         (Totals (t_single (s_totals s) + mass_single h + (t_binaries (s_totals s) + mass_binaries h))
                 (t_single (s_totals s) + mass_single h) (t_binaries (s_totals s) + mass_binaries h)
                 (t_systems (s_totals s) + Z.of_nat (length o)))).
      { unfold combine_one. rewrite F1, F2. reflexivity. }
      rewrite E1.
      edestruct (IH (Store (s_hist s ++ h) (s_one s ++ o)
         (Totals (t_single (s_totals s) + mass_single h + (t_binaries (s_totals s) + mass_binaries h))
                 (t_single (s_totals s) + mass_single h) (t_binaries (s_totals s) + mass_binaries h)
                 (t_systems (s_totals s) + Z.of_nat (length o)))) (R ++ first_rows [] h)%list) as (t & E' & T').
      { exact F3. }
      { cbn [s_one s_totals]. rewrite app_length, Nat2Z.inj_add. apply totals_add. exact T. }
      exists t. cbn [s_hist s_one] in *. rewrite E'. cbn [map concat fst snd]. rewrite <- !app_assoc in *.
      split; [reflexivity|]. exact T'.
  Qed.

  (** All files readable and fitting. *)
  Lemma combine_good : forall w target ps tabs,
    ps <> [] -> NoDup ps -> ~ In target ps -> Forall2 (has_tables (files w)) ps tabs ->
    all_fit fits_h fits_o [] [] tabs ->
    exists w' t, combine_saved_files w target ps = (w', None)
      /\ w' = set_files B G w (files w')
      /\ dget String.eqb (files w') target
         = Some (FC (Some (concat (map fst tabs))) (Some (concat (map snd tabs))) (Some t))
      /\ totals_of t (concat (map (fun t => first_rows [] (fst t)) tabs))
           (Z.of_nat (length (concat (map snd tabs))))
      /\ (forall p, In p ps -> dget String.eqb (files w') p = None)
      /\ (forall p, p <> target -> ~ In p ps -> dget String.eqb (files w') p = dget String.eqb (files w) p).
  Proof.
    intros w target ps tabs NE ND NT H F. destruct ps as [|p0 ps]; [congruence|].
    set (all := p0 :: ps) in *.
    destruct tabs as [|t0 tabs]; [inversion H|]. unfold combine_saved_files. unfold all at 1.
    assert (E0 : exists a b c, dget String.eqb (files w) p0 = Some (FC (Some a) (Some b) c)).
    { inversion H as [|? ? ? ? (m & E) _]; subst. eauto. }
    destruct E0 as (a & b & c & E0). rewrite E0. clear a b c E0.
    set (w0 := write B G w target (FC None None None)).
    assert (H0 : Forall2 (has_tables (files w0)) all (t0 :: tabs)).
    { unfold w0. cbn [write set_files PopModel.files]. apply has_tables_write; assumption. }
    destruct (combine_fold all (files w0) (t0 :: tabs) (Store [] [] no_totals) [] H0 F) as (t & E & T).
    { repeat split; cbn; reflexivity. }
    rewrite E. cbn [s_hist s_one s_totals app] in *.
    set (c := FC (Some (concat (map fst (t0 :: tabs)))) (Some (concat (map snd (t0 :: tabs)))) (Some t)).
    destruct (remove_files_ok all (files (write B G w target c)) ND) as (fs & Er & Q).
    { intros p Hp. cbn. rewrite dget_write. destruct (String.eqb p target); [discriminate|].
      apply (has_tables_exist _ _ _ H _ Hp). }
    rewrite Er. exists (set_files B G (write B G w target c) fs), t.
    split; [reflexivity|]. split; [reflexivity|]. cbn [PopModel.files set_files].
    assert (IB : forall p, inb String.eqb p all = true <-> In p all).
    { intro p. destruct (inb_spec String.eqb_spec p all); intuition congruence. }
    split; [|split; [|split]].
    - rewrite Q. destruct (inb String.eqb target all) eqn:I; [apply IB in I; contradiction|].
      cbn. rewrite dget_write, String.eqb_refl. reflexivity.
    - exact T.
    - intros p Hp. rewrite Q. apply IB in Hp. rewrite Hp. reflexivity.
    - intros p Np Hp. rewrite Q. destruct (inb String.eqb p all) eqn:I; [apply IB in I; contradiction|].
      cbn. rewrite dget_write. destruct (String.eqb_spec p target); [contradiction|reflexivity].
  Qed.

  (** A file without a history table is skipped, and deleted all the same. *)
  Lemma combine_skip : forall w target a p b m1 m2,
    a <> [] -> NoDup (a ++ p :: b) -> ~ In target (a ++ p :: b) ->
    (forall q, In q (a ++ p :: b) -> dget String.eqb (files w) q <> None) ->
    dget String.eqb (files w) p = Some (FC None m1 m2) ->
    dget String.eqb (files (fst (combine_saved_files w target (a ++ p :: b)))) target
      = dget String.eqb (files (fst (combine_saved_files w target (a ++ b)))) target
    /\ snd (combine_saved_files w target (a ++ p :: b)) = snd (combine_saved_files w target (a ++ b))
    /\ (snd (combine_saved_files w target (a ++ p :: b)) = None ->
        dget String.eqb (files (fst (combine_saved_files w target (a ++ p :: b)))) p = None).
  Proof.
    intros w target a p b m1 m2 NE ND NT EX E. destruct a as [|p0 a]; [congruence|].
    unfold combine_saved_files. cbn [app].
    destruct (dget String.eqb (files w) p0) as [[[h0|] [o0|] t0]|] eqn:E0;
      try (cbn [fst snd]; split; [reflexivity|]; split; [reflexivity|discriminate]).
    set (w0 := write B G w target (FC None None None)).
    set (step := fun s f => combine_one s (dget String.eqb (files w0) f)).
    assert (Ep : dget String.eqb (files w0) p = Some (FC None m1 m2)).
    { unfold w0. cbn. rewrite dget_write. destruct (String.eqb_spec p target) as [->|]; [|exact E].
      exfalso. apply NT. apply in_or_app. right. left. reflexivity. }
    assert (FE : fold_left step (p0 :: (a ++ p :: b)%list) (Store [] [] no_totals)
               = fold_left step (p0 :: (a ++ b)%list) (Store [] [] no_totals)).
    { cbn [fold_left]. rewrite !fold_left_app. cbn [fold_left]. f_equal.
      unfold step at 1. rewrite Ep. reflexivity. }
    rewrite FE. set (s := fold_left step (p0 :: (a ++ b)%list) (Store [] [] no_totals)).
    set (w1 := write B G w target (FC (Some (s_hist s)) (Some (s_one s)) (Some (s_totals s)))).
    assert (EX1 : forall q, In q (p0 :: a ++ p :: b) -> dget String.eqb (files w1) q <> None).
    { intros q Hq. unfold w1. cbn. rewrite dget_write. destruct (String.eqb q target); [discriminate|].
      apply EX. exact Hq. }
    destruct (remove_files_ok (p0 :: a ++ p :: b) (files w1) ND EX1) as (f1 & R1 & Q1).
    assert (ND2 : NoDup (p0 :: a ++ b)).
    { change (p0 :: a ++ b)%list with ((p0 :: a) ++ b)%list. apply NoDup_remove_1 with p. exact ND. }
    destruct (remove_files_ok (p0 :: a ++ b) (files w1) ND2) as (f2 & R2 & Q2).
    { intros q Hq. apply EX1. cbn in Hq |- *. rewrite in_app_iff in *. cbn. tauto. }
    rewrite R1, R2. cbn [fst snd PopModel.files set_files].
    split; [|split].
    - rewrite Q1, Q2.
      assert (I1 : inb String.eqb target (p0 :: a ++ p :: b) = false).
      { destruct (inb_spec String.eqb_spec target (p0 :: a ++ p :: b)); [contradiction|reflexivity]. }
      assert (I2 : inb String.eqb target (p0 :: a ++ b) = false).
      { destruct (inb_spec String.eqb_spec target (p0 :: a ++ b)) as [I|]; [|reflexivity].
        exfalso. apply NT. cbn in I |- *. rewrite in_app_iff in *. cbn. tauto. }
      rewrite I1, I2. reflexivity.
    - reflexivity.
    - intros _. rewrite Q1.
      destruct (inb_spec String.eqb_spec p (p0 :: a ++ p :: b)) as [|N]; [reflexivity|].
      exfalso. apply N. right. apply in_or_app. right. left. reflexivity.
  Qed.

  (** Nothing happens when there is no file or the first one cannot be read. *)
  Lemma combine_bad_first : forall w target ps,
    (match ps with
     | [] => True
     | p :: _ => forall h o m, dget String.eqb (files w) p <> Some (FC (Some h) (Some o) m)
     end) ->
    fst (combine_saved_files w target ps) = w /\ snd (combine_saved_files w target ps) <> None.
  Proof.
    intros w target [|p ps] H; unfold combine_saved_files; [split; [reflexivity|discriminate]|].
    destruct (dget String.eqb (files w) p) as [[[h|] [o|] m]|] eqn:E;
      try (split; [reflexivity|discriminate]).
    exfalso. apply (H h o m). reflexivity.
  Qed.

  (** In every case files that are neither listed nor the target are untouched; whenever a
      listed file disappears the combined file is complete already. *)
  Lemma combine_untouched : forall w target ps p, p <> target -> ~ In p ps ->
    dget String.eqb (files (fst (combine_saved_files w target ps))) p = dget String.eqb (files w) p.
  Proof.
    intros w target ps p NT NI. unfold combine_saved_files. destruct ps as [|p0 ps]; [reflexivity|].
    destruct (dget String.eqb (files w) p0) as [[[h|] [o|] m]|]; try reflexivity.
    match goal with |- context [remove_files ?f ?l] =>
      pose proof (remove_files_only l f p) as R; destruct (remove_files f l) as [fs e] end.
    cbn [fst PopModel.files set_files] in *. destruct R as [->|[I _]]; [|contradiction].
    cbn. rewrite dget_write. destruct (String.eqb_spec p target); [contradiction|reflexivity].
  Qed.
End Combine.
