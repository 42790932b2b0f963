(** Properties of the kinds of reruns of the pipeline (C182). *)
From Coq Require Import String List Bool ZArith QArith Lia Lqa Sorted.
From Verif Require Import PyBase PyStr FromRunProofs RerunModel RerunProps.
Import ListNotations.
Open Scope Q_scope.
Open Scope list_scope.
Open Scope string_scope.

(** ** What is meant *)
Definition holds (sub s : string) : Prop := exists a b, s = (a ++ sub ++ b)%string.
Definition le (x : option Q) (y : Q) : Prop := exists a, x = Some a /\ a <= y.
Definition lt (x : option Q) (y : Q) : Prop := exists a, x = Some a /\ a < y.
Definition ge (x : option Q) (y : Q) : Prop := exists a, x = Some a /\ y <= a.
Definition gt (x : option Q) (y : Q) : Prop := exists a, x = Some a /\ y < a.

(** The kinds which go by the flag of the end of the run, with the flags and the new options *)
Definition ERRORS : list string := ["logQ_min_limit"; "min_timestep_limit"; "reach cluster timelimit"].
Definition BY_FLAG : list (string * list string * flag_arg) :=
  [("opacity_max", ["reach cluster timelimit"; "min_timestep_limit"], FDict [("opacity_max", "0.5")]);
   ("opacity_max_hms-hms", ["reach cluster timelimit"; "min_timestep_limit"], FDict [("opacity_max", "0.5")]);
   ("thermohaline_mixing", ERRORS, FDict [("thermohaline_coeff", "17.5")]);
   ("LBV_wind+thermohaline_mixing", ERRORS, FDict [("thermohaline_coeff", "17.5")]);
   ("no_age_limit+thermohaline_mixing", ERRORS, FDict [("thermohaline_coeff", "17.5")]);
   ("HeMB_MLTp_mesh", ERRORS, FNone);
   ("more_mesh", ERRORS, FDict [("mesh_Pgas_div_P_exponent", "2"); ("max_allowed_nz", "50000")]);
   ("dedt_energy_eqn", ERRORS, FNone); ("LBV_wind+dedt_energy_eqn", ERRORS, FNone); ("no_age_limit+dedt_energy_eqn", ERRORS, FNone);
   ("dedt_hepulse", ERRORS, FNone); ("LBV_wind+dedt_hepulse", ERRORS, FNone);
   ("no_age_limit", ["max_age"], FNone)].
(** The kinds which go by the logs, with the texts looked for and the new options *)
Definition BY_LOG : list (string * list string * flag_arg) :=
  [("PISN", ["have reached gamma1 integral limit"], FNone);
   ("conv_bdy_weight", ["STOP prepare_for_new_try: bad num omega"; "Segmentation fault"], FDict [("convective_bdy_weight", "0")])].
(** The log of a run: that of the star for grids of single stars *)
Definition log_is (dir name : string) : Prop :=
  (holds "single_HMS" dir /\ name = "out_star1_formation_step0.txt") \/
  (~ holds "single_HMS" dir /\ holds "single_HeMS" dir /\ name = "out_star1_formation_step2.txt") \/
  (~ holds "single_HMS" dir /\ ~ holds "single_HeMS" dir /\ name = "out.txt").
Definition says (fs : filesystem) (r : run) (texts : list string) : Prop :=
  exists files name lines line text, fs (mesa_dir r) = Some files /\ log_is (mesa_dir r) name /\ files name = Some lines /\ In line lines /\ In text texts /\ holds text line.
(** A cool star without helium in its centre and with a thin shell of helium: on the thermally pulsing asymptotic giant branch *)
Definition on_TPAGB (s : star_row) : Prop :=
  le (Teff s) 12000 /\ le (center_he4 s) (1 # 1000000) /\ exists a b, he_core_mass s = Some a /\ co_core_mass s = Some b /\ a - b <= 1 # 10.
(** A luminous blue variable: bright, beyond the limit of Humphreys and Davidson, with hydrogen at the surface *)
Definition is_LBV (s : star_row) : Prop :=
  gt (Lum s) 600000 /\ (exists r l, Rad s = Some r /\ Lum s = Some l /\ 0 < r /\ 10000000000 < r * r * l) /\ ge (surface_h1 s) (1 # 10).
(** Some star of the run at some time *)
Definition ever (P : star_row -> Prop) (r : run) : Prop := exists h s, (history1 r = Some h \/ history2 r = Some h) /\ In s h /\ P s.
(** The rows of two histories at the same time; a history of one row holds for all times *)
Definition at_row {A} (l : list A) (j : nat) (x : A) : Prop := nth_error l j = Some x \/ l = [x].
Definition reversed (r : run) : Prop :=
  exists bh h1 j b s, binary_history r = Some bh /\ history1 r = Some h1 /\ at_row bh j b /\ at_row h1 j s /\ (j < length bh \/ j < length h1)%nat /\
    lt (rl1 b) (- (5 # 100)) /\ gt (rl2 b) (- (5 # 100)) /\ gt (w_wcrit s) (9 # 10).
(** The helium at the beginning is unknown or too low *)
Definition low_He (g : grid) (k : nat) : Prop :=
  (exists x, (value_of g "S1_center_he4" (Z.of_nat k) x \/ (~ In "S1_center_he4" (map fst (initial_values g)) /\ value_of g "Y" (Z.of_nat k) x)) /\ (x = None \/ lt x (96 # 100))) \/
  (~ In "S1_center_he4" (map fst (initial_values g)) /\ ~ In "Y" (map fst (initial_values g))).

(** The run number [k] is to be run again *)
Definition wanted_run (fs : filesystem) (g : grid) (t : string) (k : nat) (r : run) : Prop :=
  (exists texts new, In (t, texts, new) BY_LOG /\ says fs r texts) \/
  (t = "reverse_MT" /\ reversed r) \/ (t = "TPAGBwind" /\ ever on_TPAGB r) \/ (t = "LBV_wind" /\ ever is_LBV r /\ ~ ever on_TPAGB r) \/
  (t = "initial_He" /\ low_He g k).
Definition wanted (fs : filesystem) (g : grid) (t : string) (k : nat) : Prop :=
  (exists fl new, In (t, fl, new) BY_FLAG /\ flagged g fl ["termination_flag_1"] k) \/
  (exists r, nth_error (runs g) k = Some r /\ wanted_run fs g t k r).
(** The new options of MESA of a kind *)
Definition options_of (t : string) (new : flag_arg) : Prop :=
  (exists fl, In (t, fl, new) (BY_FLAG ++ BY_LOG)) \/ (In t ["reverse_MT"; "TPAGBwind"; "LBV_wind"; "initial_He"] /\ new = FNone).
Definition KINDS : list string := (map (fun x => fst (fst x)) (BY_FLAG ++ BY_LOG) ++ ["reverse_MT"; "TPAGBwind"; "LBV_wind"; "initial_He"])%list.

(** ** Auxiliary *)
Lemma holds_iff a s : py_in a s = true <-> holds a s.
Proof. apply py_in_iff. Qed.
Lemma le_iff x y : le_ x y = true <-> le x y.
Proof.
  unfold le_, le. destruct x as [a|]; [|split; [discriminate|intros (a & E & _); discriminate]]. rewrite Qle_bool_iff.
  split; [intro; now exists a|]. intros (b & E & L). congruence.
Qed.
Lemma ge_iff x y : ge_ x y = true <-> ge x y.
Proof.
  unfold ge_, ge. destruct x as [a|]; [|split; [discriminate|intros (a & E & _); discriminate]]. rewrite Qle_bool_iff.
  split; [intro; now exists a|]. intros (b & E & L). congruence.
Qed.
Lemma nle_iff a b : negb (Qle_bool a b) = true <-> b < a.
Proof.
  rewrite negb_true_iff. split.
  - intro H. apply Qnot_le_lt. intro L. apply Qle_bool_iff in L. congruence.
  - intro H. destruct (Qle_bool a b) eqn:E; auto. apply Qle_bool_iff in E. exfalso. lra.
Qed.
Lemma lt_iff x y : lt_ x y = true <-> lt x y.
Proof.
  unfold lt_, lt. destruct x as [a|]; [|split; [discriminate|intros (a & E & _); discriminate]]. rewrite nle_iff.
  split; [intro; now exists a|]. intros (b & E & L). congruence.
Qed.
Lemma gt_iff x y : gt_ x y = true <-> gt x y.
Proof.
  unfold gt_, gt. destruct x as [a|]; [|split; [discriminate|intros (a & E & _); discriminate]]. rewrite nle_iff.
  split; [intro; now exists a|]. intros (b & E & L). congruence.
Qed.
Lemma tpagb_iff s : tpagb s = true <-> on_TPAGB s.
Proof.
  unfold tpagb, on_TPAGB. rewrite !andb_true_iff, !le_iff, and_assoc.
  assert (E : le (sub_ (he_core_mass s) (co_core_mass s)) (1 # 10) <-> exists a b, he_core_mass s = Some a /\ co_core_mass s = Some b /\ a - b <= 1 # 10).
  { unfold le, sub_. destruct (he_core_mass s) as [a|], (co_core_mass s) as [b|]; split.
    - intros (x & E & L). exists a, b. repeat split; auto. congruence.
    - intros (a' & b' & Ea & Eb & L). exists (a - b). split; auto. congruence.
    - intros (x & E & _). discriminate.
    - intros (a' & b' & _ & E & _). discriminate.
    - intros (x & E & _). discriminate.
    - intros (a' & b' & E & _). discriminate.
    - intros (x & E & _). discriminate.
    - intros (a' & b' & E & _). discriminate. }
  now rewrite E.
Qed.
Lemma lbv_iff s : lbv s = true <-> is_LBV s.
Proof.
  unfold lbv, is_LBV. rewrite !andb_true_iff, ge_iff, gt_iff, and_assoc.
  assert (E : hd_limit s = true <-> exists r l, Rad s = Some r /\ Lum s = Some l /\ 0 < r /\ 10000000000 < r * r * l).
  { unfold hd_limit. destruct (Rad s) as [r|], (Lum s) as [l|]; split; try discriminate; try (intros (a & b & E1 & E2 & _); discriminate).
    - rewrite andb_true_iff, !nle_iff. intros [A B]. exists r, l. auto.
    - intros (a & b & E1 & E2 & A & B). assert (r = a) by congruence. assert (l = b) by congruence. subst r l. rewrite andb_true_iff, !nle_iff. auto. }
  now rewrite E.
Qed.

(** numpy's maximum of a combination *)
Definition fits (n m : nat) : Prop := (n = m \/ n = 1 \/ m = 1)%nat /\ n <> 0%nat /\ m <> 0%nat.
Lemma zip_len f : forall a b, length a = length b -> length (zip_with f a b) = length a.
Proof. induction a as [|x a IH]; intros [|y b] L; cbn in *; try discriminate; auto. Qed.
Lemma zip_true f : forall a b, length a = length b -> In true (zip_with f a b) <-> exists j x y, nth_error a j = Some x /\ nth_error b j = Some y /\ f x y = true.
Proof.
  induction a as [|x a IH]; intros [|y b] L; cbn [zip_with]; try (cbn in L; discriminate).
  - split; [contradiction|]. intros ([|j] & x & y & E & _); discriminate.
  - cbn [In]. rewrite IH by (cbn in L; lia). split.
    + intros [E|(j & u & v & H)]; [now exists 0%nat, x, y|now exists (S j), u, v].
    + intros ([|j] & u & v & E1 & E2 & F); cbn in E1, E2; [left; congruence|right; now exists j, u, v].
Qed.
Lemma exb l : existsb (fun b : bool => b) l = true <-> In true l.
Proof. rewrite existsb_exists. split; [intros (b & I & E); now subst|]. intro I. now exists true. Qed.
Lemma max_ok l v : max_ l = Ok v -> l <> [] /\ (v = true <-> In true l).
Proof. unfold max_. destruct l as [|b l]; [discriminate|]. intro H. split; [discriminate|]. rewrite <- exb. assert (v = existsb (fun b => b) (b :: l)) by congruence. now subst. Qed.
Lemma ufunc_ok f a b : (exists v, rbind (ufunc f a b) max_ = Ok v) <-> fits (length a) (length b).
Proof.
  unfold ufunc, fits. destruct (Nat.eqb_spec (length a) (length b)) as [E|E].
  - cbn [rbind]. assert (L := zip_len f _ _ E). split.
    + intros [v H]. apply max_ok in H as [NE _]. split; auto. destruct (zip_with f a b); [congruence|]. cbn in L. lia.
    + intros (_ & A & _). destruct (zip_with f a b); [cbn in L; lia|]. now eexists.
  - destruct a as [|x [|x' a]].
    + destruct b as [|y [|y' b]]; cbn; (split; [intros [v H]; discriminate|intros (_ & A & _); exfalso; now apply A]).
    + destruct b as [|y b]; cbn; [split; [intros [v H]; discriminate|intros (_ & _ & A); exfalso; now apply A]|]. split; [intros _; lia|]. intros _. now eexists.
    + destruct b as [|y [|y' b]]; cbn.
      * split; [intros [v H]; discriminate|intros (_ & _ & A); exfalso; now apply A].
      * split; [intros _; lia|]. intros _. now eexists.
      * cbn in E. split; [intros [v H]; discriminate|]. intros ([A|[A|A]] & _); lia.
Qed.
Lemma ufunc_true f a b v : rbind (ufunc f a b) max_ = Ok v ->
  (v = true <-> exists j x y, at_row a j x /\ at_row b j y /\ (j < length a \/ j < length b)%nat /\ f x y = true).
Proof.
  intro H. assert (FT : fits (length a) (length b)) by (apply (ufunc_ok f); now exists v). destruct FT as (_ & NA & NB).
  unfold ufunc in H. destruct (Nat.eqb_spec (length a) (length b)) as [E|E].
  - cbn [rbind] in H. apply max_ok in H as [_ ->]. rewrite zip_true by auto. split.
    + intros (j & x & y & A & B & F). exists j, x, y. split; [now left|]. split; [now left|]. split; auto. left. apply nth_error_Some. congruence.
    + intros (j & x & y & A & B & L & F). exists j, x, y. assert (J : (j < length a /\ j < length b)%nat) by lia. destruct J as [JA JB].
      assert (AT : forall (l : list bool) z, at_row l j z -> (j < length l)%nat -> nth_error l j = Some z).
      { intros l z [N|N] LL; auto. subst l. cbn in LL. assert (j = 0)%nat by lia. now subst j. }
      auto.
  - destruct a as [|x [|x' a]]; [cbn in NA; congruence| |].
    + cbn [rbind] in H. apply max_ok in H as [_ ->]. rewrite in_map_iff. split.
      * intros (y & F & I). apply In_nth_error in I as [j J]. exists j, x, y. split; [now right|]. split; [now left|]. split; auto. right. apply nth_error_Some. congruence.
      * intros (j & u & y & A & B & L & F). assert (u = x).
        { destruct A as [A|A]; [|congruence]. destruct j as [|[|j]]; cbn in A; congruence. }
        subst u. exists y. split; auto. destruct B as [B|B]; [now apply nth_error_In in B|]. subst b. now left.
    + destruct b as [|y [|y' b]]; [cbn in NB; congruence| |cbn in H; discriminate].
      cbn [rbind] in H. apply max_ok in H as [_ ->]. rewrite in_map_iff. split.
      * intros (u & F & I). apply In_nth_error in I as [j J]. exists j, u, y. split; [now left|]. split; [now right|]. split; auto. left. apply nth_error_Some. congruence.
      * intros (j & u & z & A & B & L & F). assert (z = y).
        { destruct B as [B|B]; [|congruence]. destruct j as [|[|j]]; cbn in B; congruence. }
        subst z. exists u. split; auto. destruct A as [A|A]; [now apply nth_error_In in A|]. discriminate.
Qed.
Lemma or_true a b v : max_or a b = Ok v -> (v = true <-> In true a \/ In true b).
Proof.
  unfold max_or. intro H. rewrite (ufunc_true _ _ _ _ H).
  assert (FT : fits (length a) (length b)) by (apply (ufunc_ok orb); now exists v). destruct FT as (FT & NA & NB). split.
  - intros (j & x & y & A & B & _ & F). assert (AT : forall (l : list bool) z, at_row l j z -> In z l) by (intros l z [N|N]; [now apply nth_error_In in N|subst; now left]).
    apply orb_true_iff in F as [-> | ->]; [left|right]; now apply AT.
  - assert (ONE : forall l : list bool, length l = 1%nat -> exists z, l = [z]).
    { intros [|z [|z' l]] L; cbn in L; try discriminate. now exists z. }
    intros [I|I]; apply In_nth_error in I as [j J]; assert (L : nth_error _ j <> None) by (rewrite J; discriminate); apply nth_error_Some in L.
    + assert (B : exists y, at_row b j y).
      { destruct FT as [E|[E|E]].
        - destruct (nth_error b j) as [y|] eqn:N; [exists y; now left|]. apply nth_error_None in N. lia.
        - destruct b as [|y b]; [cbn in NB; congruence|]. exists y. left. assert (j = 0%nat) by lia. subst j. reflexivity.
        - destruct (ONE _ E) as [y ->]. exists y. now right. }
      destruct B as [y B]. exists j, true, y. split; [now left|]. split; auto.
    + assert (A : exists x, at_row a j x).
      { destruct FT as [E|[E|E]].
        - destruct (nth_error a j) as [y|] eqn:N; [exists y; now left|]. apply nth_error_None in N. lia.
        - destruct (ONE _ E) as [y ->]. exists y. now right.
        - destruct a as [|y a]; [cbn in NA; congruence|]. exists y. left. assert (j = 0%nat) by lia. subst j. reflexivity. }
      destruct A as [x A]. exists j, x, true. split; auto. split; [now left|]. split; [now right|]. apply orb_true_r.
Qed.
Lemma at_row_map {A B} (f : A -> B) l j x : at_row (map f l) j x <-> exists y, at_row l j y /\ x = f y.
Proof.
  unfold at_row. split.
  - intros [N|N].
    + rewrite nth_error_map in N. destruct (nth_error l j) as [y|] eqn:E; [|discriminate]. exists y. split; [now left|]. cbn in N. congruence.
    + destruct l as [|y [|y' l]]; try discriminate. exists y. split; [now right|]. cbn in N. congruence.
  - intros (y & [N|N] & ->); [left; rewrite nth_error_map, N; reflexivity|right; now subst].
Qed.
Lemma reverse_true r v : reverse_MT r = Ok v -> (v = true <-> reversed r).
Proof.
  unfold reverse_MT, reversed. destruct (binary_history r) as [bh|], (history1 r) as [h1|]; intro H.
  - rewrite (ufunc_true _ _ _ _ H). split.
    + intros (j & x & y & A & B & L & F). apply at_row_map in A as (b & A & ->). apply at_row_map in B as (s & B & ->). rewrite !map_length in L.
      rewrite !andb_true_iff, lt_iff, !gt_iff in F. destruct F as [[F1 F2] F3]. exists bh, h1, j, b, s. auto 10.
    + intros (bh' & h1' & j & b & s & EB & EH & A & B & L & F1 & F2 & F3). assert (bh' = bh) by congruence. assert (h1' = h1) by congruence. subst bh' h1'.
      exists j, (lt_ (rl1 b) (- (5 # 100)) && gt_ (rl2 b) (- (5 # 100))), (gt_ (w_wcrit s) (9 # 10)). rewrite !map_length.
      split; [apply at_row_map; now exists b|]. split; [apply at_row_map; now exists s|]. split; auto. now rewrite !andb_true_iff, lt_iff, !gt_iff.
  - assert (v = false) by congruence. subst. split; [discriminate|]. intros (bh' & h1' & j & b & s & EB & EH & _). discriminate.
  - assert (v = false) by congruence. subst. split; [discriminate|]. intros (bh' & h1' & j & b & s & EB & EH & _). discriminate.
  - assert (v = false) by congruence. subst. split; [discriminate|]. intros (bh' & h1' & j & b & s & EB & EH & _). discriminate.
Qed.
Lemma map_ever (f : star_row -> bool) (P : star_row -> Prop) (of : option (list star_row) -> list bool) r :
  (forall s, f s = true <-> P s) -> (forall h, of h = match h with Some l => map f l | None => [false] end) ->
  (In true (of (history1 r)) \/ In true (of (history2 r))) <-> ever P r.
Proof.
  intros F O. rewrite !O. unfold ever. assert (X : forall h, In true (match h with Some l => map f l | None => [false] end) <-> exists l s, h = Some l /\ In s l /\ P s).
  { intros [l|]; [rewrite in_map_iff|cbn]; split.
    - intros (s & E & I). exists l, s. now rewrite <- F.
    - intros (l' & s & E & I & PS). assert (l' = l) by congruence. subst l'. exists s. now rewrite F.
    - intros [E|[]]. discriminate.
    - intros (l' & s & E & _). discriminate. }
  rewrite !X. split.
  - intros [(l & s & E & I & PS)|(l & s & E & I & PS)]; exists l, s; auto.
  - intros (l & s & [E|E] & I & PS); [left|right]; now exists l, s.
Qed.
Lemma TPAGB_true r v : TPAGB r = Ok v -> (v = true <-> ever on_TPAGB r).
Proof. unfold TPAGB. intro H. rewrite (or_true _ _ _ H). apply (map_ever tpagb); [apply tpagb_iff|reflexivity]. Qed.
Lemma LBV_true r v : LBV r = Ok v -> (v = true <-> ever is_LBV r /\ ~ ever on_TPAGB r).
Proof.
  unfold LBV. intro H. apply bind_ok in H as (b & M & H). apply or_true in M. rewrite (map_ever lbv is_LBV) in M; [|apply lbv_iff|reflexivity].
  destruct b.
  - apply bind_ok in H as (t & T & H). apply TPAGB_true in T. assert (v = negb t) by congruence. subst v. destruct t; cbn; intuition congruence.
  - assert (v = false) by congruence. subst. intuition congruence.
Qed.

Lemma loop_in f : forall l i0 res, loop f i0 l = Ok res ->
  forall i, In i res <-> exists k r a, nth_error l k = Some r /\ f (i0 + Z.of_nat k)%Z r = Ok a /\ In i a.
Proof.
  induction l as [|r l IH]; intros i0 res H i; cbn [loop] in H.
  - assert (res = []) by congruence. subst. split; [contradiction|]. intros ([|k] & r & a & N & _); discriminate.
  - apply bind_ok in H as (a & A & H). apply bind_ok in H as (b & B & H). assert (res = (a ++ b)%list) by congruence. subst res.
    rewrite in_app_iff, (IH _ _ B). split.
    + intros [I|(k & r' & a' & N & F & I)].
      * exists 0%nat, r, a. cbn [nth_error]. replace (i0 + Z.of_nat 0)%Z with i0 by lia. auto.
      * exists (S k), r', a'. replace (i0 + Z.of_nat (S k))%Z with (i0 + 1 + Z.of_nat k)%Z by lia. auto.
    + intros ([|k] & r' & a' & N & F & I); cbn [nth_error] in N.
      * replace (i0 + Z.of_nat 0)%Z with i0 in F by lia. left. assert (r' = r) by congruence. subst. congruence.
      * right. exists k, r', a'. replace (i0 + 1 + Z.of_nat k)%Z with (i0 + Z.of_nat (S k))%Z by lia. auto.
Qed.
Definition own (f : Z -> run -> result (list Z)) : Prop := forall i r a, f i r = Ok a -> forall x, In x a -> x = i.
Lemma sorted_app : forall a b m, StronglySorted Z.le a -> StronglySorted Z.le b -> (forall x, In x a -> x <= m)%Z -> (forall x, In x b -> m <= x)%Z -> StronglySorted Z.le (a ++ b).
Proof.
  induction a as [|y a IH]; intros b m SA SB A B; cbn [app]; auto. inversion SA as [|? ? SA' F]; subst. constructor.
  - apply (IH b m); auto. intros x I. apply A. now right.
  - apply Forall_app. split; auto. apply Forall_forall. intros x I. assert (y <= m)%Z by (apply A; now left). specialize (B x I). lia.
Qed.
Lemma same_sorted : forall a i, (forall x, In x a -> x = i) -> StronglySorted Z.le a.
Proof.
  induction a as [|y a IH]; intros i H; constructor.
  - apply (IH i). intros x I. apply H. now right.
  - apply Forall_forall. intros x I. rewrite (H x (or_intror I)), (H y (or_introl eq_refl)). lia.
Qed.
Lemma loop_sorted f : own f -> forall l i0 res, loop f i0 l = Ok res -> StronglySorted Z.le res /\ forall x, In x res -> (i0 <= x)%Z.
Proof.
  intro O. induction l as [|r l IH]; intros i0 res H; cbn [loop] in H.
  - assert (res = []) by congruence. subst. split; [constructor|contradiction].
  - apply bind_ok in H as (a & A & H). apply bind_ok in H as (b & B & H). assert (res = (a ++ b)%list) by congruence. subst res.
    destruct (IH _ _ B) as [SB LB]. split.
    + apply (sorted_app a b i0); auto; [apply (same_sorted a i0); intros x I; apply (O _ _ _ A x I)|intros x I; rewrite (O _ _ _ A x I); lia|intros x I; specialize (LB x I); lia].
    + intros x I. apply in_app_or in I as [I|I]; [rewrite (O _ _ _ A x I); lia|specialize (LB x I); lia].
Qed.
Lemma fromkeys_sorted : forall l seen, StronglySorted Z.le l -> StronglySorted Z.lt (fromkeys seen l).
Proof.
  induction l as [|x l IH]; intros seen S; cbn [fromkeys]; [constructor|]. inversion S as [|? ? S' F]; subst.
  destruct (existsb (Z.eqb x) seen); auto. constructor; auto. apply Forall_forall. intros y I. apply fromkeys_in in I as [I N].
  rewrite Forall_forall in F. specialize (F y I). assert (x <> y) by (intros ->; apply N; now left). lia.
Qed.
Lemma loop_total f : forall l i0, (exists res, loop f i0 l = Ok res) <-> forall k r, nth_error l k = Some r -> exists a, f (i0 + Z.of_nat k)%Z r = Ok a.
Proof.
  induction l as [|r l IH]; intros i0; cbn [loop].
  - split; [intros _ [|k] r N; discriminate|]. now eexists.
  - split.
    + intros [res H]. apply bind_ok in H as (a & A & H). apply bind_ok in H as (b & B & _). intros [|k] r' N; cbn [nth_error] in N.
      * assert (r' = r) by congruence. subst. exists a. now replace (i0 + Z.of_nat 0)%Z with i0 by lia.
      * replace (i0 + Z.of_nat (S k))%Z with (i0 + 1 + Z.of_nat k)%Z by lia. apply (proj1 (IH (i0 + 1)%Z) (ex_intro _ b B)); auto.
    + intro H. destruct (H 0%nat r eq_refl) as [a A]. replace (i0 + Z.of_nat 0)%Z with i0 in A by lia. rewrite A. cbn [rbind].
      destruct (proj2 (IH (i0 + 1)%Z)) as [b B]; [|rewrite B; now eexists]. intros k r' N. specialize (H (S k) r' N).
      now replace (i0 + Z.of_nat (S k))%Z with (i0 + 1 + Z.of_nat k)%Z in H by lia.
Qed.

Lemma own_pick c : own (pick c).
Proof. intros i r a H x I. unfold pick in H. apply bind_ok in H as (b & _ & H). destruct b; injection H as <-; cbn in I; intuition. Qed.
Lemma own_logged fs t : own (logged fs t).
Proof.
  intros i r a H x I. unfold logged in H. destruct (fs (mesa_dir r)) as [files|]; [|discriminate].
  assert (E : a = _) by (symmetry; injection H as H; exact H). rewrite E in I. destruct (files _); [|contradiction]. apply in_map_iff in I as (? & <- & _). reflexivity.
Qed.
Lemma own_He g : own (initial_He g).
Proof.
  intros i r a H x I. unfold initial_He in H. apply bind_ok in H as (y & _ & H).
  assert (E : a = _) by (symmetry; injection H as H; exact H). rewrite E in I. destruct (match y with None => true | Some _ => _ end); cbn in I; intuition.
Qed.
Lemma log_name_is dir : log_is dir (log_name dir).
Proof.
  unfold log_is, log_name. rewrite <- !holds_iff. destruct (py_in "single_HMS" dir); [now left|]. right. destruct (py_in "single_HeMS" dir); [now left; repeat split|].
  right. repeat split; discriminate.
Qed.
Lemma log_is_name dir name : log_is dir name -> name = log_name dir.
Proof.
  unfold log_is, log_name. rewrite <- !holds_iff. destruct (py_in "single_HMS" dir), (py_in "single_HeMS" dir); intuition congruence.
Qed.
Lemma logged_says fs tells texts i r a : (forall l, tells l = true <-> exists t, In t texts /\ holds t l) -> logged fs tells i r = Ok a ->
  (In i a <-> says fs r texts).
Proof.
  intros T H. unfold logged in H. destruct (fs (mesa_dir r)) as [files|] eqn:FS; [|discriminate].
  assert (E : a = _) by (symmetry; injection H as H; exact H). rewrite E. clear H E. unfold says. split.
  - destruct (files (log_name (mesa_dir r))) as [lines|] eqn:L; [|contradiction]. intro I. apply in_map_iff in I as (line & _ & I). apply filter_In in I as [I F].
    apply T in F as (t & TI & TH). exists files, (log_name (mesa_dir r)), lines, line, t. repeat split; auto. apply log_name_is.
  - intros (files' & name & lines & line & t & E & N & L & I & TI & TH). assert (files' = files) by congruence. subst files'. apply log_is_name in N. subst name.
    rewrite L. apply in_map_iff. exists line. split; auto. apply filter_In. split; auto. apply T. now exists t.
Qed.
Lemma py_nth_of g col (k : nat) x : NoDup (map fst (initial_values g)) -> forall c, column (initial_values g) col = Some c ->
  py_nth c (Z.of_nat k) = Some x <-> value_of g col (Z.of_nat k) x.
Proof.
  intros N c C. rewrite py_nth_at. unfold value_of. apply column_in in C; auto. split.
  - intros (j & NJ & E). now exists c, j.
  - intros (c' & j & C' & NJ & E). assert (c' = c) by (apply column_in in C, C'; auto; congruence). subst c'. now exists j.
Qed.
Lemma He_in g (k : nat) r a : NoDup (map fst (initial_values g)) -> initial_He g (Z.of_nat k) r = Ok a -> (In (Z.of_nat k) a <-> low_He g k).
Proof.
  intros N H. unfold initial_He in H. apply bind_ok in H as (y & Y & H). unfold low_He.
  assert (HI : forall col, In col (map fst (initial_values g)) <-> column (initial_values g) col <> None).
  { intro col. rewrite <- has_in. unfold has. destruct (column (initial_values g) col); intuition congruence. }
  assert (E : In (Z.of_nat k) a <-> (y = None \/ lt y (96 # 100))).
  { injection H as <-. destruct y as [q|].
    - destruct (lt_ (Some q) (96 # 100)) eqn:L.
      + apply lt_iff in L. cbn. tauto.
      + assert (~ lt (Some q) (96 # 100)) by (rewrite <- lt_iff; congruence). cbn. intuition congruence.
    - cbn. intuition. }
  rewrite E. clear E H a.
  assert (V : forall col c z, column (initial_values g) col = Some c -> match py_nth c (Z.of_nat k) with Some x => Ok x | None => Raise IndexError end = Ok z ->
              forall x, value_of g col (Z.of_nat k) x <-> x = z).
  { intros col c z C P x. rewrite <- (py_nth_of g col k x N c C). destruct (py_nth c (Z.of_nat k)) as [w|]; [|discriminate]. intuition congruence. }
  destruct (column (initial_values g) "S1_center_he4") as [c|] eqn:C1.
  - specialize (V _ _ _ C1 Y). split.
    + intro L. left. exists y. split; auto. left. now apply V.
    + intros [(x & [X|[F _]] & L)|[F _]]; [apply V in X; now subst|exfalso; apply F, HI; congruence|exfalso; apply F, HI; congruence].
  - assert (NV : forall x, ~ value_of g "S1_center_he4" (Z.of_nat k) x).
    { intros x (c & j & I & _). apply column_in in I; auto. congruence. }
    destruct (column (initial_values g) "Y") as [c|] eqn:C2.
    + specialize (V _ _ _ C2 Y). split.
      * intro L. left. exists y. split; auto. right. split; [rewrite HI; congruence|]. now apply V.
      * intros [(x & [X|[_ X]] & L)|[_ F]]; [now apply NV in X|apply V in X; now subst|exfalso; apply F, HI; congruence].
    + assert (y = Some (-1)) by congruence. subst y. split; [intros _; right; rewrite !HI; split; congruence|]. intros _. right. exists (-1). split; auto. reflexivity.
Qed.

Lemma PISN_tells l : PISN_line l = true <-> exists t, In t ["have reached gamma1 integral limit"] /\ holds t l.
Proof. unfold PISN_line. rewrite holds_iff. cbn. split; [intro; eexists; eauto|]. intros (t & [<-|[]] & H). exact H. Qed.
Lemma conv_tells l : conv_bdy_line l = true <-> exists t, In t ["STOP prepare_for_new_try: bad num omega"; "Segmentation fault"] /\ holds t l.
Proof.
  unfold conv_bdy_line. rewrite orb_true_iff, !holds_iff. split; [intros [H|H]; eexists; (split; [|exact H]); cbn; auto|].
  intros (t & [<-|[<-|[]]] & H); auto.
Qed.
Lemma pick_in c P (k : nat) r a : (forall v, c r = Ok v -> (v = true <-> P)) -> pick c (Z.of_nat k) r = Ok a -> (In (Z.of_nat k) a <-> P).
Proof.
  intros C H. unfold pick in H. apply bind_ok in H as (v & V & H). rewrite <- (C _ V). injection H as <-. destruct v; cbn; intuition discriminate.
Qed.

Ltac kinds := repeat match goal with |- context [String.eqb ?a ?b] => destruct (String.eqb_spec a b); [subst a|] end.
(** The two ways runs are chosen *)
Definition by_flags (fs : filesystem) (g : grid) (t : string) (a : answer) : Prop :=
  exists fl new, a = (RNone, SList fl, new) /\ In (t, fl, new) BY_FLAG /\ (forall fl' new', In (t, fl', new') BY_FLAG -> fl' = fl /\ new' = new) /\
    forall k r, ~ wanted_run fs g t k r.
Definition by_runs (fs : filesystem) (g : grid) (t : string) (f : Z -> run -> result (list Z)) (new : flag_arg) : Prop :=
  own f /\ options_of t new /\ (forall fl' new', ~ In (t, fl', new') BY_FLAG) /\
  forall k r a, f (Z.of_nat k) r = Ok a -> (In (Z.of_nat k) a <-> wanted_run fs g t k r).
Definition outcome (fs : filesystem) (g : grid) (t : string) (res : result answer) : Prop :=
  (exists a, res = Ok a /\ by_flags fs g t a) \/
  (exists f new, res = rbind (loop f 0 (runs g)) (fun l => Ok (RIter l, SNone, new)) /\ by_runs fs g t f new /\
     ((exists tells, f = logged fs tells /\ In t ["PISN"; "conv_bdy_weight"]) \/ (f = pick reverse_MT /\ t = "reverse_MT") \/
      (f = pick TPAGB /\ t = "TPAGBwind") \/ (f = pick LBV /\ t = "LBV_wind") \/ (f = initial_He g /\ t = "initial_He"))) \/
  (res = Raise ValueError /\ ~ In t KINDS).
Ltac run_case := right; left; cbn [String.eqb Ascii.eqb Bool.eqb orb]; eexists; eexists; (split; [reflexivity|]); (split; [|cbn; eauto 10]).
Ltac flag_case := left; eexists; split; [reflexivity|]; eexists; eexists; split; [reflexivity|]; split; [cbn; auto 20|]; split;
  [intros fl' new' I; cbn in I; repeat (destruct I as [I|I]; [try discriminate I; injection I as <- <-; split; reflexivity|]); contradiction
  |intros k r W; unfold wanted_run in W; destruct W as [(x & y & W & _)|[[W _]|[[W _]|[[W _]|[W _]]]]]; try discriminate W; cbn in W;
   repeat (destruct W as [W|W]; [discriminate W|]); contradiction].
Lemma logic_outcome fs g t : NoDup (map fst (initial_values g)) -> outcome fs g t (logic_rerun fs g t).
Proof.
  intro ND. unfold logic_rerun, outcome. destruct (in_dec string_dec t KINDS) as [I|I].
  - cbn [KINDS BY_FLAG BY_LOG map app fst In] in I.
    assert (NF : forall t, existsb (String.eqb t) (map (fun x => fst (fst x)) BY_FLAG) = false -> forall fl' new', ~ In (t, fl', new') BY_FLAG).
    { intros t0 E fl' new' J. apply (in_map (fun x => fst (fst x))) in J. apply mem_s in J. cbn [fst] in J. congruence. }
    repeat (destruct I as [<-|I]; [first [solve [flag_case]|idtac]|]); [.. |contradiction].
    + run_case. split; [apply own_logged|]. split; [left; eexists; cbn; auto 20|]. split; [apply NF; reflexivity|]. intros k r a H.
      rewrite (logged_says _ _ _ _ _ _ PISN_tells H). unfold wanted_run. split; [intro; left; eexists; eexists; split; [cbn; eauto|auto]|].
      intros [(x & y & [W|[W|[]]] & S)|[[W _]|[[W _]|[[W _]|[W _]]]]]; try discriminate W. injection W as <- <-. exact S.
    + run_case. split; [apply own_logged|]. split; [left; eexists; cbn; auto 20|]. split; [apply NF; reflexivity|]. intros k r a H.
      rewrite (logged_says _ _ _ _ _ _ conv_tells H). unfold wanted_run. split; [intro; left; eexists; eexists; split; [cbn; eauto|auto]|].
      intros [(x & y & [W|[W|[]]] & S)|[[W _]|[[W _]|[[W _]|[W _]]]]]; try discriminate W. injection W as <- <-. exact S.
    + run_case. split; [apply own_pick|]. split; [right; cbn; auto 10|]. split; [apply NF; reflexivity|]. intros k r a H.
      rewrite (pick_in _ _ _ _ _ (reverse_true r) H). unfold wanted_run. split; [auto|].
      intros [(x & y & [W|[W|[]]] & S)|[[W S]|[[W _]|[[W _]|[W _]]]]]; try discriminate W. exact S.
    + run_case. split; [apply own_pick|]. split; [right; cbn; auto 10|]. split; [apply NF; reflexivity|]. intros k r a H.
      rewrite (pick_in _ _ _ _ _ (TPAGB_true r) H). unfold wanted_run. split; [auto|].
      intros [(x & y & [W|[W|[]]] & S)|[[W S]|[[W S]|[[W _]|[W _]]]]]; try discriminate W. exact S.
    + run_case. split; [apply own_pick|]. split; [right; cbn; auto 10|]. split; [apply NF; reflexivity|]. intros k r a H.
      rewrite (pick_in _ _ _ _ _ (LBV_true r) H). unfold wanted_run. split; [auto 6|].
      intros [(x & y & [W|[W|[]]] & S)|[[W S]|[[W S]|[[W S]|[W _]]]]]; try discriminate W. exact S.
    + run_case. split; [apply own_He|]. split; [right; cbn; auto 10|]. split; [apply NF; reflexivity|]. intros k r a H.
      rewrite (He_in _ _ _ _ ND H). unfold wanted_run. split; [auto 6|].
      intros [(x & y & [W|[W|[]]] & S)|[[W S]|[[W S]|[[W S]|[W S]]]]]; try discriminate W. exact S.
  - right. right. split; auto. kinds; try (exfalso; apply I, mem_s; reflexivity). reflexivity.
Qed.
Lemma flagged_from_sorted tfs : forall col i0, StronglySorted Z.le (flagged_from i0 col tfs).
Proof.
  induction col as [|tf col IH]; intros i0; cbn [flagged_from]; [constructor|]. apply (sorted_app _ _ i0); auto.
  - apply (same_sorted _ i0). intros x I. destruct (existsb _ _); cbn in I; intuition.
  - intros x I. destruct (existsb _ _); cbn in I; [intuition lia|contradiction].
  - intros x I. apply flagged_from_in in I as (k & f & -> & _). lia.
Qed.

(** ** C182 *)

(** The file of a rerun has one row for each run which is to be run again, in the order of the grid, and the new options of that kind of rerun. *)
Theorem C182_file :
  forall fs g t d, grid_ok g -> pipeline_rerun fs g t = Ok d ->
  exists idx new, StronglySorted Z.lt idx /\ (forall i, In i idx <-> exists k, i = Z.of_nat k /\ wanted fs g t k) /\ options_of t new /\ table_of g new idx d.
Proof.
  intros fs g t d OK H. unfold pipeline_rerun in H. apply bind_ok in H as ([[r tf] new] & L & H). assert (OK' := OK). destruct OK' as [GI GF].
  destruct (rerun g r tf new SNone) as [res r'] eqn:R. cbn in H. subst res. destruct (rerun_ok _ _ _ _ _ _ _ OK R) as (l & C & T).
  exists (unique l), new. destruct (logic_outcome fs g t GI) as [(a & E & fl & nw & -> & IF & UN & NW)|[(f & nw & E & (OW & OP & NF & IN) & _)|[E _]]]; rewrite L in E.
  - assert (r = RNone /\ tf = SList fl /\ new = nw) as (-> & -> & ->) by (repeat split; congruence).
    change (collect g RNone (SList fl) SNone) with (Ok (new_runs g ["termination_flag_1"] fl), RNone) in C.
    assert (l = new_runs g ["termination_flag_1"] fl) by congruence. subst l. split; [|split; [|split; [left; exists fl; apply in_or_app; now left|exact T]]].
    + unfold unique. apply fromkeys_sorted. unfold new_runs. cbn [flat_map]. rewrite app_nil_r.
      destruct (column (final_flags g) "termination_flag_1"); [apply flagged_from_sorted|constructor].
    + intro i. rewrite (proj1 (proj2 (unique_once _))). rewrite new_runs_in by auto. unfold wanted. split.
      * intros (k & -> & F). exists k. split; auto. left. now exists fl, nw.
      * intros (k & -> & [(fl' & nw' & I & F)|(r & _ & W)]); [|now apply NW in W]. exists k. split; auto. destruct (UN _ _ I) as [-> _]. exact F.
  - symmetry in E. apply bind_ok in E as (l0 & LP & E). assert (r = RIter l0 /\ tf = SNone /\ new = nw) as (-> & -> & ->) by (repeat split; congruence). cbn in C.
    assert (l = l0) by congruence. subst l0. split; [|split; [|split; [exact OP|exact T]]].
    + unfold unique. apply fromkeys_sorted. eapply loop_sorted; eauto.
    + intro i. rewrite (proj1 (proj2 (unique_once _))). rewrite (loop_in _ _ _ _ LP). unfold wanted. split.
      * intros (k & r0 & a & N & F & I). cbn [Z.add] in F. assert (EI := OW _ _ _ F _ I). subst i. exists k. split; auto. right. exists r0. split; auto.
        now apply (IN _ _ _ F).
      * intros (k & -> & [(fl' & nw' & I & _)|(r0 & N & W)]); [now apply NF in I|].
        destruct (proj1 (loop_total f (runs g) 0%Z) (ex_intro _ l LP) k r0 N) as [a F]. exists k, r0, a. split; auto. split; auto. apply (IN k r0 a); auto.
  - discriminate.
Qed.
Print Assumptions C182_file.

(** Only these kinds exist; 'envelope_mass_limit', though named in the code, is none of them. *)
Theorem C182_kinds :
  forall fs g t, NoDup (map fst (initial_values g)) -> ~ In t KINDS -> logic_rerun fs g t = Raise ValueError.
Proof.
  intros fs g t N H. destruct (logic_outcome fs g t N) as [(a & _ & fl & nw & _ & I & _)|[(f & nw & _ & (_ & OP & _) & _)|[E _]]]; auto; exfalso; apply H; unfold KINDS.
  - apply in_or_app. left. apply (in_map (fun x => fst (fst x))) in I. rewrite map_app. apply in_or_app. now left.
  - apply in_or_app. destruct OP as [[fl I]|[I _]]; [left|now right]. now apply (in_map (fun x => fst (fst x))) in I.
Qed.
Print Assumptions C182_kinds.

(** When the runs can be chosen: by flags always; by logs if the directories of all runs exist; by histories if those of each run fit each other and none is
    empty. *)
Definition rows (h : option (list star_row)) : nat := match h with Some l => length l | None => 1%nat end.
Theorem C182_chosen :
  forall fs g t, NoDup (map fst (initial_values g)) ->
  (In t (map (fun x => fst (fst x)) BY_FLAG) -> exists a, logic_rerun fs g t = Ok a) /\
  (In t ["PISN"; "conv_bdy_weight"] -> (exists a, logic_rerun fs g t = Ok a) <-> forall r, In r (runs g) -> fs (mesa_dir r) <> None) /\
  (In t ["TPAGBwind"; "LBV_wind"] -> (exists a, logic_rerun fs g t = Ok a) <-> forall r, In r (runs g) -> fits (rows (history1 r)) (rows (history2 r))) /\
  (t = "reverse_MT" -> (exists a, logic_rerun fs g t = Ok a) <->
     forall r bh h1, In r (runs g) -> binary_history r = Some bh -> history1 r = Some h1 -> fits (length bh) (length h1)).
Proof.
  intros fs g t N.
  assert (BY : forall f new, (exists a : answer, rbind (loop f 0 (runs g)) (fun l => Ok (RIter l, SNone, new)) = Ok a) <-> exists l, loop f 0 (runs g) = Ok l).
  { intros f new. split; [intros [a H]; apply bind_ok in H as (l & L & _); now exists l|]. intros [l L]. rewrite L. now eexists. }
  assert (ALL : forall (f : Z -> run -> result (list Z)) (P : run -> Prop), (forall i r, (exists a, f i r = Ok a) <-> P r) ->
                (exists l, loop f 0 (runs g) = Ok l) <-> forall r, In r (runs g) -> P r).
  { intros f P E. rewrite loop_total. split.
    - intros H r I. apply In_nth_error in I as [k K]. apply (E (0 + Z.of_nat k)%Z). now apply H.
    - intros H k r K. apply E, H. now apply nth_error_In in K. }
  assert (PK : forall c i r, (exists a, pick c i r = Ok a) <-> exists v, c r = Ok v).
  { intros c i r. unfold pick. split; [intros [a H]; apply bind_ok in H as (v & V & _); now exists v|]. intros [v V]. rewrite V. now eexists. }
  assert (LN : forall h, length (tpagb_of h) = rows h /\ length (lbv_of h) = rows h) by (intros [l|]; cbn; rewrite ?map_length; auto).
  assert (TP : forall r, (exists v, TPAGB r = Ok v) <-> fits (rows (history1 r)) (rows (history2 r))).
  { intro r. unfold TPAGB, max_or. rewrite ufunc_ok. now rewrite !(proj1 (LN _)). }
  split; [|split; [|split]].
  - intro I. destruct (logic_outcome fs g t N) as [(a & E & _)|[(f & nw & _ & (_ & _ & NF & _) & _)|[_ NK]]].
    + now exists a.
    + exfalso. apply in_map_iff in I as ([[t' fl] nw'] & <- & I). now apply NF in I.
    + exfalso. apply NK. unfold KINDS. rewrite map_app. apply in_or_app. left. apply in_or_app. now left.
  - intro I. assert (LG : forall tells i r, (exists a, logged fs tells i r = Ok a) <-> fs (mesa_dir r) <> None).
    { intros tells i r. unfold logged. destruct (fs (mesa_dir r)); split; try discriminate; [intros _; now eexists|intros [a H]; discriminate|congruence]. }
    cbn in I. destruct I as [<-|[<-|[]]]; unfold logic_rerun; cbn [String.eqb Ascii.eqb Bool.eqb orb]; rewrite BY; apply ALL; apply LG.
  - intro I. cbn in I. destruct I as [<-|[<-|[]]]; unfold logic_rerun; cbn [String.eqb Ascii.eqb Bool.eqb orb]; rewrite BY; apply ALL; intros i r; rewrite PK; [apply TP|].
    unfold LBV. assert (LB : (exists v, max_or (lbv_of (history1 r)) (lbv_of (history2 r)) = Ok v) <-> fits (rows (history1 r)) (rows (history2 r))).
    { unfold max_or. rewrite ufunc_ok. now rewrite !(proj2 (LN _)). }
    rewrite <- LB. split.
    + intros [v H]. apply bind_ok in H as (b & B & _). now exists b.
    + intros [v V]. rewrite V. cbn [rbind]. destruct v; [|now eexists]. assert (F := proj1 LB (ex_intro _ true V)). apply TP in F as [w W]. rewrite W. now eexists.
  - intros ->. unfold logic_rerun; cbn [String.eqb Ascii.eqb Bool.eqb orb]. rewrite BY.
    rewrite (ALL (pick reverse_MT) (fun r => forall bh h1, binary_history r = Some bh -> history1 r = Some h1 -> fits (length bh) (length h1))); [split; intros H; intros; eapply H; eauto|].
    intros i r. rewrite PK. unfold reverse_MT. destruct (binary_history r) as [bh|], (history1 r) as [h1|]; try (split; [intros _; intros; discriminate|intros _; now eexists]).
    rewrite ufunc_ok, !map_length. split; [intros F bh' h1' E1 E2; assert (bh' = bh) by congruence; assert (h1' = h1) by congruence; now subst|]. intro F. now apply F.
Qed.
Print Assumptions C182_chosen.

(** No run is run again both for the winds of luminous blue variables and for those of the asymptotic giant branch. *)
Theorem C182_exclusive :
  forall fs g l l' x x' y y', NoDup (map fst (initial_values g)) ->
  logic_rerun fs g "LBV_wind" = Ok (RIter l, x, y) -> logic_rerun fs g "TPAGBwind" = Ok (RIter l', x', y') -> forall i, In i l -> ~ In i l'.
Proof.
  intros fs g l l' x x' y y' N H H' i I I'. unfold logic_rerun in H, H'. cbn [String.eqb Ascii.eqb Bool.eqb orb] in H, H'.
  apply bind_ok in H as (l0 & L & E). assert (l0 = l) by congruence. subst l0. apply bind_ok in H' as (l0 & L' & E'). assert (l0 = l') by congruence. subst l0.
  apply (loop_in _ _ _ _ L) in I as (k & r & a & NR & F & I). apply (loop_in _ _ _ _ L') in I' as (k' & r' & a' & NR' & F' & I'). cbn [Z.add] in F, F'.
  assert (K := own_pick _ _ _ _ F _ I). assert (K' := own_pick _ _ _ _ F' _ I'). subst i. assert (k' = k) by lia. subst k'. assert (r' = r) by congruence. subst r'.
  apply (pick_in _ _ _ _ _ (LBV_true r) F) in I. apply (pick_in _ _ _ _ _ (TPAGB_true r) F') in I'. tauto.
Qed.
Print Assumptions C182_exclusive.

Definition hot : star_row := StarRow (Some 30000) (Some 1000000) (Some 200) (Some (1 # 2)) (Some 0) (Some 0) (Some (7 # 10)) (Some (1 # 2)).
Definition agb : star_row := StarRow (Some 3000) (Some 10000) (Some 500) (Some 0) (Some 1) (Some (95 # 100)) (Some (7 # 10)) (Some (1 # 2)).
Definition g1 : grid :=
  Grid [Run "/g/a" None (Some [hot; hot]) None; Run "/g/b" None (Some [hot; agb]) (Some [hot; hot]); Run "/g/c" (Some [BinRow (Some (-1)) (Some 0); BinRow None None]) (Some [agb; agb]) None]
       [("star_1_mass", [Some 50; Some 60; Some 5]); ("star_2_mass", [Some 1; Some 2; Some 3])] [("termination_flag_1", ["max_age"; "reach cluster timelimit"; "max_age"])].
Definition fs1 : filesystem := fun d => if String.eqb d "/nowhere" then None else Some (fun f => if String.eqb f "out.txt" && String.eqb d "/g/b" then
  Some ["have reached gamma1 integral limit"; "so we stop: have reached gamma1 integral limit"] else None).
Lemma g1_ok : grid_ok g1.
Proof. split; cbn; repeat constructor; cbn; intuition discriminate. Qed.
Example C182_example_LBV : pipeline_rerun fs1 g1 "LBV_wind" = Ok [("m1", [Num (Some (500000000000 # E10))]); ("m2", [Num (Some (10000000000 # E10))])].
Proof. vm_compute. reflexivity. Qed.
Example C182_example_TPAGB : option_map (fun d => map (fun c => length (snd c)) d) (match pipeline_rerun fs1 g1 "TPAGBwind" with Ok d => Some d | _ => None end) = Some [2; 2]%nat.
Proof. vm_compute. reflexivity. Qed.
(** The log tells twice, the run is run once *)
Example C182_example_PISN :
  logic_rerun fs1 g1 "PISN" = Ok (RIter [1; 1]%Z, SNone, FNone) /\
  pipeline_rerun fs1 g1 "PISN" = Ok [("m1", [Num (Some (600000000000 # E10))]); ("m2", [Num (Some (20000000000 # E10))])].
Proof. split; vm_compute; reflexivity. Qed.
Example C182_example_flag :
  pipeline_rerun fs1 g1 "opacity_max" = Ok [("m1", [Num (Some (600000000000 # E10))]); ("m2", [Num (Some (20000000000 # E10))]); ("opacity_max", [Lit "0.5"])].
Proof. vm_compute. reflexivity. Qed.
Example C182_example_none : logic_rerun fs1 g1 "envelope_mass_limit" = Raise ValueError /\ logic_rerun fs1 g1 "LBV_wind+HeMB_MLTp_mesh" = Raise ValueError.
Proof. split; reflexivity. Qed.
(** Histories of different lengths *)
Example C182_example_lengths : logic_rerun fs1 (Grid [Run "/g/a" None (Some [hot; hot]) (Some [hot; hot; hot])] [] []) "LBV_wind" = Raise ValueError.
Proof. vm_compute. reflexivity. Qed.
