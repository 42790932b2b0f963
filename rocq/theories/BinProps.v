(** C36: bins of metallicity and redshift. *)
From Coq Require Import Reals List QArith Qround Lia Lra Lqa Permutation Sorted Morphisms.
From Verif Require Import PyBase PyList BinModel.
Import ListNotations.
Open Scope nat_scope.
Open Scope list_scope.

(** ** Metallicity *)
Lemma pow10_lt : forall a b, (a < b)%R -> (pow10 a < pow10 b)%R.
Proof. intros. unfold pow10. apply Rpower_lt; Lra.lra. Qed.
Lemma ln10_pos : (0 < ln 10)%R.
Proof. rewrite <- ln_1. apply ln_increasing; Lra.lra. Qed.
Lemma pow10_log10 : forall x, (0 < x)%R -> pow10 (log10 x) = x.
Proof.
  intros x X. unfold pow10, log10, Rpower. pose proof ln10_pos. replace (ln x / ln 10 * ln 10)%R with (ln x) by (field; Lra.lra). apply exp_ln. exact X.
Qed.
Lemma log10_lt : forall a b, (0 < a)%R -> (a < b)%R -> (log10 a < log10 b)%R.
Proof.
  intros a b A AB. unfold log10, Rdiv. apply Rmult_lt_compat_r; [apply Rinv_0_lt_compat, ln10_pos | apply ln_increasing; assumption].
Qed.

Lemma insert_r_perm : forall x l, Permutation (x :: l) (insert_r x l).
Proof.
  intros x. induction l as [|y l IH]; [apply Permutation_refl|]. cbn [insert_r]. destruct (Rle_dec x y); [apply Permutation_refl|].
  eapply Permutation_trans; [apply perm_swap|]. apply perm_skip. exact IH.
Qed.
Lemma centers_perm : forall l, Permutation l (centers l).
Proof.
  induction l as [|x l IH]; [apply Permutation_refl|]. unfold centers in *. cbn [fold_right].
  eapply Permutation_trans; [apply perm_skip; exact IH | apply insert_r_perm].
Qed.
Fixpoint ascending (l : list R) : Prop := match l with [] => True | x :: r => (forall y, In y r -> (x < y)%R) /\ ascending r end.
Lemma insert_ascending : forall x l, ascending l -> ~ In x l -> ascending (insert_r x l).
Proof.
  intros x. induction l as [|y l IH]; intros A N; [split; [intros ? []|exact I]|]. cbn [insert_r]. destruct A as [A1 A2].
  destruct (Rle_dec x y) as [C|C].
  - split; [|split; assumption]. intros z [<- |Z].
    + destruct C as [C| ->]; [exact C | exfalso; apply N; left; reflexivity].
    + specialize (A1 z Z). Lra.lra.
  - split.
    + intros z Z. apply (Permutation_in _ (Permutation_sym (insert_r_perm x l))) in Z. destruct Z as [<- |Z]; [Lra.lra | apply A1; exact Z].
    + apply IH; [exact A2 | intro C2; apply N; right; exact C2].
Qed.
Lemma centers_ascending : forall l, NoDup l -> ascending (centers l).
Proof.
  induction l as [|x l IH]; intro N; [exact I|]. inversion N as [|? ? N1 N2]; subst. unfold centers. cbn [fold_right]. apply insert_ascending; [apply IH; exact N2|].
  intro C. apply N1. apply (Permutation_in _ (Permutation_sym (centers_perm l))). exact C.
Qed.
Lemma ascending_nth : forall l, ascending l -> forall i j, i < j -> j < length l -> (nth i l 0 < nth j l 0)%R.
Proof.
  induction l as [|x l IH]; intros A i j IJ J; [cbn in J; lia|]. destruct A as [A1 A2]. destruct i as [|i], j as [|j]; try lia; cbn [nth].
  - apply A1. apply nth_In. cbn in J. lia.
  - apply IH; [exact A2 | lia | cbn in J; lia].
Qed.
Lemma nth_map_R : forall (f : R -> R) l i, i < length l -> nth i (map f l) 0%R = f (nth i l 0%R).
Proof. intros. rewrite (nth_indep _ 0%R (f 0%R)) by (rewrite map_length; assumption). apply map_nth. Qed.
Lemma nth_log_edges : forall w l i, 2 <= length l -> i <= length l -> nth i (log_edges w l) 0%R = log_edge l i.
Proof.
  intros w l i L I. assert (log_edges w l = map (log_edge l) (seq 0 (length l + 1))) as -> by (destruct l as [|a [|b r]]; [cbn in L; lia | cbn in L; lia | reflexivity]).
  rewrite (nth_indep _ 0%R (log_edge l 0)) by (rewrite map_length, seq_length; lia). rewrite map_nth, seq_nth by lia. reflexivity.
Qed.

(** Two or more metallicities: one bin per metallicity, ordered and touching; each metallicity
    lies inside its bin, and an inner edge is the geometric mean of its neighbours. *)
Theorem metallicity_bins : forall w mets, NoDup mets -> (forall z, In z mets -> (0 < z)%R) -> 2 <= length mets ->
  let c := centers mets in let e := edges w mets in
  Permutation mets c /\ length e = S (length mets) /\
  (forall i, i < length mets -> (nth i e 0 < nth i c 0 < nth (S i) e 0)%R) /\
  (forall i, S i < length mets -> (0 < nth (S i) e 0)%R /\ (nth (S i) e 0 * nth (S i) e 0)%R = (nth i c 0 * nth (S i) c 0)%R).
Proof.
  intros w mets ND POS L c e. pose proof (centers_perm mets) as P. fold c in P.
  assert (length c = length mets) as LC by (symmetry; apply Permutation_length; exact P).
  assert (ascending c) as A by (apply centers_ascending; exact ND).
  assert (forall i, i < length mets -> (0 < nth i c 0)%R) as CP.
  { intros i I. apply POS. apply (Permutation_in _ (Permutation_sym P)). apply nth_In. lia. }
  set (l := map log10 c). assert (length l = length mets) as LL by (unfold l; rewrite map_length; exact LC).
  assert (forall i, i < length mets -> nth i l 0%R = log10 (nth i c 0%R)) as NL by (intros i I; unfold l; apply nth_map_R; lia).
  assert (forall i j, i < j -> j < length mets -> (nth i l 0 < nth j l 0)%R) as LT.
  { intros i j IJ J. rewrite !NL by lia. apply log10_lt; [apply CP; lia | apply ascending_nth; [exact A | exact IJ | lia]]. }
  assert (log_edges w l = map (log_edge l) (seq 0 (length l + 1))) as EQ by (destruct l as [|a [|b r]]; [cbn in LL; lia | cbn in LL; lia | reflexivity]).
  assert (length (log_edges w l) = S (length mets)) as LE by (rewrite EQ, map_length, seq_length; lia).
  assert (forall i, i <= length mets -> nth i e 0%R = pow10 (log_edge l i)) as NE.
  { intros i I. unfold e, edges. fold c l. rewrite nth_map_R by lia. f_equal. apply nth_log_edges; lia. }
  split; [exact P|]. split; [unfold e, edges; fold c l; rewrite map_length; exact LE|]. split.
  - intros i I. rewrite !NE by lia. rewrite <- (pow10_log10 (nth i c 0%R)) by (apply CP; lia). rewrite <- NL by lia.
    assert (log_edge l i < nth i l 0 < log_edge l (S i))%R as [B1 B2]; [|split; apply pow10_lt; assumption].
    unfold log_edge. rewrite LL. replace (S i =? 0) with false by reflexivity. replace (S i - 1) with i by lia.
    split.
    + destruct (Nat.eqb_spec i 0) as [-> |N0]; [specialize (LT 0 1 ltac:(lia) ltac:(lia)); Lra.lra|].
      destruct (Nat.eqb_spec i (length mets)) as [N1|N1]; [lia|]. specialize (LT (i - 1) i ltac:(lia) ltac:(lia)). Lra.lra.
    + destruct (Nat.eqb_spec (S i) (length mets)) as [N1|N1].
      * rewrite <- N1. replace (S i - 1) with i by lia. specialize (LT (S i - 2) i ltac:(lia) ltac:(lia)). Lra.lra.
      * specialize (LT i (S i) ltac:(lia) ltac:(lia)). Lra.lra.
  - intros i I. rewrite NE by lia. split; [unfold pow10, Rpower; apply exp_pos|].
    rewrite <- (pow10_log10 (nth i c 0%R)), <- (pow10_log10 (nth (S i) c 0%R)) by (apply CP; lia). rewrite <- !NL by lia.
    unfold pow10. rewrite <- !Rpower_plus. f_equal. unfold log_edge. rewrite LL. replace (S i =? 0) with false by reflexivity.
    destruct (Nat.eqb_spec (S i) (length mets)); [lia|]. replace (S i - 1) with i by lia. Lra.lra.
Qed.
Print Assumptions metallicity_bins.
Example metallicity_bins_case : NoDup [2; 1]%R /\ (forall z, In z [2; 1]%R -> (0 < z)%R) /\ centers [2; 1]%R = [1; 2]%R.
Proof.
  split; [|split].
  - constructor; [intros [C|[]]; Lra.lra|]. constructor; [intros [] | constructor].
  - intros z [<- |[<- |[]]]; Lra.lra.
  - unfold centers. cbn [fold_right insert_r]. destruct (Rle_dec 2 1); [Lra.lra | reflexivity].
Qed.

(** A single metallicity: the bin is the whole range up to 1, or of the given width around it,
    or the given range, whether or not that contains the metallicity. *)
Theorem metallicity_single : forall w z, (0 < z)%R ->
  exists lo hi, edges w [z] = [lo; hi] /\
  match w with
  | Free => lo = pow10 (-9) /\ hi = 1%R
  | Width d => lo = (z * pow10 (- d / 2))%R /\ hi = (z * pow10 (d / 2))%R /\ ((0 < d)%R -> (lo < z < hi)%R)
  | Between a b => lo = pow10 a /\ hi = pow10 b
  end.
Proof.
  intros w z Z. unfold edges. cbn [centers fold_right insert_r map log_edges]. destruct w as [|d|a b]; cbn [map]; eexists; eexists; (split; [reflexivity|]).
  - split; [reflexivity|]. unfold pow10. apply Rpower_O. Lra.lra.
  - assert (pow10 (log10 z - d / 2) = z * pow10 (- d / 2))%R as E1.
    { rewrite <- (pow10_log10 z) at 2 by exact Z. unfold pow10. rewrite <- Rpower_plus. f_equal. Lra.lra. }
    assert (pow10 (log10 z + d / 2) = z * pow10 (d / 2))%R as E2.
    { rewrite <- (pow10_log10 z) at 2 by exact Z. unfold pow10. rewrite <- Rpower_plus. reflexivity. }
    split; [exact E1|]. split; [exact E2|]. intro D.
    assert (pow10 (log10 z - d / 2) < pow10 (log10 z) < pow10 (log10 z + d / 2))%R as B by (split; apply pow10_lt; Lra.lra).
    rewrite (pow10_log10 z Z) in B. exact B.
  - split; reflexivity.
Qed.
Print Assumptions metallicity_single.

(** The parameter dlogZ after it went through the file: a list of one number has become a
    width around the metallicity, and of longer lists only the extremes are left. *)
Theorem dlogz_read_back : forall x y l,
  read_back (Numbers [x]) = read_back (Number x) /\
  exists a b, read_back (Numbers (x :: y :: l)) = Ok (Between a b) /\
    In a (x :: y :: l) /\ In b (x :: y :: l) /\ (forall z, In z (x :: y :: l) -> (a <= z <= b)%R).
Proof.
  intros x y l. split; [reflexivity|]. exists (rmin (y :: l) x), (rmax (y :: l) x). split; [reflexivity|].
  assert (forall l x, In (rmin l x) (x :: l) /\ forall z, In z (x :: l) -> (rmin l x <= z)%R) as MI.
  { clear. unfold rmin. induction l as [|a l IH]; intro x; [split; [left; reflexivity | intros z [<- |[]]; cbn; Lra.lra]|]. cbn [fold_left].
    destruct (IH (Rmin x a)) as [I1 I2]. pose proof (I2 _ (or_introl eq_refl)) as J. pose proof (Rmin_l x a). pose proof (Rmin_r x a). split.
    - destruct I1 as [I1|I1]; [|right; right; exact I1]. rewrite <- I1. unfold Rmin; destruct (Rle_dec x a); [left; reflexivity | right; left; reflexivity].
    - intros z [<- |[<- |Z]]; [Lra.lra | Lra.lra | apply I2; right; exact Z]. }
  assert (forall l x, In (rmax l x) (x :: l) /\ forall z, In z (x :: l) -> (z <= rmax l x)%R) as MA.
  { clear. unfold rmax. induction l as [|a l IH]; intro x; [split; [left; reflexivity | intros z [<- |[]]; cbn; Lra.lra]|]. cbn [fold_left].
    destruct (IH (Rmax x a)) as [I1 I2]. pose proof (I2 _ (or_introl eq_refl)) as J. pose proof (Rmax_l x a). pose proof (Rmax_r x a). split.
    - destruct I1 as [I1|I1]; [|right; right; exact I1]. rewrite <- I1. unfold Rmax; destruct (Rle_dec x a); [right; left; reflexivity | left; reflexivity].
    - intros z [<- |[<- |Z]]; [Lra.lra | Lra.lra | apply I2; right; exact Z]. }
  destruct (MI (y :: l) x) as [A1 A2], (MA (y :: l) x) as [B1 B2]. split; [exact A1|]. split; [exact B1|]. intros z Z. split; [apply A2; exact Z | apply B2; exact Z].
Qed.
Print Assumptions dlogz_read_back.
Theorem metallicity_single_refuted : exists lo hi, edges (Between 0 1) [(1 / 10)%R] = [lo; hi] /\ ~ (lo <= 1 / 10 <= hi)%R.
Proof.
  destruct (metallicity_single (Between 0 1) (1 / 10)%R ltac:(Lra.lra)) as (lo & hi & E & -> & ->). exists (pow10 0), (pow10 1). split; [exact E|].
  intros [C _]. unfold pow10 in C. rewrite Rpower_O in C by Lra.lra. Lra.lra.
Qed.
Print Assumptions metallicity_single_refuted.

(** ** Redshift *)
Lemma steps_back_eq : forall age dt k, (steps_back age dt k == age - inject_Z (Z.of_nat k) * dt)%Q.
Proof.
  induction k as [|k IH]; [cbn; ring|]. cbn [steps_back]. rewrite IH. rewrite Nat2Z.inj_succ. unfold Z.succ. rewrite inject_Z_plus. ring.
Qed.
Lemma z_all_ok : forall zat e ts, (forall t, In t ts -> 0 < t)%Q -> z_all zat e ts = Ok (map zat ts).
Proof.
  induction ts as [|t ts IH]; intro P; [reflexivity|]. cbn [z_all map]. unfold z_at at 1. destruct (Qlt_le_dec 0 t) as [C|C].
  - cbn [rbind]. rewrite IH by (intros u U; apply P; right; exact U). reflexivity.
  - specialize (P t (or_introl eq_refl)). lra.
Qed.
Lemma z_all_fails : forall zat e ts t, In t ts -> (t <= 0)%Q -> z_all zat e ts = Raise e.
Proof.
  induction ts as [|u ts IH]; intros t I T; [destruct I|]. cbn [z_all]. unfold z_at. destruct (Qlt_le_dec 0 u) as [C|C]; [|reflexivity]. cbn [rbind].
  destruct I as [<- |I]; [lra|]. rewrite (IH t I T). reflexivity.
Qed.

Section Redshift.
  Variable zat : Q -> Q.
  Variable e : exn.
  Hypothesis zat_proper : Proper (Qeq ==> Qeq) zat.
  (** Older is further away. *)
  Hypothesis zat_decreasing : forall s t, (0 < s)%Q -> (s < t)%Q -> (zat t < zat s)%Q.
  Variables age dt : Q.
  Hypothesis age_pos : (0 < age)%Q.
  Hypothesis dt_pos : (0 < dt)%Q.
  Hypothesis today : (zat age == 0)%Q.
  Let n := n_bins age dt.
  (** What is left before the first complete step. *)
  Let rest := (age - inject_Z (Z.of_nat n) * dt)%Q.

  Lemma rest_range : (0 <= rest < dt)%Q.
  Proof using age_pos dt_pos.
    unfold rest, n, n_bins. assert (0 <= age / dt)%Q as P by (apply Qle_shift_div_l; lra).
    assert (0 <= Qfloor (age / dt))%Z as PF. { change 0%Z with (Qfloor 0). apply Qfloor_resp_le. exact P. }
    rewrite Z2Nat.id by exact PF. pose proof (Qfloor_le (age / dt)) as F1. pose proof (Qlt_floor (age / dt)) as F2. rewrite inject_Z_plus in F2.
    assert (age == (age / dt) * dt)%Q as E by (field; lra). set (fl := inject_Z (Qfloor (age / dt))) in *. set (q := (age / dt)%Q) in *. clearbody fl q.
    change (inject_Z 1) with 1%Q in F2. split; nra.
  Qed.

  Lemma earlier : forall i, i <= n -> (rest <= age - inject_Z (Z.of_nat i) * dt)%Q.
  Proof using dt_pos.
    intros i I. unfold rest. assert (inject_Z (Z.of_nat i) <= inject_Z (Z.of_nat n))%Q as L by (rewrite <- Zle_Qle; lia). nra.
  Qed.

  (** The edges: 0, the redshifts of whole steps back in time, and 100. *)
  Theorem redshift_edges_exact : (0 < rest)%Q ->
    exists edges, redshift_edges zat e age dt = Ok edges /\ length edges = n + 2 /\ nth 0 edges 0%Q = 0%Q /\ nth (S n) edges 0%Q = 100%Q /\
      (forall i, 1 <= i <= n -> (nth i edges 0 == zat (age - inject_Z (Z.of_nat i) * dt))%Q) /\
      (forall i, i < n -> (nth i edges 0 < nth (S i) edges 0)%Q) /\
      ((zat rest < 100)%Q -> forall i j, i < j -> j <= S n -> (nth i edges 0 < nth j edges 0)%Q).
  Proof using zat_proper zat_decreasing age_pos dt_pos today.
    intro RP. pose proof rest_range as RR.
    assert (forall t, In t (map (fun i => steps_back age dt (S i)) (seq 0 n)) -> (0 < t)%Q) as POS.
    { intros t T. apply in_map_iff in T. destruct T as (i & <- & I). apply in_seq in I. rewrite steps_back_eq. pose proof (earlier (S i) ltac:(lia)). lra. }
    unfold redshift_edges. fold n. rewrite z_all_ok by exact POS. cbn [rbind]. eexists. split; [reflexivity|]. rewrite map_map.
    set (zs := map _ _). assert (length zs = n) as LZ by (unfold zs; rewrite map_length, seq_length; reflexivity).
    assert (forall i, i < n -> (nth i zs 0 == zat (age - inject_Z (Z.of_nat (S i)) * dt))%Q) as NZ.
    { intros i I. unfold zs. rewrite (nth_indep _ 0%Q (zat (steps_back age dt (S n)))) by (rewrite map_length, seq_length; exact I).
      rewrite (map_nth (fun k => zat (steps_back age dt (S k)))), seq_nth by exact I. cbn [Nat.add]. rewrite steps_back_eq. reflexivity. }
    assert (forall i, 1 <= i <= n -> (nth i ([0] ++ zs ++ [100]) 0 == zat (age - inject_Z (Z.of_nat i) * dt))%Q) as REG.
    { intros [|i] I; [lia|]. cbn [app nth]. rewrite app_nth1 by lia. apply NZ. lia. }
    assert (nth (S n) ([0] ++ zs ++ [100])%Q 0%Q = 100%Q) as LAST.
    { cbn [app nth]. rewrite app_nth2 by lia. rewrite LZ, Nat.sub_diag. reflexivity. }
    assert (forall i, i < n -> (nth i ([0] ++ zs ++ [100]) 0 < nth (S i) ([0] ++ zs ++ [100]) 0)%Q) as STEP.
    { intros i I. rewrite (REG (S i)) by lia. pose proof (earlier (S i) ltac:(lia)) as EA.
      assert (inject_Z (Z.of_nat (S i)) == inject_Z (Z.of_nat i) + 1)%Q as ES by (rewrite Nat2Z.inj_succ; unfold Z.succ; rewrite inject_Z_plus; reflexivity).
      destruct i as [|i].
      - cbn [app nth]. rewrite <- today. apply zat_decreasing; [lra|]. rewrite ES. change (inject_Z (Z.of_nat 0)) with 0%Q. lra.
      - rewrite (REG (S i)) by lia. apply zat_decreasing; [lra|]. rewrite ES. lra. }
    split; [cbn [app length]; rewrite app_length; cbn [length]; lia|]. split; [reflexivity|]. split; [exact LAST|]. split; [exact REG|]. split; [exact STEP|].
    intros R100 i j IJ J.
    assert (forall k, k <= n -> (nth k ([0] ++ zs ++ [100]) 0 < nth (S k) ([0] ++ zs ++ [100]) 0)%Q) as ST2.
    { intros k K. destruct (Nat.eq_dec k n) as [-> |NE]; [|apply STEP; lia]. rewrite LAST. destruct (Nat.eq_dec n 0) as [E0|E0]; [rewrite E0; reflexivity|]. rewrite REG by lia. exact R100. }
    induction j as [|j IHj]; [lia|]. destruct (Nat.eq_dec i j) as [-> |NE]; [apply ST2; lia|]. specialize (IHj ltac:(lia) ltac:(lia)). specialize (ST2 j ltac:(lia)). lra.
  Qed.

  (** The centres, at half steps: there are as many as bins and they lie in their bins; the
      oldest exists only if more than half a step is left. *)
  Theorem redshift_centers_exact : (dt / 2 < rest)%Q ->
    exists edges c, redshift_edges zat e age dt = Ok edges /\ redshift_centers zat e age dt = Ok c /\ length c = n + 1 /\ length edges = n + 2 /\
      (forall i, i <= n -> (nth i c 0 == zat (age - inject_Z (Z.of_nat i) * dt - dt / 2))%Q) /\
      (forall i, i < n -> (nth i edges 0 < nth i c 0 < nth (S i) edges 0)%Q) /\
      (nth n edges 0 < nth n c 0)%Q.
  Proof using zat_proper zat_decreasing age_pos dt_pos today.
    intro RP. assert (dt / 2 == (1 # 2) * dt)%Q as H2 by field.
    destruct (redshift_edges_exact ltac:(lra)) as (ed & EE & LE & E0 & _ & REG & _ & _).
    unfold redshift_centers. fold n. rewrite z_all_ok.
    2:{ intros t T. apply in_map_iff in T. destruct T as (i & <- & I). apply in_seq in I. rewrite steps_back_eq. pose proof (earlier i ltac:(lia)). lra. }
    exists ed. eexists. split; [exact EE|]. split; [reflexivity|]. rewrite map_map. split; [rewrite map_length, seq_length; reflexivity|]. split; [exact LE|].
    set (c := map _ _).
    assert (forall i, i <= n -> (nth i c 0 == zat (age - inject_Z (Z.of_nat i) * dt - dt / 2))%Q) as NC.
    { intros i I. unfold c. rewrite (nth_indep _ 0%Q (zat (steps_back age dt n - dt / 2))) by (rewrite map_length, seq_length; lia).
      rewrite (map_nth (fun k => zat (steps_back age dt k - dt / 2))%Q), seq_nth by lia. cbn [Nat.add]. apply zat_proper. rewrite steps_back_eq. reflexivity. }
    assert (forall i, i <= n -> (nth i ed 0 < nth i c 0)%Q) as LOW.
    { intros i I. rewrite NC by exact I. pose proof (earlier i I) as EA. destruct i as [|i].
      - rewrite E0, <- today. change (inject_Z (Z.of_nat 0)) with 0%Q in *. apply zat_decreasing; lra.
      - rewrite REG by lia. apply zat_decreasing; lra. }
    split; [exact NC|]. split; [|apply LOW; lia].
    intros i I. split; [apply LOW; lia|]. rewrite NC by lia. rewrite REG by lia. pose proof (earlier (S i) ltac:(lia)) as EA.
    assert (inject_Z (Z.of_nat (S i)) == inject_Z (Z.of_nat i) + 1)%Q as ES by (rewrite Nat2Z.inj_succ; unfold Z.succ; rewrite inject_Z_plus; reflexivity).
    apply zat_decreasing; [lra|]. rewrite ES. lra.
  Qed.

  (** Otherwise the bins cannot be computed at all. *)
  Theorem redshift_bins_fail_refuted : (rest <= dt / 2)%Q -> redshift_centers zat e age dt = Raise e.
  Proof using dt_pos.
    intro RP. unfold redshift_centers. fold n. apply (z_all_fails _ _ _ (steps_back age dt n - dt / 2)%Q).
    - apply in_map_iff. exists n. split; [reflexivity|]. apply in_seq. lia.
    - rewrite steps_back_eq. fold rest. lra.
  Qed.
  (** The bins stand for more time than the age: the oldest counts as a whole step. *)
  Theorem redshift_time_counted : (age < inject_Z (Z.of_nat (n + 1)) * dt <= age + dt)%Q.
  Proof using age_pos dt_pos.
    pose proof rest_range as [R1 R2]. unfold rest in *. rewrite Nat2Z.inj_add, inject_Z_plus. change (inject_Z (Z.of_nat 1)) with 1%Q. split; lra.
  Qed.
End Redshift.
Print Assumptions redshift_edges_exact.
Print Assumptions redshift_centers_exact.
Print Assumptions redshift_bins_fail_refuted.
Print Assumptions redshift_time_counted.

Example redshift_case : redshift_edges (fun t => 5 / t - 1)%Q IndexError 5 3 = Ok [0; 5 / (5 - 3) - 1; 100]%Q /\
  match redshift_centers (fun t => 5 / t - 1)%Q IndexError 5 3 with Ok l => map Qred l = [3 # 7; 9]%Q | _ => False end.
Proof. split; vm_compute; reflexivity. Qed.
(** Oldest bin beyond redshift 100: the edges are not in order. *)
Theorem redshift_edges_order_refuted : match redshift_edges (fun t => 5 / t - 1)%Q IndexError 5 (499 # 100) with Ok l => map Qred l = [0; 499; 100]%Q | _ => False end.
Proof. vm_compute. reflexivity. Qed.
Theorem redshift_centers_case_refuted : redshift_centers (fun t => 5 / t - 1)%Q IndexError 5 2 = Raise IndexError.
Proof. reflexivity. Qed.
