(** C37: fractions of star formation per metallicity bin; C56: tabulated histories;
    C57: choice of the history. *)
From Coq Require Import String List QArith Bool Lia Permutation Lqa Morphisms.
From Verif Require Import PyBase PyList InterpModel InterpSpec InterpProofs InterpProps SfhModel SfhSpec SfhProofs.
Import ListNotations.
Open Scope string_scope.
Open Scope nat_scope.
Open Scope list_scope.

(** Every bin gets the share of the distribution between its edges that lies within the limits;
    the outer bins reach to limits beyond them. *)
Theorem fractions_exact : forall F bins zmin zmax, Proper (Qeq ==> Qeq) F -> rising bins = true -> 2 <= length bins ->
  limits_meet bins zmin zmax ->
  exists v, distribute F bins zmin zmax false = Ok (map Some v) /\ length v = length bins - 1 /\
    (forall i, i < length bins - 1 ->
       (nth i v 0 == share F (low_limit bins zmin) (high_limit bins zmax) (low_edge bins (low_limit bins zmin) i) (high_edge bins (high_limit bins zmax) i))%Q) /\
    (qsum v == F (high_limit bins zmax) - F (low_limit bins zmin))%Q /\
    ((forall x y, x <= y -> F x <= F y)%Q -> Forall (fun x => 0 <= x)%Q v).
Proof.
  intros F bins zmin zmax FP R L2 M. destruct (distribute_values F FP bins R L2 zmin zmax M) as (LU & v & LV & VV & E).
  exists v. split; [rewrite (E false); reflexivity|]. split; [exact LV|].
  assert (forall i, i < length bins - 1 -> (low_edge bins (low_limit bins zmin) i <= high_edge bins (high_limit bins zmax) i)%Q) as EDGE.
  { intros i I. pose proof (rising_lt bins R i (S i) ltac:(lia) ltac:(lia)) as LT. unfold low_edge, high_edge, smaller, larger.
    destruct (Nat.eqb_spec i 0) as [I0|I0], (Nat.eqb_spec (S i) (length bins - 1)); try rewrite I0 in *;
    repeat match goal with |- context [if Qlt_le_dec ?x ?y then _ else _] => destruct (Qlt_le_dec x y) end; lra. }
  assert (forall i, i < length bins - 1 ->
       (nth i v 0 == share F (low_limit bins zmin) (high_limit bins zmax) (low_edge bins (low_limit bins zmin) i) (high_edge bins (high_limit bins zmax) i))%Q) as SH.
  { intros i I. rewrite VV by exact I. rewrite share_clamp; [reflexivity | exact FP | exact LU | apply EDGE; exact I]. }
  split; [exact SH|]. split; [apply (sum_values F FP bins R L2); assumption|].
  intro MON. apply Forall_forall. intros x IX. apply In_nth with (d := 0%Q) in IX. destruct IX as (i & I & <-).
  rewrite SH by lia. unfold share. destruct (Qlt_le_dec _ _) as [Q|Q]; [|lra]. specialize (MON _ _ (Qlt_le_weak _ _ Q)). lra.
Qed.
Print Assumptions fractions_exact.

Lemma qsum_div : forall l c, ~ (c == 0)%Q -> (qsum (map (fun x => x / c) l) == qsum l / c)%Q.
Proof.
  unfold qsum. induction l as [|x l IH]; intros c C; cbn [map fold_right]; [field; exact C|]. rewrite IH by exact C. field. exact C.
Qed.

(** With normalisation the fractions add up to one, unless the distribution does not grow
    between the limits: then no fraction is a number. *)
Theorem fractions_normalised : forall F bins zmin zmax, Proper (Qeq ==> Qeq) F -> rising bins = true -> 2 <= length bins ->
  limits_meet bins zmin zmax ->
  exists v, distribute F bins zmin zmax false = Ok (map Some v) /\
  (~ (F (high_limit bins zmax) == F (low_limit bins zmin))%Q ->
     exists w, distribute F bins zmin zmax true = Ok (map Some w) /\ (qsum w == 1)%Q /\ length w = length v /\
       forall i, i < length v -> (nth i w 0 * (F (high_limit bins zmax) - F (low_limit bins zmin)) == nth i v 0)%Q) /\
  ((F (high_limit bins zmax) == F (low_limit bins zmin))%Q -> distribute F bins zmin zmax true = Ok (map (fun _ => None) v)).
Proof.
  intros F bins zmin zmax FP R L2 M. destruct (distribute_values F FP bins R L2 zmin zmax M) as (LU & v & LV & VV & E).
  pose proof (sum_values F FP bins R L2 zmin zmax v LU LV VV) as SUM.
  exists v. split; [rewrite (E false); reflexivity|]. rewrite (E true). split.
  - intro NE. assert (~ (qsum v == 0)%Q) as NZ by (rewrite SUM; intro C; apply NE; lra).
    exists (map (fun x => x / qsum v)%Q v). split.
    { f_equal. rewrite map_map. apply map_ext. intro x. destruct (Qeq_bool (qsum v) 0) eqn:Q; [apply Qeq_bool_iff in Q; contradiction | reflexivity]. }
    split; [rewrite qsum_div by exact NZ; field; exact NZ|]. split; [apply map_length|].
    intros i I. assert (nth i (map (fun x => x / qsum v) v) 0 == nth i v 0 / qsum v)%Q as ->.
    { rewrite (nth_indep _ 0%Q (0 / qsum v)%Q) by (rewrite map_length; exact I).
      rewrite (map_nth (fun x => x / qsum v)%Q). reflexivity. }
    rewrite <- SUM. field. exact NZ.
  - intro EQ. f_equal. apply map_ext. intro x. assert (qsum v == 0)%Q as Z by (rewrite SUM; lra). apply Qeq_bool_iff in Z. rewrite Z. reflexivity.
Qed.
Print Assumptions fractions_normalised.

Definition half : Q -> Q := fun x => (x / 2)%Q.
Example fractions_case : map (option_map Qred) (match distribute half [1; 2; 4; 8]%Q (Some (3 # 2)%Q) (Some 10%Q) true with Ok l => l | _ => [] end)
  = [Some (1 # 17); Some (4 # 17); Some (12 # 17)]%Q.
Proof. vm_compute. reflexivity. Qed.
Example fractions_case_meets : rising [1; 2; 4; 8]%Q = true /\ limits_meet [1; 2; 4; 8]%Q (Some (3 # 2)%Q) (Some 10%Q).
Proof. split; [reflexivity|]. repeat split; unfold Qle, Qlt; cbn; lia. Qed.

(** Limits that do not meet the bins.  An upper limit below the bins leaves nothing (not a
    number when normalised); if a lower limit is also given, the lowest bin gets everything up
    to its upper edge, although nothing of it lies within the limits; a lower limit above the
    bins is an error. *)
Theorem fractions_above : forall F bins z, rising bins = true -> 2 <= length bins -> (z <= nth 0 bins 0)%Q ->
  distribute F bins None (Some z) false = Ok (map (fun _ => Some 0%Q) (seq 0 (length bins - 1))).
Proof.
  intros F bins z R L2 Z. unfold distribute. rewrite R. cbn [negb]. unfold cut_above.
  destruct (length bins - 1) as [|k] eqn:N; [lia|].
  pose proof (rising_lt bins R 0 (S k) ltac:(lia) ltac:(lia)) as LT.
  destruct (Qle_bool (nth (S k) bins 0%Q) z) eqn:Q; [apply Qle_bool_iff in Q; lra|].
  destruct (searchsorted_spec bins z R) as (_ & S2 & _). destruct (searchsorted bins z) as [|j] eqn:ES.
  - cbn [rbind fst snd cut_below]. f_equal. unfold zero_from. cbn [firstn skipn app]. unfold plain. rewrite !map_map, N. apply map_ext. reflexivity.
  - specialize (S2 0 ltac:(lia)). lra.
Qed.
Print Assumptions fractions_above.
Theorem fractions_both_below_refuted : forall F b0 b1 a z, (b0 < b1)%Q -> (a < z)%Q -> (z <= b0)%Q ->
  exists v, distribute F [b0; b1] (Some a) (Some z) false = Ok [Some v] /\ v = (F b1 - F a)%Q.
Proof.
  intros F b0 b1 a z B A Z. unfold distribute. cbn [rising]. assert (qlt b0 b1 = true) as -> by (apply qlt_true; exact B). cbn [andb negb].
  unfold cut_above. cbn [length Nat.sub nth].
  destruct (Qle_bool b1 z) eqn:Q; [apply Qle_bool_iff in Q; lra|]. unfold searchsorted. cbn [filter].
  assert (qlt b0 z = false) as -> by (apply qlt_false; lra). assert (qlt b1 z = false) as -> by (apply qlt_false; lra).
  cbn [length rbind fst snd]. unfold cut_below. cbn [length Nat.sub nth].
  assert (Qle_bool a b0 = true) as -> by (apply Qle_bool_iff; lra). cbn [rbind fst snd]. eexists. split; reflexivity.
Qed.
Print Assumptions fractions_both_below_refuted.
Theorem fractions_refused : forall F bins zmin zmax normalise,
  (rising bins = false -> distribute F bins zmin zmax normalise = Raise ValueError) /\
  (forall z, rising bins = true -> 2 <= length bins -> zmin = Some z -> (nth (length bins - 1) bins 0 < z)%Q -> zmax = None ->
     distribute F bins zmin zmax normalise = Raise IndexError).
Proof.
  intros. split.
  - intro R. unfold distribute. rewrite R. reflexivity.
  - intros z R L2 -> Z ->. unfold distribute. rewrite R. cbn [negb cut_above rbind fst snd]. unfold cut_below.
    destruct (length bins - 1) as [|k] eqn:N; [lia|].
    pose proof (rising_lt bins R 0 (S k) ltac:(lia) ltac:(lia)) as LT.
    destruct (Qle_bool z (nth 0 bins 0%Q)) eqn:Q; [apply Qle_bool_iff in Q; lra|].
    destruct (searchsorted_spec bins z R) as (S1 & S2 & S3).
    assert (searchsorted bins z = S (S k)) as ->.
    { destruct (le_lt_dec (searchsorted bins z) (S k)) as [C|C]; [|lia]. specialize (S3 (S k) C ltac:(lia)). lra. }
    cbn [Nat.sub]. destruct (Nat.leb_spec (S k) (S k)); [reflexivity | lia].
Qed.
Print Assumptions fractions_refused.

(** Limits accepted by the constructor. *)
Theorem limits_checked : forall zmin zmax, check_limits zmin zmax = Ok tt <->
  match zmin with Some a => (0 <= a <= 1)%Q | None => True end /\ match zmax with Some b => (0 <= b <= 1)%Q | None => True end /\
  match zmin, zmax with Some a, Some b => (a < b)%Q | _, _ => True end.
Proof.
  assert (forall a, (if qlt 1 a then Raise ValueError else if qlt a 0 then Raise ValueError else Ok tt) = Ok tt <-> (0 <= a <= 1)%Q) as X1.
  { intro a. destruct (qlt 1 a) eqn:Q1; [apply qlt_true in Q1; split; [discriminate | intros []; lra]|]. apply qlt_false in Q1.
    destruct (qlt a 0) eqn:Q2; [apply qlt_true in Q2; split; [discriminate | intros []; lra]|]. apply qlt_false in Q2. split; [intros _; split; lra | reflexivity]. }
  assert (forall a, (if qlt a 0 then Raise ValueError else if qlt 1 a then Raise ValueError else Ok tt) = Ok tt <-> (0 <= a <= 1)%Q) as X2.
  { intro a. destruct (qlt a 0) eqn:Q1; [apply qlt_true in Q1; split; [discriminate | intros []; lra]|]. apply qlt_false in Q1.
    destruct (qlt 1 a) eqn:Q2; [apply qlt_true in Q2; split; [discriminate | intros []; lra]|]. apply qlt_false in Q2. split; [intros _; split; lra | reflexivity]. }
  intros zmin zmax. unfold check_limits. destruct zmax as [b|].
  - specialize (X1 b). destruct (if qlt 1 b then _ else _) as [[]|e] eqn:E1; cbn [rbind].
    + destruct zmin as [a|].
      * specialize (X2 a). destruct (if qlt a 0 then _ else _) as [[]|e] eqn:E2; cbn [rbind].
        -- destruct (Qle_bool b a) eqn:Q; [apply Qle_bool_iff in Q; split; [discriminate | intros (_ & _ & C); lra]|].
           split; [intros _|reflexivity]. split; [apply X2; reflexivity|]. split; [apply X1; reflexivity|].
           apply Qnot_le_lt. intro C. apply Qle_bool_iff in C. congruence.
        -- split; [discriminate|]. intros (C & _). apply X2 in C. discriminate.
      * split; [intros _; split; [exact I|]; split; [apply X1; reflexivity | exact I] | reflexivity].
    + split; [discriminate|]. intros (_ & C & _). apply X1 in C. discriminate.
  - cbn [rbind]. destruct zmin as [a|]; [|tauto]. specialize (X2 a). destruct (if qlt a 0 then _ else _) as [[]|e] eqn:E2; cbn [rbind]; [tauto|].
    split; [discriminate|]. intros (C & _). apply X2 in C. discriminate.
Qed.
Print Assumptions limits_checked.

(** ** C56: tabulated histories *)
Lemma call_eq : forall f q r, (q == r)%Q -> match call f q, call f r with Ok v, Ok w => (v == w)%Q | Raise a, Raise b => a = b | _, _ => False end.
Proof.
  intros f q r E. unfold call. destruct (negb (length (i_x f) =? length (i_y f))); [reflexivity|].
  assert (forall a, qlt q a = qlt r a) as Q1.
  { intro a. destruct (qlt q a) eqn:A, (qlt r a) eqn:B; try reflexivity; [apply qlt_true in A; apply qlt_false in B | apply qlt_false in A; apply qlt_true in B]; lra. }
  assert (forall a, qlt a q = qlt a r) as Q2.
  { intro a. destruct (qlt a q) eqn:A, (qlt a r) eqn:B; try reflexivity; [apply qlt_true in A; apply qlt_false in B | apply qlt_false in A; apply qlt_true in B]; lra. }
  destruct (combine (i_x f) (i_y f)) as [|[x0 y0] l]; [reflexivity|]. destruct (rev ((x0, y0) :: l)) as [|[xn yn] rr]; [reflexivity|].
  rewrite Q1, Q2. destruct (qlt r x0).
  - destruct (i_extrapolate f), l as [|[x1 y1] l']; try reflexivity. rewrite E. reflexivity.
  - destruct (qlt xn r); [|apply locate_eq; exact E]. destruct (i_extrapolate f), rr as [|[x1 y1] l']; try reflexivity. rewrite E. reflexivity.
Qed.
Lemma table_cdf_proper : forall lg f, Proper (Qeq ==> Qeq) lg -> Proper (Qeq ==> Qeq) (table_cdf lg f).
Proof.
  intros lg f P x y E. unfold table_cdf. pose proof (call_eq f (lg x) (lg y) (P x y E)) as C.
  destruct (call f (lg x)), (call f (lg y)); try contradiction; [exact C | reflexivity].
Qed.

Lemma qsum_nonneg : forall l, Forall (fun x => 0 <= x)%Q l -> (0 <= qsum l)%Q.
Proof. intros l P. unfold qsum. induction P; cbn [fold_right]; lra. Qed.
Lemma length_cumsum : forall l a, length (cumsum a l) = length l.
Proof. induction l as [|x l IH]; intro a; cbn [cumsum length]; [reflexivity | rewrite IH; reflexivity]. Qed.
Lemma cumsum_bounds : forall l a i, Forall (fun x => 0 <= x)%Q l -> i < length l ->
  (a <= nth i (cumsum a l) 0 <= a + qsum l)%Q /\ (forall j, i <= j -> j < length l -> (nth i (cumsum a l) 0 <= nth j (cumsum a l) 0)%Q).
Proof.
  induction l as [|x l IH]; intros a i P I; [cbn in I; lia|]. inversion P as [|? ? P1 P2]; subst.
  pose proof (qsum_nonneg l P2) as S0.
  change (qsum (x :: l)) with (x + qsum l)%Q. cbn [cumsum]. destruct i as [|i]; cbn [nth].
  - split; [split; lra|]. intros [|j] _ J; cbn [nth]; [lra|]. destruct (IH (a + x)%Q j P2 ltac:(cbn in J; lia)) as [[B _] _]. exact B.
  - destruct (IH (a + x)%Q i P2 ltac:(cbn in I; lia)) as [[B1 B2] B3]. split; [split; lra|].
    intros [|j] IJ J; [lia|]. cbn [nth]. apply B3; [lia | cbn in J; lia].
Qed.

Section Tabulated.
  Variable lg : Q -> Q.
  Hypothesis lg_proper : Proper (Qeq ==> Qeq) lg.
  Hypothesis lg_mono : forall x y, (x < y)%Q -> (lg x < lg y)%Q.
  Variables mets masses : list Q.
  Hypothesis mets_rising : rising mets = true.
  Hypothesis mets_below : Forall (fun z => lg z < 0)%Q mets.
  Hypothesis same_length : length masses = length mets.
  Hypothesis not_empty : mets <> [].
  Hypothesis masses_pos : Forall (fun m => 0 <= m)%Q masses.
  Hypothesis some_mass : ~ (qsum masses == 0)%Q.

  Let xs := map lg mets ++ [0%Q].
  Let ys := map (fun c => c / qsum masses)%Q (cumsum 0 masses) ++ [1%Q].
  Let n := length mets.

  Lemma xs_length : length xs = length ys.
  Proof using same_length. unfold xs, ys. rewrite !app_length, !map_length, length_cumsum. cbn [length]. lia. Qed.
  Lemma nth_xs : forall i, nth i xs 0%Q = if i <? n then lg (nth i mets 0%Q) else 0%Q.
  Proof using Type.
    intro i. unfold xs, n. destruct (Nat.ltb_spec i (length mets)) as [L|L].
    - rewrite app_nth1 by (rewrite map_length; exact L). rewrite (nth_indep _ 0%Q (lg 0%Q)) by (rewrite map_length; exact L). apply map_nth.
    - rewrite app_nth2 by (rewrite map_length; exact L). rewrite map_length. destruct (i - length mets) as [|[|k]]; reflexivity.
  Qed.
  Lemma nth_ys : forall i, i <= n -> (nth i ys 0 == if i <? n then nth i (cumsum 0 masses) 0 / qsum masses else 1)%Q.
  Proof using same_length.
    intros i I. unfold ys, n in *. destruct (Nat.ltb_spec i (length mets)) as [L|L].
    - rewrite app_nth1 by (rewrite map_length, length_cumsum; lia). 
      rewrite (nth_indep _ 0%Q (0 / qsum masses)%Q) by (rewrite map_length, length_cumsum; lia). rewrite (map_nth (fun c => c / qsum masses)%Q). reflexivity.
    - rewrite app_nth2 by (rewrite map_length, length_cumsum; lia). rewrite map_length, length_cumsum. replace (i - length masses) with 0 by lia. reflexivity.
  Qed.
  Lemma xs_lt : forall i j, i < j -> j <= n -> (nth i xs 0 < nth j xs 0)%Q.
  Proof using mets_rising lg_mono mets_below same_length.
    intros i j IJ J. rewrite !nth_xs. destruct (Nat.ltb_spec i n); [|lia]. destruct (Nat.ltb_spec j n).
    - apply lg_mono. apply rising_lt; assumption.
    - rewrite Forall_forall in mets_below. apply mets_below. apply nth_In. assumption.
  Qed.
  Lemma total_pos : (0 < qsum masses)%Q.
  Proof using some_mass masses_pos.
    pose proof (qsum_nonneg masses masses_pos) as P.
    destruct (Qlt_le_dec 0 (qsum masses)) as [H|H]; [exact H|]. exfalso. apply some_mass. lra.
  Qed.
  Lemma ys_le : forall i j, i <= j -> j <= n -> (0 <= nth i ys 0 /\ nth i ys 0 <= nth j ys 0 /\ nth j ys 0 <= 1)%Q.
  Proof using same_length some_mass masses_pos.
    intros i j IJ J. pose proof total_pos as T. rewrite !nth_ys by lia.
    assert (forall k, k < n -> (0 <= nth k (cumsum 0 masses) 0 / qsum masses <= 1)%Q) as B.
    { intros k K. destruct (cumsum_bounds masses 0 k masses_pos ltac:(unfold n in *; lia)) as [[B1 B2] _].
      split; [apply Qle_shift_div_l; lra | apply Qle_shift_div_r; lra]. }
    destruct (Nat.ltb_spec i n), (Nat.ltb_spec j n); try lia.
    - destruct (cumsum_bounds masses 0 i masses_pos ltac:(unfold n in *; lia)) as [_ B3]. specialize (B3 j IJ ltac:(unfold n in *; lia)).
      destruct (B i), (B j); try assumption. split; [assumption|]. split; [|assumption].
      unfold Qdiv. apply Qmult_le_compat_r; [exact B3 | apply Qlt_le_weak, Qinv_lt_0_compat; exact T].
    - destruct (B i); [assumption|]. split; [assumption|]. split; [assumption | lra].
    - split; [lra|]. split; lra.
  Qed.
  Lemma nodes_in : forall p, In p (combine xs ys) <-> exists i, i <= n /\ p = (nth i xs 0%Q, nth i ys 0%Q).
  Proof using same_length.
    intro p. assert (length xs = S n) as LX by (unfold xs, n; rewrite app_length, map_length; cbn; lia). pose proof xs_length as LE. split.
    - intro I. apply In_nth with (d := (0%Q, 0%Q)) in I. destruct I as (i & I & <-). rewrite combine_length in I. exists i. split; [lia|].
      apply combine_nth. exact LE.
    - intros (i & I & ->). rewrite <- combine_nth by exact LE. apply nth_In. rewrite combine_length. lia.
  Qed.
  Lemma nodes_distinct : distinct_x (combine xs ys).
  Proof using mets_rising lg_mono mets_below same_length.
    pose proof xs_length as LE. assert (length xs = S n) as LX by (unfold xs, n; rewrite app_length, map_length; cbn; lia).
    assert (forall l, (forall i j, i < j -> j < length l -> (fst (nth i l (0%Q, 0%Q)) < fst (nth j l (0%Q, 0%Q)))%Q) -> distinct_x l) as G.
    { induction l as [|p l IH]; intro H; [constructor|]. constructor.
      - apply Forall_forall. intros r IR. apply In_nth with (d := (0%Q, 0%Q)) in IR. destruct IR as (k & K & <-).
        specialize (H 0 (S k) ltac:(lia) ltac:(cbn; lia)). cbn [nth] in H. lra.
      - apply IH. intros i j IJ J. apply (H (S i) (S j)); [lia | cbn; lia]. }
    apply G. intros i j IJ J. rewrite combine_length in J. rewrite !combine_nth by exact LE. cbn [fst]. apply xs_lt; [exact IJ | lia].
  Qed.

  (** The table gives a distribution function: it is built, does not decrease, is the share of
      the first entry up to the first metallicity, and 1 from metallicity 1 on. *)
  Theorem tabulated_cdf : exists f, tabulated lg mets masses = Ok f /\
    (forall x y, (x <= y)%Q -> (table_cdf lg f x <= table_cdf lg f y)%Q) /\
    (forall x, (lg x <= lg (nth 0 mets 0%Q))%Q -> (table_cdf lg f x == nth 0 masses 0 / qsum masses)%Q) /\
    (forall x, (0 <= lg x)%Q -> (table_cdf lg f x == 1)%Q) /\
    (forall i, i < length mets -> (table_cdf lg f (nth i mets 0) == qsum (firstn (S i) masses) / qsum masses)%Q).
  Proof using lg_proper lg_mono mets_rising mets_below same_length not_empty masses_pos some_mass.
    unfold tabulated. fold xs ys.
    assert (1 <= n) as N1 by (unfold n; destruct mets; [contradiction | cbn; lia]).
    assert (length xs = S n) as LX by (unfold xs, n; rewrite app_length, map_length; cbn; lia).
    destruct (interp_exact xs ys NoFill None None xs_length ltac:(unfold xs; destruct (map lg mets); discriminate) nodes_distinct ltac:(discriminate)) as (f & E & H).
    exists f. split; [exact E|].
    assert (lowest (combine xs ys) (nth 0 xs 0%Q, nth 0 ys 0%Q)) as LO.
    { split; [apply nodes_in; exists 0; split; [lia | reflexivity]|]. intros m M. apply nodes_in in M. destruct M as (i & I & ->). cbn [fst].
      destruct i; [lra|]. apply Qlt_le_weak, xs_lt; lia. }
    assert (highest (combine xs ys) (nth n xs 0%Q, nth n ys 0%Q)) as HI.
    { split; [apply nodes_in; exists n; split; [lia | reflexivity]|]. intros m M. apply nodes_in in M. destruct M as (i & I & ->). cbn [fst].
      destruct (Nat.eq_dec i n) as [-> |]; [lra|]. apply Qlt_le_weak, xs_lt; lia. }
    assert (nth n xs 0 == 0)%Q as XN by (rewrite nth_xs, Nat.ltb_irrefl; reflexivity).
    assert (nth n ys 0 == 1)%Q as YN by (rewrite nth_ys by lia; rewrite Nat.ltb_irrefl; reflexivity).
    assert (nth 0 xs 0 == lg (nth 0 mets 0))%Q as X0 by (rewrite nth_xs; destruct (Nat.ltb_spec 0 n); [reflexivity | lia]).
    assert (nth 0 ys 0 == nth 0 masses 0 / qsum masses)%Q as Y0.
    { rewrite nth_ys by lia. destruct (Nat.ltb_spec 0 n); [|lia]. destruct masses as [|m0 ms]; [cbn in same_length; unfold n in *; lia|]. cbn [cumsum nth].
      assert (0 + m0 == m0)%Q as -> by ring. reflexivity. }
    set (F := fun q => match call f q with Ok v => v | Raise _ => 0%Q end).
    assert (forall q, exists w, call f q = Ok w) as TOT by (intro q; destruct (H q) as (w & W & _); exists w; exact W).
    assert (forall q, (q <= nth 0 xs 0)%Q -> (F q == nth 0 ys 0)%Q) as LEFT.
    { intros q Q. unfold F. destruct (H q) as (w & -> & A & _ & B & _).
      destruct (Qlt_le_dec q (nth 0 xs 0%Q)) as [C|C].
      - specialize (B _ LO C). cbn in B. rewrite B. reflexivity.
      - apply (A (nth 0 xs 0%Q, nth 0 ys 0%Q)); [apply LO | cbn [fst]; lra]. }
    assert (forall q, (nth n xs 0 <= q)%Q -> (F q == 1)%Q) as RIGHT.
    { intros q Q. unfold F. rewrite <- YN. destruct (H q) as (w & -> & A & _ & _ & B).
      destruct (Qlt_le_dec (nth n xs 0%Q) q) as [C|C].
      - specialize (B _ HI C). cbn in B. rewrite B. reflexivity.
      - apply (A (nth n xs 0%Q, nth n ys 0%Q)); [apply HI | cbn [fst]; lra]. }
    assert (forall q1 q2, (nth 0 xs 0 <= q1)%Q -> (q1 < q2)%Q -> (q2 <= nth n xs 0)%Q -> (F q1 <= F q2)%Q) as MID.
    { intros q1 q2 Q1 Q2 Q3. unfold F. destruct (TOT q1) as (w1 & E1). destruct (TOT q2) as (w2 & E2). rewrite E1, E2.
      apply (interp_monotone xs ys NoFill None None f q1 q2 w1 w2 (nth 0 xs 0%Q, nth 0 ys 0%Q) (nth n xs 0%Q, nth n ys 0%Q)); try assumption.
      - apply xs_length.
      - lia.
      - apply nodes_distinct.
      - intros a b A B AB. apply nodes_in in A. apply nodes_in in B. destruct A as (i & I & ->), B as (j & J & ->). cbn [fst snd] in *.
        destruct (le_lt_dec i j) as [IJ|IJ]; [apply (ys_le i j IJ J)|]. pose proof (xs_lt j i IJ I). lra. }
    assert (forall q1 q2, (q1 <= q2)%Q -> (F q1 <= F q2)%Q) as MONO.
    { assert (forall q r, (q == r)%Q -> (F q == F r)%Q) as FE.
      { intros q r QR. unfold F. pose proof (call_eq f q r QR) as C. destruct (TOT q) as (w1 & E1). destruct (TOT r) as (w2 & E2). rewrite E1, E2 in *. exact C. }
      pose proof (xs_lt 0 n ltac:(lia) ltac:(lia)) as X0N. 
      assert (forall q, (F q <= 1)%Q /\ (nth 0 ys 0 <= F q)%Q) as BND.
      { intro q. pose proof (ys_le 0 n ltac:(lia) ltac:(lia)) as (? & ? & ?).
        destruct (Qlt_le_dec q (nth 0 xs 0%Q)) as [C|C]; [rewrite LEFT by lra; split; lra|].
        destruct (Qlt_le_dec (nth n xs 0%Q) q) as [D|D]; [rewrite RIGHT by lra; split; lra|].
        split.
        - destruct (Qlt_le_dec q (nth n xs 0%Q)) as [G|G]; [|rewrite RIGHT by lra; lra]. pose proof (MID q (nth n xs 0%Q) C G ltac:(lra)) as K. rewrite (RIGHT (nth n xs 0%Q)) in K by lra. exact K.
        - destruct (Qlt_le_dec (nth 0 xs 0%Q) q) as [G|G]; [|rewrite LEFT by lra; lra]. pose proof (MID (nth 0 xs 0%Q) q ltac:(lra) G D) as K. rewrite (LEFT (nth 0 xs 0%Q)) in K by lra. exact K. }
      intros q1 q2 Q. destruct (Qlt_le_dec q1 (nth 0 xs 0%Q)) as [C|C]; [rewrite (LEFT q1) by lra; apply BND|].
      destruct (Qlt_le_dec (nth n xs 0%Q) q2) as [D|D]; [rewrite (RIGHT q2) by lra; apply BND|].
      destruct (Qlt_le_dec q1 q2) as [G|G]; [apply MID; assumption|]. rewrite (FE q1 q2) by lra. lra. }
    change (table_cdf lg f) with (fun x => F (lg x)). cbv beta.
    split; [|split; [|split]].
    - intros x y XY. apply MONO. destruct (Qlt_le_dec x y) as [C|C]; [apply Qlt_le_weak, lg_mono; exact C|]. assert (x == y)%Q as -> by lra. lra.
    - intros x X. rewrite LEFT by lra. exact Y0.
    - intros x X. apply RIGHT. lra.
    - intros i I. unfold F. destruct (H (lg (nth i mets 0%Q))) as (w & -> & A & _).
      rewrite (A (nth i xs 0%Q, nth i ys 0%Q)); [|apply nodes_in; exists i; split; [unfold n; lia | reflexivity] | cbn [fst]; rewrite nth_xs; destruct (Nat.ltb_spec i n); [reflexivity | unfold n in *; lia]].
      cbn [snd]. rewrite nth_ys by (unfold n; lia). destruct (Nat.ltb_spec i n); [|unfold n in *; lia].
      assert (forall l a k, k < length l -> (nth k (cumsum a l) 0 == a + qsum (firstn (S k) l))%Q) as CS.
      { clear. induction l as [|x l IH]; intros a k K; [cbn in K; lia|]. destruct k as [|k].
        - cbn [cumsum nth]. unfold qsum. cbn [firstn fold_right]. ring.
        - cbn [cumsum nth]. rewrite IH by (cbn in K; lia). change (firstn (S (S k)) (x :: l)) with (x :: firstn (S k) l).
          change (qsum (x :: firstn (S k) l)) with (x + qsum (firstn (S k) l))%Q. ring. }
      rewrite CS by lia. assert (0 + qsum (firstn (S i) masses) == qsum (firstn (S i) masses))%Q as -> by ring. reflexivity.
  Qed.

  (** Bins covering the whole table: the mass in the first column is not assigned to any bin
      unless the fractions are normalised. *)
  Theorem tabulated_total : forall bins, rising bins = true -> 2 <= length bins ->
    (lg (nth 0 bins 0%Q) <= lg (nth 0 mets 0%Q))%Q -> (0 <= lg (nth (length bins - 1) bins 0%Q))%Q ->
    exists v, table_row lg mets masses bins None None false = Ok (map Some v) /\ Forall (fun x => 0 <= x)%Q v /\
      (qsum v == 1 - nth 0 masses 0 / qsum masses)%Q.
  Proof using lg_proper lg_mono mets_rising mets_below same_length not_empty masses_pos some_mass.
    intros bins R L2 LO HI. destruct tabulated_cdf as (f & E & MON & LEFT & RIGHT & _).
    unfold table_row. destruct (Qeq_bool (qsum masses) 0) eqn:Z; [apply Qeq_bool_iff in Z; contradiction|]. rewrite E. cbn [rbind].
    destruct (fractions_exact (table_cdf lg f) bins None None (table_cdf_proper lg f lg_proper) R L2 ltac:(repeat split)) as (v & EV & _ & _ & SUM & POS).
    exists v. split; [exact EV|]. split; [apply POS; exact MON|]. rewrite SUM. cbn [high_limit low_limit].
    rewrite (RIGHT (nth (length bins - 1) bins 0%Q)) by exact HI. rewrite (LEFT (nth 0 bins 0%Q)) by exact LO. reflexivity.
  Qed.
End Tabulated.
Print Assumptions tabulated_cdf.
Print Assumptions tabulated_total.

Example tabulated_case : map (option_map Qred) (match table_row (fun x => x - 4)%Q [1; 2; 3]%Q [1; 2; 1]%Q [0; 2; 5]%Q None None false with Ok l => l | _ => [] end)
  = [Some (1 # 2); Some (1 # 4)]%Q.
Proof. vm_compute. reflexivity. Qed.

(** A table without mass gives zeros. *)
Theorem tabulated_empty : forall lg mets masses bins zmin zmax normalise, (qsum masses == 0)%Q ->
  table_row lg mets masses bins zmin zmax normalise = Ok (map (fun _ => Some 0%Q) (seq 0 (length bins - 1))).
Proof. intros. unfold table_row. apply Qeq_bool_iff in H. rewrite H. reflexivity. Qed.

Lemma falling_lt : forall l, falling l = true -> forall i j, i < j -> j < length l -> (nth j l 0 < nth i l 0)%Q.
Proof.
  intros l R. assert (forall i, S i < length l -> (nth (S i) l 0 < nth i l 0)%Q) as ST.
  { induction l as [|a l IH]; intros i L; [cbn in L; lia|]. destruct l as [|b l]; [cbn in L; lia|].
    cbn [falling] in R. apply andb_true_iff in R. destruct R as [R1 R2]. apply qlt_true in R1.
    destruct i; [exact R1|]. apply (IH R2 i). cbn in *. lia. }
  intros i j IJ L. induction j as [|j IH]; [lia|]. destruct (Nat.eq_dec i j) as [-> |NE]; [apply ST; exact L|].
  specialize (IH ltac:(lia) ltac:(lia)). specialize (ST j L). lra.
Qed.
(** The row of the table used for a redshift. *)
Lemma positions_in : forall l k z i, In i (positions k l z) <-> k <= i /\ exists r, nth_error l (i - k) = Some r /\ (r <= z)%Q.
Proof.
  induction l as [|r l IH]; intros k z i; cbn [positions].
  - split; [intros [] | intros (_ & r & H & _); destruct (i - k); discriminate].
  - rewrite in_app_iff, IH. split.
    + intros [H|(H & r' & E & L)].
      * destruct (Qle_bool r z) eqn:Q; [|destruct H]. destruct H as [<- |[]]. apply Qle_bool_iff in Q. split; [lia|]. exists r. rewrite Nat.sub_diag. split; [reflexivity | exact Q].
      * split; [lia|]. exists r'. replace (i - k) with (S (i - S k)) by lia. split; assumption.
    + intros (H & r' & E & L). destruct (Nat.eq_dec i k) as [-> |NE].
      * left. rewrite Nat.sub_diag in E. cbn in E. assert (r = r') by congruence. subst r'. apply Qle_bool_iff in L. rewrite L. left. reflexivity.
      * right. split; [lia|]. exists r'. replace (i - k) with (S (i - S k)) in E by lia. split; assumption.
Qed.
Lemma positions_sorted : forall l k z a b, nth_error (positions k l z) 0 = Some a -> In b (positions k l z) -> a <= b.
Proof.
  induction l as [|r l IH]; intros k z a b A B; cbn [positions] in *; [discriminate|].
  destruct (Qle_bool r z); cbn [app] in *; [|apply (IH (S k) z); assumption].
  cbn in A. assert (k = a) by congruence. subst a. destruct B as [<- |B]; [lia|]. apply positions_in in B. lia.
Qed.
Lemma positions_last : forall l k z a r b, rev (positions k l z) = a :: r -> In b (positions k l z) -> b <= a.
Proof.
  induction l as [|x l IH]; intros k z a r b A B; cbn [positions] in *; [discriminate|].
  destruct (Qle_bool x z); cbn [app] in *; [|apply (IH (S k) z a r); assumption]. cbn [rev] in A.
  destruct (rev (positions (S k) l z)) as [|a' r'] eqn:E.
  - cbn in A. assert (k = a) by congruence. subst a. destruct B as [<- |B]; [lia|]. apply in_rev in B. rewrite E in B. destruct B.
  - cbn in A. assert (a' = a) by congruence. subst a'. destruct B as [<- |B]; [|apply (IH (S k) z a r'); assumption].
    assert (In a (positions (S k) l z)) as I by (apply in_rev; rewrite E; left; reflexivity). apply positions_in in I. lia.
Qed.
(** IllustrisTNG (redshifts in ascending order): the largest redshift that is not above the
    requested one; IndexError below the table.  Chruslinska+21 (descending order): the same, but
    the smallest redshift below the table. *)
Theorem table_row_used : forall redshifts z,
  (rising redshifts = true ->
     match tng_row redshifts z with
     | Ok i => exists r, nth_error redshifts i = Some r /\ (r <= z)%Q /\ forall r', In r' redshifts -> (r' <= z)%Q -> (r' <= r)%Q
     | Raise e => e = IndexError /\ forall r', In r' redshifts -> (z < r')%Q
     end) /\
  (falling redshifts = true -> redshifts <> [] ->
     match chruslinska_row redshifts z with
     | Ok i => exists r, nth_error redshifts i = Some r /\
                 ((r <= z)%Q /\ (forall r', In r' redshifts -> (r' <= z)%Q -> (r' <= r)%Q) \/
                  (forall r', In r' redshifts -> (z < r')%Q /\ (r <= r')%Q))
     | Raise _ => False
     end).
Proof.
  intros redshifts z. split.
  - intro R. unfold tng_row. destruct (rev (positions 0 redshifts z)) as [|i l] eqn:E.
    + split; [reflexivity|]. intros r' I. apply In_nth_error in I. destruct I as (j & J). destruct (Qlt_le_dec z r') as [C|C]; [exact C|]. exfalso.
      assert (In j (positions 0 redshifts z)) as P by (apply positions_in; split; [lia|]; exists r'; rewrite Nat.sub_0_r; split; assumption).
      apply in_rev in P. rewrite E in P. destruct P.
    + assert (In i (positions 0 redshifts z)) as P by (apply in_rev; rewrite E; left; reflexivity).
      apply positions_in in P. destruct P as (_ & r & N & L). rewrite Nat.sub_0_r in N. exists r. split; [exact N|]. split; [exact L|].
      intros r' I RZ. apply In_nth_error in I. destruct I as (j & J).
      assert (j <= i) as JI by (apply (positions_last redshifts 0 z i l j E); apply positions_in; split; [lia|]; exists r'; rewrite Nat.sub_0_r; split; assumption).
      destruct (Nat.eq_dec j i) as [-> |NE]; [assert (r = r') by congruence; subst; lra|].
      assert (i < length redshifts) by (apply nth_error_Some; congruence).
      pose proof (rising_lt redshifts R j i ltac:(lia) ltac:(assumption)) as LT.
      rewrite (nth_error_nth _ _ 0%Q N), (nth_error_nth _ _ 0%Q J) in LT. lra.
  - intros R NE.
    assert (forall i j a b, nth_error redshifts i = Some a -> nth_error redshifts j = Some b -> i < j -> (b < a)%Q) as DEC.
    { intros i j a b A B IJ. assert (j < length redshifts) by (apply nth_error_Some; congruence).
      pose proof (falling_lt redshifts R i j IJ ltac:(assumption)) as LT.
      rewrite (nth_error_nth _ _ 0%Q A), (nth_error_nth _ _ 0%Q B) in LT. exact LT. }
    unfold chruslinska_row. destruct (positions 0 redshifts z) as [|i l] eqn:E.
    + destruct redshifts as [|r0 rs]; [contradiction|]. set (all := r0 :: rs) in *.
      destruct (nth_error all (length all - 1)) as [r|] eqn:N; [|apply nth_error_None in N; cbn in N; lia]. exists r. split; [reflexivity|]. right.
      intros r' I. apply In_nth_error in I. destruct I as (j & J). split.
      * destruct (Qlt_le_dec z r') as [C|C]; [exact C|]. exfalso.
        assert (In j (positions 0 all z)) as P by (apply positions_in; split; [lia|]; exists r'; rewrite Nat.sub_0_r; split; assumption). rewrite E in P. destruct P.
      * assert (j < length all) by (apply nth_error_Some; congruence). destruct (Nat.eq_dec j (length all - 1)) as [-> |]; [assert (r = r') by congruence; subst; lra|].
        apply Qlt_le_weak. apply (DEC j (length all - 1)); [assumption | assumption | lia].
    + assert (In i (positions 0 redshifts z)) as P by (rewrite E; left; reflexivity).
      apply positions_in in P. destruct P as (_ & r & N & L). rewrite Nat.sub_0_r in N. exists r. split; [exact N|]. left. split; [exact L|].
      intros r' I RZ. apply In_nth_error in I. destruct I as (j & J).
      assert (i <= j) as JI.
      { apply (positions_sorted redshifts 0 z i j); [rewrite E; reflexivity|]. apply positions_in. split; [lia|]. exists r'. rewrite Nat.sub_0_r. split; assumption. }
      destruct (Nat.eq_dec j i) as [-> |NE2]; [assert (r = r') by congruence; subst; lra|]. apply Qlt_le_weak. apply (DEC i j); [assumption | assumption | lia].
Qed.
Print Assumptions table_row_used.
Example table_row_case : tng_row [0; 1; 2]%Q (3 # 2) = Ok 1 /\ tng_row [1; 2]%Q (1 # 2) = Raise IndexError /\
  chruslinska_row [2; 1; 0]%Q (3 # 2) = Ok 1 /\ chruslinska_row [2; 1]%Q (1 # 2) = Ok 1.
Proof. repeat split. Qed.

(** ** C57: choice of the history *)
Theorem sfh_choice : forall d zmin zmax sfr, dget String.eqb d "SFR" = Some sfr ->
  (get_sfh_model d zmin zmax = Ok sfr \/ get_sfh_model d zmin zmax = Raise ValueError) /\
  (get_sfh_model d zmin zmax = Ok sfr <->
   check_limits zmin zmax = Ok tt /\
   ((In sfr ["Madau+Fragos17"; "Madau+Dickinson14"; "Fujimoto+24"; "Neijssel+19"] /\ dget String.eqb d "sigma" <> None) \/
    sfr = "IllustrisTNG" \/
    (sfr = "Chruslinska+21" /\ dget String.eqb d "sub_model" <> None /\
     exists s, dget String.eqb d "Z_solar_scaling" = Some s /\ In s ["Asplund09"; "AndersGrevesse89"; "GrevesseSauval98"; "Villante14"]) \/
    (sfr = "Zavala+21" /\ dget String.eqb d "sigma" <> None /\
     exists s, dget String.eqb d "sub_model" = Some s /\ In s ["min"; "max"]))).
Proof.
  intros d zmin zmax sfr S. unfold get_sfh_model. rewrite S.
  assert (check_limits zmin zmax = Ok tt \/ check_limits zmin zmax = Raise ValueError) as CL.
  { unfold check_limits. destruct zmax as [b|]; [destruct (qlt 1 b); [right; reflexivity|]; destruct (qlt b 0); [right; reflexivity|]|]; cbn [rbind];
    (destruct zmin as [a|]; [destruct (qlt a 0); [right; reflexivity|]; destruct (qlt 1 a); [right; reflexivity|]|]); cbn [rbind]; auto; destruct (Qle_bool b a); auto. }
  assert (forall o : option string, (match o with Some _ => true | None => false end) = true <-> o <> None) as OP by (intros [x|]; split; congruence).
  unfold model_required, parameter_values.
  destruct (String.eqb_spec sfr "Madau+Fragos17") as [-> |N1]; [|destruct (String.eqb_spec sfr "Madau+Dickinson14") as [-> |N2];
    [|destruct (String.eqb_spec sfr "Fujimoto+24") as [-> |N3]; [|destruct (String.eqb_spec sfr "Neijssel+19") as [-> |N4];
    [|destruct (String.eqb_spec sfr "IllustrisTNG") as [-> |N5]; [|destruct (String.eqb_spec sfr "Chruslinska+21") as [-> |N6];
    [|destruct (String.eqb_spec sfr "Zavala+21") as [-> |N7]]]]]]]; cbn [orb].
  1-4: (cbn [forallb andb]; destruct (dget String.eqb d "sigma") as [x|]; cbn [negb andb];
    [destruct CL as [-> | ->]; cbn [rbind];
      [change (String.eqb _ "Chruslinska+21") with false; change (String.eqb _ "Zavala+21") with false; cbn iota;
       split; [left; reflexivity|]; split; [intros _; split; [reflexivity|]; left; split; [cbn; tauto | discriminate] | reflexivity]
      |split; [right; reflexivity|]; split; [discriminate | intros [C _]; discriminate]]
    |split; [right; reflexivity|]; split; [discriminate|]; intros (_ & [(_ & C)|[C|[(C & _)|(C & _)]]]); [congruence | discriminate ..]]).
  - cbn [forallb negb]. destruct CL as [-> | ->]; cbn [rbind].
    + change (String.eqb "IllustrisTNG" "Chruslinska+21") with false. change (String.eqb "IllustrisTNG" "Zavala+21") with false. cbn iota.
      split; [left; reflexivity|]. split; [intros _; split; [reflexivity|]; right; left; reflexivity | reflexivity].
    + split; [right; reflexivity|]. split; [discriminate | intros [C _]; discriminate].
  - cbn [forallb]. destruct (dget String.eqb d "sub_model") as [x|] eqn:E1, (dget String.eqb d "Z_solar_scaling") as [s|] eqn:E2; cbn [andb negb].
    2-4: (split; [right; reflexivity|]; split; [discriminate|]; intros (_ & [(C & _)|[C|[(_ & C1 & s' & C2 & _)|(C & _)]]]); [cbn [In] in C; intuition discriminate | discriminate | congruence | discriminate]).
    destruct CL as [-> | ->]; cbn [rbind]; [|split; [right; reflexivity|]; split; [discriminate | intros [C _]; discriminate]].
    destruct (inb_spec String.eqb_spec s ["Asplund09"; "AndersGrevesse89"; "GrevesseSauval98"; "Villante14"]) as [I|I].
    + split; [left; reflexivity|]. split; [|reflexivity]. intros _. split; [reflexivity|]. right. right. left. split; [reflexivity|]. split; [discriminate|]. exists s. split; [reflexivity | exact I].
    + split; [right; reflexivity|]. split; [discriminate|]. intros (_ & [(C & _)|[C|[(_ & _ & s' & C1 & C2)|(C & _)]]]); [cbn [In] in C; intuition discriminate | discriminate | exfalso; apply I; congruence | discriminate].
  - cbn [forallb].
    destruct (dget String.eqb d "sub_model") as [s|] eqn:E1, (dget String.eqb d "sigma") as [x|] eqn:E2; cbn [andb negb].
    2-4: (split; [right; reflexivity|]; split; [discriminate|]; intros (_ & [(C & _)|[C|[(C & _)|(_ & C1 & s' & C2 & _)]]]); [cbn [In] in C; intuition discriminate | discriminate | discriminate | congruence]).
    destruct CL as [-> | ->]; cbn [rbind]; [|split; [right; reflexivity|]; split; [discriminate | intros [C _]; discriminate]].
    destruct (inb_spec String.eqb_spec s ["min"; "max"]) as [I|I].
    + split; [left; reflexivity|]. split; [|reflexivity]. intros _. split; [reflexivity|]. right. right. right. split; [reflexivity|]. split; [discriminate|]. exists s. split; [reflexivity | exact I].
    + split; [right; reflexivity|]. split; [discriminate|]. intros (_ & [(C & _)|[C|[(C & _)|(_ & _ & s' & C1 & C2)]]]); [cbn [In] in C; intuition discriminate | discriminate | discriminate | exfalso; apply I; congruence].
  - split; [right; reflexivity|]. split; [discriminate|]. intros (_ & [(C & _)|[C|[(C & _)|(C & _)]]]); try contradiction. cbn [In] in C. intuition congruence.
Qed.
Print Assumptions sfh_choice.
Example sfh_choice_case : get_sfh_model [("SFR", "Zavala+21"); ("sigma", "Bavera+20"); ("sub_model", "min")] (Some (1 # 1000)) (Some (1 # 10)) = Ok "Zavala+21".
Proof. reflexivity. Qed.
(** The default parameters together with only another name of a history are refused. *)
Theorem sfh_default_refuted : get_sfh_model [("delta_t", "100"); ("SFR", "Madau+Fragos17"); ("sigma_SFR", "None"); ("normalise", "True"); ("dlogZ", "None"); ("Zsun", "0.0142")] None None = Raise ValueError.
Proof. reflexivity. Qed.
