(** C59: what a downsampled track guarantees. *)
From Coq Require Import List Bool Arith Reals Lra Lia Sorted.
From Verif Require Import PyBase PyList MaskList DownsampleModel DownsampleProofs.
Import ListNotations.
Open Scope R_scope.

(** ** Specification *)
(** The values of column [c] span [lo, hi]. *)
Definition spans (X : list (list R)) (c : nat) (lo hi : R) : Prop :=
  (forall r, In r X -> lo <= nth c r 0 <= hi) /\
  (exists r, In r X /\ nth c r 0 = lo) /\ (exists r, In r X /\ nth c r 0 = hi).

(** The straight line through (ta, va) and (tb, vb), at [tm]. *)
Definition line (ta va tb vb tm : R) : R := va + (tm - ta) / (tb - ta) * (vb - va).

(** Deviation of row [m] of column [c] from the line between the rows [a] and [b], in units of the column's span;
    a constant column has none. *)
Definition deviation (t : list R) (X : list (list R)) (lo hi : nat -> R) (a b m c : nat) : R :=
  if Req_EM_T (lo c) (hi c) then 0
  else (nth c (nth m X []) 0 - line (nth a t 0) (nth c (nth a X []) 0) (nth b t 0) (nth c (nth b X []) 0) (nth m t 0)) / (hi c - lo c).

(** All columns together (2-norm). *)
Definition within (t : list R) (X : list (list R)) (d : nat) (lo hi : nat -> R) (a b m : nat) (e : R) : Prop :=
  fold_right Rplus 0 (map (fun c => deviation t X lo hi a b m c ^ 2) (seq 0 d)) <= e ^ 2.

(** The step [a]-[b] is not longer than the maximum: absolute, or relative to the whole track if negative. *)
Definition short_step (t : list R) (mi : option R) (a b : nat) : Prop :=
  match mi with
  | None => True
  | Some m => (0 <= m -> nth b t 0 - nth a t 0 <= m) /\
              (m < 0 -> nth b t 0 - nth a t 0 <= - m * (nth (length t - 1) t 0 - nth 0 t 0))
  end.

(** A track: as many times as rows, all rows with [d] > 0 values, strictly increasing times. *)
Definition track (t : list R) (X : list (list R)) (d : nat) : Prop :=
  length t = length X /\ (0 < d)%nat /\ (0 < length t)%nat /\ Forall (fun r => length r = d) X /\
  forall i j, (i < j < length t)%nat -> nth i t 0 < nth j t 0.

(** [idx]: the numbers of the kept rows. *)
Definition sample (n : nat) (idx : list nat) : Prop :=
  StronglySorted lt idx /\ (exists r, idx = O :: r) /\ (exists r, idx = r ++ [(n - 1)%nat]).
Definition neighbours (idx : list nat) (a b : nat) : Prop := exists l1 l2, idx = l1 ++ a :: b :: l2.

(** ** Bridges *)
Lemma backstep_false t : any_backstep t = false <-> forall i j, (i < j < length t)%nat -> nth i t 0 < nth j t 0.
Proof.
  induction t as [|a t IH]; [split; [cbn; lia|reflexivity]|].
  destruct t as [|b t].
  - split; [cbn; lia|reflexivity].
  - change (any_backstep (a :: b :: t)) with ((if Rle_dec (b - a) 0 then true else false) || any_backstep (b :: t)).
    rewrite orb_false_iff, IH. split.
    + intros [A B] i j L. destruct (Rle_dec (b - a) 0) as [|A']; [discriminate|].
      destruct j as [|j]; [lia|]. destruct i as [|i].
      * destruct j as [|j]; [cbn; lra|]. specialize (B O (S j)). cbn in B, L. cbn. specialize (B ltac:(lia)). lra.
      * apply (B i j). cbn in *. lia.
    + intros H. split.
      * specialize (H O 1%nat). cbn in H. specialize (H ltac:(lia)). destruct (Rle_dec (b - a) 0); [lra|reflexivity].
      * intros i j L. apply (H (S i) (S j)). cbn in *. lia.
Qed.

Lemma spans_minima X d c lo hi : Forall (fun r => length r = d) X -> X <> [] -> (c < d)%nat -> spans X c lo hi ->
  nth c (minima X) 0 = lo /\ nth c (maxima X) 0 = hi.
Proof.
  intros WF NX C (A & (r1 & R1 & E1) & (r2 & R2 & E2)).
  destruct (minima_spec X d WF NX c C) as [(s1 & S1 & F1) G1].
  destruct (maxima_spec X d WF NX c C) as [(s2 & S2 & F2) G2].
  pose proof (A s1 S1). pose proof (A s2 S2). specialize (G1 r1 R1). specialize (G2 r2 R2). lra.
Qed.

Lemma row_error_deviation t X d lo hi a b m :
  Forall (fun r => length r = d) X -> (forall c, (c < d)%nat -> spans X c (lo c) (hi c)) ->
  (a < length X)%nat -> (b < length X)%nat -> (m < length X)%nat -> nth a t 0 < nth b t 0 ->
  sumsq (row (rescale false X) m)
        (interpolate (row (rescale false X) a) (row (rescale false X) b) (time t m - time t a) (time t b - time t a))
  = fold_right Rplus 0 (map (fun c => deviation t X lo hi a b m c ^ 2) (seq 0 d)).
Proof.
  intros WF SP A B M T. assert (NX : X <> []) by (intros ->; cbn in *; lia).
  assert (RW : forall i, (i < length X)%nat -> row (rescale false X) i = zip3 (rescale_entry false) (minima X) (maxima X) (nth i X [])).
  { intros i I. unfold row, rescale.
    rewrite (nth_indep _ [] (zip3 (rescale_entry false) (minima X) (maxima X) [])) by (rewrite map_length; exact I).
    rewrite (map_nth (fun row => zip3 (rescale_entry false) (minima X) (maxima X) row)). reflexivity. }
  assert (LN : forall i, (i < length X)%nat -> length (nth i X []) = d).
  { intros i I. rewrite Forall_forall in WF. apply WF. apply nth_In. exact I. }
  assert (LR : forall i, (i < length X)%nat -> length (row (rescale false X) i) = d).
  { intros i I. rewrite RW by exact I. rewrite length_zip3; rewrite ?(length_minima X d WF NX), ?(length_maxima X d WF NX), ?LN; auto. }
  rewrite (sumsq_sum d); [|apply LR; exact M|rewrite length_interpolate; rewrite ?LR; auto].
  f_equal. apply map_ext_in. intros c C. apply in_seq in C.
  assert (EN : forall i, (i < length X)%nat -> nth c (row (rescale false X) i) 0 = rescale_entry false (lo c) (hi c) (nth c (nth i X []) 0)).
  { intros i I. rewrite RW by exact I.
    destruct (spans_minima X d c (lo c) (hi c) WF NX ltac:(lia) (SP c ltac:(lia))) as [E1 E2].
    rewrite nth_zip3; rewrite ?(length_minima X d WF NX), ?(length_maxima X d WF NX), ?LN by exact I; try lia.
    rewrite E1, E2. reflexivity. }
  rewrite nth_interpolate; [|rewrite LR; auto; lia|rewrite !LR; auto].
  rewrite !EN by assumption. unfold deviation, rescale_entry, store, line, time.
  destruct (Req_EM_T (lo c) (hi c)) as [E|E]; field; repeat split; lra.
Qed.

Lemma too_long_false t mi a b : (a < b < length t)%nat -> (forall i j, (i < j < length t)%nat -> nth i t 0 < nth j t 0) ->
  (too_long t mi a b = false <-> short_step t mi a b).
Proof.
  intros L S. unfold too_long, short_step, time. destruct mi as [m|]; [|tauto].
  pose proof (S a b L) as AB.
  assert (E : Rabs (nth a t 0 - nth b t 0) = nth b t 0 - nth a t 0) by (rewrite Rabs_left; lra).
  rewrite E. destruct (Rlt_dec m 0) as [M|M].
  - pose proof (S O (length t - 1)%nat ltac:(lia)) as W.
    assert (F : Rabs (m * (nth 0 t 0 - nth (length t - 1) t 0)) = - m * (nth (length t - 1) t 0 - nth 0 t 0)).
    { rewrite Rabs_right; [ring|]. apply Rle_ge. replace (m * (nth 0 t 0 - nth (length t - 1) t 0)) with ((-m) * (nth (length t - 1) t 0 - nth 0 t 0)) by ring.
      apply Rmult_le_pos; lra. }
    rewrite F. destruct (Rlt_dec _ _) as [H|H].
    + split; [discriminate|]. intros [_ K]. specialize (K M). lra.
    + split; [|reflexivity]. intros _. split; [lra|]. intros _. lra.
  - destruct (Rlt_dec m (nth b t 0 - nth a t 0)) as [H|H].
    + split; [discriminate|]. intros [K _]. specialize (K ltac:(lra)). lra.
    + split; [|reflexivity]. intros _. split; [|lra]. intros _. lra.
Qed.

Lemma norm_le x y e : 0 <= e -> (norm2 x y <= e <-> sumsq x y <= e ^ 2).
Proof.
  intros E. unfold norm2.
  assert (N : 0 <= sumsq x y). { revert y. induction x as [|a x IH]; intros [|b y]; cbn; try lra. specialize (IH y). pose proof (Rle_0_sqr (a - b)) as Q. unfold Rsqr in Q. lra. }
  split; intros H.
  - pose proof (sqrt_sqrt (sumsq x y) N). pose proof (sqrt_pos (sumsq x y)). nra.
  - rewrite <- (sqrt_pow2 e E). apply sqrt_le_1; [exact N|nra|exact H].
Qed.

(** ** The model on tracks *)
Lemma init_track it X d t : track t X d ->
  init (Vector it t) (Rows false X) = Ok {| td_t := t; td_X := rescale false X; td_min := minima X; td_max := maxima X |}.
Proof.
  intros (L & D & N & WF & S). apply backstep_false in S. unfold init. destruct t as [|t0 t]; [cbn in N; lia|].
  destruct X as [|[|x r] X]; [cbn in *; lia| |rewrite S; reflexivity].
  inversion WF as [|? ? W1 W2]; subst. cbn in D. lia.
Qed.

Lemma extract_ok t X d keep : track t X d -> length keep = length t ->
  extract_downsample {| td_t := t; td_X := rescale false X; td_min := minima X; td_max := maxima X |} keep true
  = Ok (map (fun i => nth i t 0) (kept keep), map (fun i => nth i X []) (kept keep)).
Proof.
  intros (L & D & N & WF & S) LK. unfold extract_downsample. cbn [td_X td_t td_min td_max].
  assert (NX : X <> []) by (intros ->; cbn in *; lia).
  assert (LR : length (rescale false X) = length X) by (unfold rescale; rewrite map_length; reflexivity).
  rewrite (proj2 (Nat.eqb_eq _ _)) by lia. f_equal. f_equal; [apply select_kept; exact LK|].
  rewrite (select_kept []) by lia. rewrite map_map. apply map_ext_in. intros i I. apply kept_in in I as [I _].
  unfold rescale.
  rewrite (nth_indep _ [] (zip3 (rescale_entry false) (minima X) (maxima X) [])) by (rewrite map_length; lia).
  rewrite (map_nth (fun row => zip3 (rescale_entry false) (minima X) (maxima X) row)).
  apply (scale_back_row X d WF NX). apply nth_In. lia.
Qed.

Lemma first_mask n x : (3 <= n)%nat ->
  nth x (mark (n - 1) (mark 0 (repeat false n))) false = ((x =? 0)%nat || (x =? n - 1)%nat).
Proof.
  intros N. rewrite nth_mark by (rewrite length_mark, repeat_length; lia). rewrite nth_mark by (rewrite repeat_length; lia).
  rewrite nth_repeat_false. destruct (Nat.eqb_spec x (n - 1)), (Nat.eqb_spec x 0); reflexivity.
Qed.

Lemma find_ok t X mins maxs e mi : (3 <= length t)%nat -> 0 <= e -> length t = length X ->
  find_downsample {| td_t := t; td_X := X; td_min := mins; td_max := maxs |} (Some (Finite e)) mi
  = Ok (DS (length t) t X e mi 0 (length t - 1) (mark (length t - 1) (mark 0 (repeat false (length t))))).
Proof.
  intros N E L. unfold find_downsample. cbn [td_t td_X]. rewrite (proj2 (Nat.ltb_ge _ _)) by lia.
  destruct (Rlt_dec e 0); [lra|reflexivity].
Qed.

Lemma DS_full t X e mi : (3 <= length t)%nat ->
  let r := DS (length t) t X e mi 0 (length t - 1) (mark (length t - 1) (mark 0 (repeat false (length t)))) in
  length r = length t /\ nth 0 r false = true /\ nth (length t - 1) r false = true /\
  (forall p q, (p < q < length t)%nat -> nth p r false = true -> nth q r false = true ->
     (forall x, (p < x < q)%nat -> nth x r false = false) -> q = S p \/ fine t X e mi p q).
Proof.
  intros N r. set (n := length t) in *.
  destruct (DS_spec t X e mi n 0 (n - 1) (mark (n - 1) (mark 0 (repeat false n)))) as (A & B & C).
  - lia.
  - rewrite !length_mark, repeat_length. lia.
  - intros x Hx. rewrite first_mask by exact N. destruct (Nat.eqb_spec x 0), (Nat.eqb_spec x (n - 1)); try lia; reflexivity.
  - fold r in A, B, C. rewrite !length_mark, repeat_length in A. split; [exact A|].
    split; [rewrite B by lia; rewrite first_mask by exact N; reflexivity|].
    split; [rewrite B by lia; rewrite first_mask by exact N; rewrite Nat.eqb_refl; apply orb_true_r|].
    intros p q L HP HQ HN. apply C; auto; lia.
Qed.

(** ** C59 *)
(** The kept rows are original rows, with their original values; the first and the last are among them; between
    neighbouring kept rows with rows left out, the straight line is within [e] of every row left out, and the step is
    not longer than the maximum. *)
Theorem C59_downsample : forall it t X d e mi lo hi,
  track t X d -> (3 <= length t)%nat -> 0 <= e -> (forall c, (c < d)%nat -> spans X c (lo c) (hi c)) ->
  exists idx,
    downsample (Vector it t) (Rows false X) (Some (Finite e)) mi true
      = Ok (map (fun i => nth i t 0) idx, map (fun i => nth i X []) idx) /\
    sample (length t) idx /\
    forall a b, neighbours idx a b -> b = S a \/ (short_step t mi a b /\ forall m, (a < m < b)%nat -> within t X d lo hi a b m e).
Proof.
  intros it t X d e mi lo hi T N E SP. pose proof T as (L & D & N0 & WF & S).
  assert (NX : X <> []) by (intros ->; cbn in *; lia).
  assert (LR : length (rescale false X) = length X) by (unfold rescale; rewrite map_length; reflexivity).
  destruct (DS_full t (rescale false X) e mi N) as (R1 & R2 & R3 & R4).
  set (keep := DS (length t) t (rescale false X) e mi 0 (length t - 1) (mark (length t - 1) (mark 0 (repeat false (length t))))) in *.
  exists (kept keep). split; [|split].
  - unfold downsample. rewrite (init_track it X d t T). cbn [rbind]. rewrite find_ok by (auto; lia). cbn [rbind].
    fold keep. apply (extract_ok t X d keep T R1).
  - split; [apply kept_sorted|]. split.
    + apply sorted_head; [apply kept_sorted|]. apply kept_in. split; [lia|exact R2].
    + apply sorted_last; [apply kept_sorted|apply kept_in; split; [lia|exact R3]|].
      intros x Hx. apply kept_in in Hx as [Hx _]. lia.
  - intros a b (l1 & l2 & Q). destruct (sorted_neighbours (kept keep) l1 l2 a b (kept_sorted keep) Q) as [AB NB].
    assert (IA : In a (kept keep)) by (rewrite Q; apply in_or_app; right; left; reflexivity).
    assert (IB : In b (kept keep)) by (rewrite Q; apply in_or_app; right; right; left; reflexivity).
    apply kept_in in IA as [IA1 IA2]. apply kept_in in IB as [IB1 IB2].
    destruct (R4 a b ltac:(lia) IA2 IB2) as [H|[F1 F2]].
    + intros x Hx. destruct (nth x keep false) eqn:NX'; [|reflexivity]. exfalso. apply (NB x Hx). apply kept_in. split; [lia|exact NX'].
    + left. exact H.
    + right. split; [apply too_long_false; auto; lia|]. intros m M. specialize (F2 m M). unfold row_error in F2.
      apply norm_le in F2; [|exact E]. rewrite (row_error_deviation t X d lo hi a b m WF SP) in F2; [exact F2|lia|lia|lia|].
      apply S. lia.
Qed.
Print Assumptions C59_downsample.

(** So every value left out is recovered by linear interpolation up to [e] times the span of its column. *)
Theorem C59_recovered : forall t X d e lo hi a b m c, 0 <= e -> (c < d)%nat -> spans X c (lo c) (hi c) ->
  In (nth m X []) X -> In (nth a X []) X -> In (nth b X []) X ->
  within t X d lo hi a b m e -> nth a t 0 < nth b t 0 ->
  Rabs (nth c (nth m X []) 0 - line (nth a t 0) (nth c (nth a X []) 0) (nth b t 0) (nth c (nth b X []) 0) (nth m t 0))
    <= e * (hi c - lo c).
Proof.
  intros t X d e lo hi a b m c E C (SP & (r1 & R1 & E1) & (r2 & R2 & E2)) IM IA IB W T.
  assert (H : deviation t X lo hi a b m c ^ 2 <= e ^ 2).
  { eapply Rle_trans; [|exact W].
    apply (sum_member (fun c => deviation t X lo hi a b m c ^ 2)); [intros; nra|apply in_seq; lia]. }
  pose proof (SP r2 R2) as LH. unfold deviation in H. destruct (Req_EM_T (lo c) (hi c)) as [Q|Q].
  - pose proof (SP _ IM). pose proof (SP _ IA). pose proof (SP _ IB). unfold line.
    replace (nth c (nth b X []) 0) with (nth c (nth a X []) 0) by lra. replace (nth c (nth m X []) 0) with (nth c (nth a X []) 0) by lra.
    replace (_ - _) with 0 by ring. rewrite Rabs_R0. nra.
  - set (D := _ - line _ _ _ _ _) in *. assert (0 < hi c - lo c) by lra.
    assert (Z : (D / (hi c - lo c)) * (hi c - lo c) = D) by (field; lra). set (z := D / (hi c - lo c)) in *.
    rewrite <- Z, Rabs_mult, (Rabs_right (hi c - lo c)) by lra.
    apply Rmult_le_compat_r; [lra|]. apply Rabs_le. nra.
Qed.
Print Assumptions C59_recovered.

(** A track that is straight within the tolerance keeps only its ends, unless it is too long. *)
Theorem C59_straight : forall it t X d e mi lo hi,
  track t X d -> (3 <= length t)%nat -> 0 <= e -> (forall c, (c < d)%nat -> spans X c (lo c) (hi c)) ->
  short_step t mi 0 (length t - 1) ->
  (forall m, (0 < m < length t - 1)%nat -> within t X d lo hi 0 (length t - 1) m e) ->
  downsample (Vector it t) (Rows false X) (Some (Finite e)) mi true
    = Ok ([nth 0 t 0; nth (length t - 1) t 0], [nth 0 X []; nth (length t - 1) X []]).
Proof.
  intros it t X d e mi lo hi T N E SP SH W. pose proof T as (L & D & N0 & WF & S).
  assert (LR : length (rescale false X) = length X) by (unfold rescale; rewrite map_length; reflexivity).
  unfold downsample. rewrite (init_track it X d t T). cbn [rbind]. rewrite find_ok by (auto; lia). cbn [rbind].
  rewrite DS_nothing.
  - rewrite (extract_ok t X d _ T) by (rewrite !length_mark, repeat_length; reflexivity).
    assert (K : kept (mark (length t - 1) (mark 0 (repeat false (length t)))) = [O; (length t - 1)%nat]); [|rewrite K; reflexivity].
    unfold kept. rewrite !length_mark, repeat_length.
    replace (seq 0 (length t)) with (0%nat :: seq 1 (length t - 2) ++ [(length t - 1)%nat]).
    + cbn [filter]. rewrite first_mask by exact N. cbn [Nat.eqb orb]. f_equal. rewrite filter_app. cbn [filter].
      rewrite first_mask, Nat.eqb_refl, orb_true_r by exact N.
      assert (Z : forall l, (forall x, In x l -> (0 < x < length t - 1)%nat) ->
        filter (fun i => nth i (mark (length t - 1) (mark 0 (repeat false (length t)))) false) l = []).
      { induction l as [|x l IH]; intros Hl; [reflexivity|]. cbn [filter]. rewrite first_mask by exact N.
        specialize (Hl x (or_introl eq_refl)) as Hx.
        destruct (Nat.eqb_spec x 0), (Nat.eqb_spec x (length t - 1)); try lia. cbn [orb]. apply IH. intros y Hy. apply Hl. right. exact Hy. }
      rewrite Z; [reflexivity|]. intros x Hx. apply in_seq in Hx. lia.
    + replace (length t) with (1 + (length t - 2 + 1))%nat at 3 by lia. cbn [Nat.add seq]. f_equal. rewrite seq_app. f_equal. cbn. f_equal. lia.
  - split; [apply too_long_false; auto; lia|]. intros m M. unfold row_error. apply norm_le; [exact E|].
    rewrite (row_error_deviation t X d lo hi 0 (length t - 1) m WF SP); try lia; [apply W; lia|]. apply S. lia.
Qed.
Print Assumptions C59_straight.

(** Without a tolerance, or with fewer than three rows, the track is returned as it is, whatever the maximum step. *)
Theorem C59_unchanged : forall it t X d max_err mi, track t X d -> max_err = None \/ (length t < 3)%nat ->
  downsample (Vector it t) (Rows false X) max_err mi true = Ok (t, X).
Proof.
  intros it t X d max_err mi T H. pose proof T as (L & D & N0 & WF & S).
  unfold downsample. rewrite (init_track it X d t T). cbn [rbind].
  assert (F : find_downsample {| td_t := t; td_X := rescale false X; td_min := minima X; td_max := maxima X |} max_err mi = Ok (repeat true (length t))).
  { unfold find_downsample. cbn [td_t]. destruct max_err as [e|]; [|reflexivity]. destruct H as [H|H]; [discriminate|].
    rewrite (proj2 (Nat.ltb_lt _ _)) by exact H. reflexivity. }
  rewrite F. cbn [rbind]. rewrite (extract_ok t X d _ T) by apply repeat_length.
  assert (K : kept (repeat true (length t)) = seq 0 (length t)).
  { unfold kept. rewrite repeat_length.
    assert (G : forall l, (forall i, In i l -> (i < length t)%nat) -> filter (fun i => nth i (repeat true (length t)) false) l = l).
    { induction l as [|x l IH]; intros Hl; [reflexivity|]. cbn [filter].
      rewrite (nth_indep _ false true) by (rewrite repeat_length; apply Hl; left; reflexivity).
      rewrite nth_repeat. f_equal. apply IH. intros i I. apply Hl. right. exact I. }
    apply G. intros i I. apply in_seq in I. lia. }
  rewrite K. f_equal. f_equal; [|rewrite L]; apply nth_seq_self.
Qed.
Print Assumptions C59_unchanged.

(** Invalid arguments: a negative or non-finite tolerance, times that are not strictly increasing, arguments of the
    wrong shape. *)
Theorem C59_errors : forall it ix t X d mi sb e,
  (track t X d -> (3 <= length t)%nat ->
     downsample (Vector it t) (Rows ix X) (Some NonFinite) mi sb = Raise ValueError /\
     forall e', e' < 0 -> downsample (Vector it t) (Rows ix X) (Some (Finite e')) mi sb = Raise ValueError) /\
  (nth 0 X [] <> [] -> (exists i j, (i < j < length t)%nat /\ nth j t 0 <= nth i t 0) ->
     downsample (Vector it t) (Rows ix X) e mi sb = Raise ValueError) /\
  (t <> [] -> downsample NotIterable (Rows ix X) e mi sb = Raise ValueError /\
     downsample (Vector it t) NotIterable e mi sb = Raise ValueError /\ downsample (Vector it t) Deeper e mi sb = Raise ValueError).
Proof.
  intros it ix t X d mi sb e. split; [|split].
  - intros T N. pose proof T as (L & D & N0 & WF & S). apply backstep_false in S.
    assert (I : exists td, init (Vector it t) (Rows ix X) = Ok td /\ td_t td = t).
    { unfold init. destruct t as [|t0 t]; [cbn in N; lia|].
      destruct X as [|[|x r] X]; [cbn in *; lia| |rewrite S; eexists; split; reflexivity].
      inversion WF as [|? ? W1 W2]; subst. cbn in D. lia. }
    destruct I as (td & I1 & I2). unfold downsample. rewrite I1. cbn [rbind]. unfold find_downsample. rewrite I2.
    rewrite (proj2 (Nat.ltb_ge _ _)) by lia. split; [reflexivity|]. intros e' E. destruct (Rlt_dec e' 0); [reflexivity|lra].
  - intros NX (i & j & L & H). unfold downsample, init. destruct t as [|t0 t]; [cbn in L; lia|].
    destruct X as [|[|x r] X]; [easy|easy|].
    destruct (any_backstep (t0 :: t)) eqn:B; [reflexivity|]. rewrite backstep_false in B. specialize (B i j L). lra.
  - intros N. destruct t as [|t0 t]; [easy|]. repeat split.
Qed.
Print Assumptions C59_errors.

(** An integer matrix loses its values: scaling truncates them to 0 and 1, and only these are scaled back. *)
Theorem C59_integers_refuted :
  downsample (Vector true [0; 1; 2; 3]) (Rows true [[0]; [1]; [2]; [3]]) None None true = Ok ([0; 1; 2; 3], [[0]; [0]; [0]; [3]]).
Proof.
  assert (B : any_backstep [0; 1; 2; 3] = false).
  { apply backstep_false. intros i j L. cbn in L.
    assert (i = 0 \/ i = 1 \/ i = 2)%nat as [->|[->| ->]] by lia; assert (j = 1 \/ j = 2 \/ j = 3)%nat as [->|[->| ->]] by lia; cbn; lra || lia. }
  assert (M : minima [[0]; [1]; [2]; [3]] = [0]).
  { cbn. rewrite (Rmin_left 0 1), (Rmin_left 0 2), (Rmin_left 0 3) by lra. reflexivity. }
  assert (M' : maxima [[0]; [1]; [2]; [3]] = [3]).
  { cbn. rewrite (Rmax_right 0 1), (Rmax_right 1 2), (Rmax_right 2 3) by lra. reflexivity. }
  unfold downsample, init. rewrite B. cbn [rbind]. unfold rescale. rewrite M, M'. cbn [map zip3]. unfold rescale_entry.
  destruct (Req_EM_T 0 3) as [H|_]; [lra|]. unfold store.
  destruct (Rlt_dec ((0 - 0) / (3 - 0)) 1); [|lra]. destruct (Rlt_dec ((1 - 0) / (3 - 0)) 1); [|lra].
  destruct (Rlt_dec ((2 - 0) / (3 - 0)) 1); [|lra]. destruct (Rlt_dec ((3 - 0) / (3 - 0)) 1); [lra|].
  cbn. unfold scale_entry. repeat f_equal; lra.
Qed.
Print Assumptions C59_integers_refuted.

(** A track with three points, in which the middle one is kept for its error. *)
Lemma example_track : track [0; 1; 2] [[0; 5]; [3; 5]; [2; 5]] 2 /\ spans [[0; 5]; [3; 5]; [2; 5]] 0 0 3 /\ spans [[0; 5]; [3; 5]; [2; 5]] 1 5 5.
Proof.
  split; [|split].
  - split; [reflexivity|]. split; [lia|]. split; [cbn; lia|]. split; [repeat constructor|].
    intros i j L. cbn in L. assert (i = 0 \/ i = 1)%nat as [->| ->] by lia; assert (j = 1 \/ j = 2)%nat as [->| ->] by lia; cbn; lra || lia.
  - split; [|split].
    + intros r [<-|[<-|[<-|[]]]]; cbn; lra.
    + exists [0; 5]. cbn; auto.
    + exists [3; 5]. cbn; auto.
  - split; [|split].
    + intros r [<-|[<-|[<-|[]]]]; cbn; lra.
    + exists [0; 5]. cbn; auto.
    + exists [3; 5]. cbn; auto.
Qed.
Definition example_lo (c : nat) : R := match c with O => 0 | _ => 5 end.
Definition example_hi (c : nat) : R := match c with O => 3 | _ => 5 end.
(** The line from the first to the last row is 2/3 of the span away from the middle row. *)
Example C59_runs : forall mi,
  (exists idx, downsample (Vector false [0; 1; 2]) (Rows false [[0; 5]; [3; 5]; [2; 5]]) (Some (Finite (1 / 2))) mi true
     = Ok (map (fun i => nth i [0; 1; 2] 0) idx, map (fun i => nth i [[0; 5]; [3; 5]; [2; 5]] []) idx) /\ idx = [0; 1; 2]%nat) /\
  downsample (Vector false [0; 1; 2]) (Rows false [[0; 5]; [3; 5]; [2; 5]]) (Some (Finite (2 / 3))) None true = Ok ([0; 2], [[0; 5]; [2; 5]]).
Proof.
  intros mi. destruct example_track as (T & S0 & S1).
  assert (SP : forall c, (c < 2)%nat -> spans [[0; 5]; [3; 5]; [2; 5]] c (example_lo c) (example_hi c)).
  { intros [|[|c]] C; [exact S0|exact S1|lia]. }
  split.
  - destruct (C59_downsample false _ _ 2 (1 / 2) mi example_lo example_hi T ltac:(cbn; lia) ltac:(lra) SP) as (idx & E & (Q1 & (r & ->) & (r' & Q3)) & W).
    exists (O :: r). split; [exact E|]. cbn [length Nat.sub] in Q3.
    destruct r as [|a r]; [destruct r' as [|? [|? ?]]; discriminate|].
    assert (NA : neighbours (O :: a :: r) 0 a) by (exists [], r; reflexivity).
    assert (MAX : forall x, In x (O :: a :: r) -> (x <= 2)%nat).
    { rewrite Q3. intros x Hx. apply in_app_or in Hx as [Hx|[<-|[]]]; [|lia].
      rewrite Q3 in Q1. destruct (sorted_app r' [2%nat] Q1) as [_ Z]. specialize (Z x 2%nat Hx (or_introl eq_refl)). lia. }
    inversion Q1 as [|? ? Q4 Q5]; subst. rewrite Forall_forall in Q5. pose proof (Q5 a (or_introl eq_refl)) as A0.
    pose proof (MAX a ltac:(right; left; reflexivity)) as A2. assert (a = 1 \/ a = 2)%nat as [->| ->] by lia.
    + f_equal. f_equal. inversion Q4 as [|? ? Q6 Q7]; subst.
      destruct r as [|b r]; [destruct r' as [|? [|? [|? ?]]]; discriminate|].
      rewrite Forall_forall in Q7. pose proof (Q7 b (or_introl eq_refl)). pose proof (MAX b ltac:(right; right; left; reflexivity)).
      assert (b = 2%nat) as -> by lia. destruct r as [|c r]; [reflexivity|]. inversion Q6 as [|? ? Q8 Q9]; subst. rewrite Forall_forall in Q9.
      pose proof (Q9 c (or_introl eq_refl)). pose proof (MAX c ltac:(do 3 right; left; reflexivity)). lia.
    + exfalso. destruct (W O 2%nat NA) as [Z|[_ W']]; [discriminate|].
      specialize (W' 1%nat ltac:(lia)). unfold within, deviation, example_lo, example_hi, line in W'. cbn in W'.
      destruct (Req_EM_T 0 3) as [H|_]; [lra|]. destruct (Req_EM_T 5 5) as [_|H]; [|lra].
      replace ((3 - (0 + (1 - 0) / (2 - 0) * (2 - 0))) / (3 - 0)) with (2 / 3) in W' by lra. lra.
  - rewrite (C59_straight false _ _ 2 (2 / 3) None example_lo example_hi T ltac:(cbn; lia) ltac:(lra) SP I).
    + reflexivity.
    + intros m M. cbn in M. assert (m = 1%nat) as -> by lia. unfold within, deviation, example_lo, example_hi, line. cbn.
      destruct (Req_EM_T 0 3) as [H|_]; [lra|]. destruct (Req_EM_T 5 5) as [_|H]; [|lra].
      replace ((3 - (0 + (1 - 0) / (2 - 0) * (2 - 0))) / (3 - 0)) with (2 / 3) by lra. lra.
Qed.
