(** Lemmas about downsampling. *)
From Coq Require Import List Bool Arith Reals Lra Lia Sorted.
From Verif Require Import PyBase PyList MaskList DownsampleModel.
Import ListNotations.
Open Scope R_scope.

(** ** Lists *)
Lemma nth_zip3 f : forall a b r c, (c < length a)%nat -> (c < length b)%nat -> (c < length r)%nat ->
  nth c (zip3 f a b r) 0 = f (nth c a 0) (nth c b 0) (nth c r 0).
Proof.
  induction a as [|x a IH]; intros [|y b] [|z r] c A B C; cbn in *; try lia.
  destruct c as [|c]; [reflexivity|]. apply IH; lia.
Qed.
Lemma length_zip3 f : forall a b r, length a = length r -> length b = length r -> length (zip3 f a b r) = length r.
Proof. induction a as [|x a IH]; intros [|y b] [|z r] A B; cbn in *; try lia. f_equal. apply IH; lia. Qed.
Lemma zip3_ext f d : forall a b x y, length a = d -> length b = d -> length x = d -> length y = d ->
  (forall c, (c < d)%nat -> f (nth c a 0) (nth c b 0) (nth c x 0) = nth c y 0) -> zip3 f a b x = y.
Proof.
  induction d as [|d IH]; intros a b x y A B X Y F.
  - destruct a; [|discriminate]. destruct y; [|discriminate]. destruct b; destruct x; reflexivity.
  - destruct a as [|a0 a], b as [|b0 b], x as [|x0 x], y as [|y0 y]; try discriminate.
    cbn. f_equal; [apply (F O); lia|]. apply IH; cbn in *; try lia. intros c C. apply (F (S c)). lia.
Qed.
Lemma length_mark k : forall keep, length (mark k keep) = length keep.
Proof. induction k as [|k IH]; intros [|b r]; cbn; auto. Qed.
Lemma nth_mark k : forall keep x, (k < length keep)%nat ->
  nth x (mark k keep) false = if (x =? k)%nat then true else nth x keep false.
Proof.
  induction k as [|k IH]; intros [|b r] x L; cbn in *; try lia.
  - destruct x; reflexivity.
  - destruct x as [|x]; cbn; [reflexivity|]. apply IH. lia.
Qed.
Lemma nth_repeat_false n x : nth x (repeat false n) false = false.
Proof. revert x; induction n as [|n IH]; intros [|x]; cbn; auto. Qed.

(** ** Least and greatest *)
Lemma fold_min_le : forall l x, fold_left Rmin l x <= x /\ (forall y, In y l -> fold_left Rmin l x <= y).
Proof.
  induction l as [|z l IH]; intros x; cbn; [split; [lra|easy]|].
  destruct (IH (Rmin x z)) as [A B]. pose proof (Rmin_l x z). pose proof (Rmin_r x z).
  split; [lra|]. intros y [<-|Y]; [lra|auto].
Qed.
Lemma fold_min_in : forall l x, fold_left Rmin l x = x \/ In (fold_left Rmin l x) l.
Proof.
  induction l as [|z l IH]; intros x; cbn; [auto|].
  destruct (IH (Rmin x z)) as [E|E]; [|auto]. rewrite E. unfold Rmin. destruct (Rle_dec x z); auto.
Qed.
Lemma fold_max_ge : forall l x, x <= fold_left Rmax l x /\ (forall y, In y l -> y <= fold_left Rmax l x).
Proof.
  induction l as [|z l IH]; intros x; cbn; [split; [lra|easy]|].
  destruct (IH (Rmax x z)) as [A B]. pose proof (Rmax_l x z). pose proof (Rmax_r x z).
  split; [lra|]. intros y [<-|Y]; [lra|auto].
Qed.
Lemma fold_max_in : forall l x, fold_left Rmax l x = x \/ In (fold_left Rmax l x) l.
Proof.
  induction l as [|z l IH]; intros x; cbn; [auto|].
  destruct (IH (Rmax x z)) as [E|E]; [|auto]. rewrite E. unfold Rmax. destruct (Rle_dec x z); auto.
Qed.
Lemma lmin_spec l : l <> [] -> In (lmin l) l /\ (forall y, In y l -> lmin l <= y).
Proof.
  destruct l as [|x l]; [easy|]. intros _. cbn. destruct (fold_min_le l x) as [A B]. split.
  - destruct (fold_min_in l x) as [E|E]; [left; congruence|auto].
  - intros y [<-|Y]; auto.
Qed.
Lemma lmax_spec l : l <> [] -> In (lmax l) l /\ (forall y, In y l -> y <= lmax l).
Proof.
  destruct l as [|x l]; [easy|]. intros _. cbn. destruct (fold_max_ge l x) as [A B]. split.
  - destruct (fold_max_in l x) as [E|E]; [left; congruence|auto].
  - intros y [<-|Y]; auto.
Qed.

(** ** argmax *)
Lemma argmax_from_spec : forall l best v pos,
  let '(a, m) := argmax_from best v pos l in
  v <= m /\ (forall x, In x l -> x <= m) /\ ((a = best /\ m = v) \/ (pos <= a < pos + length l)%nat).
Proof.
  induction l as [|x l IH]; intros best v pos; cbn.
  - split; [lra|]. split; [easy|auto].
  - destruct (Rlt_dec v x) as [H|H].
    + specialize (IH pos x (S pos)). destruct (argmax_from pos x (S pos) l) as [a m]. destruct IH as (A & B & C).
      split; [lra|]. split; [intros y [<-|Y]; auto|]. right. lia.
    + specialize (IH best v (S pos)). destruct (argmax_from best v (S pos) l) as [a m]. destruct IH as (A & B & C).
      split; [lra|]. split; [intros y [<-|Y]; auto; lra|]. destruct C as [C|C]; [auto|right; lia].
Qed.
Lemma argmax_spec l : l <> [] -> let '(a, m) := argmax l in (a < length l)%nat /\ forall x, In x l -> x <= m.
Proof.
  destruct l as [|x l]; [easy|]. intros _. cbn.
  pose proof (argmax_from_spec l O x 1) as H. destruct (argmax_from 0 x 1 l) as [a m]. destruct H as (A & B & C).
  split; [lia|]. intros y [<-|Y]; auto.
Qed.
(** The value returned is one of the values. *)
Lemma argmax_from_in : forall l best v pos, snd (argmax_from best v pos l) = v \/ In (snd (argmax_from best v pos l)) l.
Proof.
  induction l as [|x l IH]; intros best v pos; cbn; [auto|].
  destruct (Rlt_dec v x).
  - destruct (IH pos x (S pos)) as [E|E]; auto.
  - destruct (IH best v (S pos)) as [E|E]; auto.
Qed.
Lemma argmax_in l : l <> [] -> In (snd (argmax l)) l.
Proof. destruct l as [|x l]; [easy|]. intros _. cbn. destruct (argmax_from_in l O x 1) as [E|E]; auto. Qed.

(** ** The recursion *)
Section Recursion.
Context (t : list R) (X : list (list R)) (tol : R) (mi : option R).
Definition fine (p q : nat) : Prop :=
  too_long t mi p q = false /\ forall m, (p < m < q)%nat -> row_error t X p q m <= tol.

Lemma DS_spec : forall fuel i j keep, (j - i <= fuel)%nat -> (j < length keep)%nat ->
  (forall x, (i < x < j)%nat -> nth x keep false = false) ->
  let r := DS fuel t X tol mi i j keep in
  length r = length keep /\
  (forall x, (x <= i \/ j <= x)%nat -> nth x r false = nth x keep false) /\
  (forall p q, (i <= p)%nat -> (p < q)%nat -> (q <= j)%nat ->
     p = i \/ nth p r false = true -> q = j \/ nth q r false = true ->
     (forall x, (p < x < q)%nat -> nth x r false = false) -> q = S p \/ fine p q).
Proof using Type.
  induction fuel as [|f IH]; intros i j keep F L E; cbv zeta.
  - cbn. split; [reflexivity|]. split; [reflexivity|]. intros p q A B C. lia.
  - cbn [DS]. destruct (Nat.leb_spec j (i + 1)) as [J|J].
    + split; [reflexivity|]. split; [reflexivity|]. intros p q A B C. left. lia.
    + set (errors := map (row_error t X i j) (seq (i + 1) (j - (i + 1)))).
      assert (NE : errors <> []).
      { intro H. apply (f_equal (@length R)) in H. unfold errors in H. rewrite map_length, seq_length in H. cbn in H. lia. }
      pose proof (argmax_spec errors NE) as AS. destruct (argmax errors) as [a e]. destruct AS as [A1 A2].
      unfold errors in A1. rewrite map_length, seq_length in A1.
      set (k := (i + 1 + a)%nat). assert (K : (i < k < j)%nat) by (unfold k; lia).
      destruct (too_long t mi i j || (if Rlt_dec tol e then true else false)) eqn:D.
      * assert (E1 : forall x, (i < x < k)%nat -> nth x (mark k keep) false = false).
        { intros x Hx. rewrite nth_mark by lia. destruct (Nat.eqb_spec x k); [lia|]. apply E. lia. }
        destruct (IH i k (mark k keep) ltac:(lia) ltac:(rewrite length_mark; lia) E1) as (L1 & O1 & P1).
        set (r1 := DS f t X tol mi i k (mark k keep)) in *. rewrite length_mark in L1.
        assert (E2 : forall x, (k < x < j)%nat -> nth x r1 false = false).
        { intros x Hx. rewrite O1 by lia. rewrite nth_mark by lia. destruct (Nat.eqb_spec x k); [lia|]. apply E. lia. }
        destruct (IH k j r1 ltac:(lia) ltac:(lia) E2) as (L2 & O2 & P2).
        set (r2 := DS f t X tol mi k j r1) in *.
        assert (KT : nth k r2 false = true).
        { rewrite O2 by lia. rewrite O1 by lia. rewrite nth_mark by lia. rewrite Nat.eqb_refl. reflexivity. }
        split; [lia|]. split.
        { intros x Hx. rewrite O2 by lia. rewrite O1 by lia. rewrite nth_mark by lia.
          destruct (Nat.eqb_spec x k); [lia|reflexivity]. }
        intros p q B1 B2 B3 HP HQ HN.
        destruct (le_lt_dec q k) as [Q|Q].
        { apply P1; try lia.
          - destruct HP as [HP|HP]; [auto|]. right. rewrite <- O2 by lia. exact HP.
          - destruct HQ as [HQ|HQ]; [lia|]. right. rewrite <- O2 by lia. exact HQ.
          - intros x Hx. rewrite <- O2 by lia. apply HN. exact Hx. }
        destruct (le_lt_dec k p) as [P|P].
        { apply P2; try lia; try assumption.
          destruct HP as [HP|HP]; [lia|auto]. }
        rewrite HN in KT by lia. discriminate.
      * split; [reflexivity|]. split; [reflexivity|].
        intros p q B1 B2 B3 HP HQ HN.
        assert (p = i). { destruct HP as [HP|HP]; [exact HP|]. destruct (Nat.eq_dec p i); [assumption|]. rewrite E in HP by lia. discriminate. }
        assert (q = j). { destruct HQ as [HQ|HQ]; [exact HQ|]. destruct (Nat.eq_dec q j); [assumption|]. rewrite E in HQ by lia. discriminate. }
        subst p q. right. apply orb_false_iff in D as [D1 D2]. split; [exact D1|].
        intros m M. destruct (Rlt_dec tol e) as [H|H]; [discriminate|].
        assert (row_error t X i j m <= e). { apply A2. unfold errors. apply in_map. apply in_seq. lia. }
        lra.
Qed.

(** Nothing is marked when the whole interval is fine. *)
Lemma DS_nothing : forall fuel i j keep, fine i j -> DS fuel t X tol mi i j keep = keep.
Proof using Type.
  intros [|f] i j keep [F1 F2]; [reflexivity|]. cbn [DS]. destruct (Nat.leb_spec j (i + 1)) as [J|J]; [reflexivity|].
  set (errors := map (row_error t X i j) (seq (i + 1) (j - (i + 1)))).
  assert (NE : errors <> []).
  { intro H. apply (f_equal (@length R)) in H. unfold errors in H. rewrite map_length, seq_length in H. cbn in H. lia. }
  pose proof (argmax_in errors NE) as AI. destruct (argmax errors) as [a e]. cbn in AI.
  unfold errors in AI. apply in_map_iff in AI as (m & M1 & M2). apply in_seq in M2.
  rewrite F1. cbn. destruct (Rlt_dec tol e) as [H|H]; [|reflexivity].
  specialize (F2 m ltac:(lia)). lra.
Qed.
End Recursion.

(** ** Scaled rows *)
Section Matrix.
Context (X : list (list R)) (d : nat) (WF : Forall (fun r => length r = d) X) (NX : X <> []).
Lemma width_d : width X = d.
Proof using WF NX. destruct X as [|r X']; [easy|]. inversion WF; subst. reflexivity. Qed.
Lemma length_minima : length (minima X) = d.
Proof using WF NX. unfold minima. rewrite map_length, seq_length. apply width_d. Qed.
Lemma length_maxima : length (maxima X) = d.
Proof using WF NX. unfold maxima. rewrite map_length, seq_length. apply width_d. Qed.
Lemma nth_map_seq (f : nat -> R) n c : (c < n)%nat -> nth c (map f (seq 0 n)) 0 = f c.
Proof using Type. intros C. rewrite (nth_indep _ 0 (f O)) by (rewrite map_length, seq_length; lia). rewrite map_nth, seq_nth by lia. reflexivity. Qed.
Lemma column_ne c : column c X <> [].
Proof using NX. unfold column. intro H. apply map_eq_nil in H. contradiction. Qed.
Lemma minima_spec c : (c < d)%nat -> (exists r, In r X /\ nth c r 0 = nth c (minima X) 0) /\ (forall r, In r X -> nth c (minima X) 0 <= nth c r 0).
Proof using WF NX.
  intros C. unfold minima. rewrite nth_map_seq by (rewrite width_d; exact C).
  destruct (lmin_spec (column c X) (column_ne c)) as [A B]. split.
  - unfold column in A at 2. apply in_map_iff in A as (r & R1 & R2). eauto.
  - intros r Hr. apply B. unfold column. apply (in_map (fun r => nth c r 0)). exact Hr.
Qed.
Lemma maxima_spec c : (c < d)%nat -> (exists r, In r X /\ nth c r 0 = nth c (maxima X) 0) /\ (forall r, In r X -> nth c r 0 <= nth c (maxima X) 0).
Proof using WF NX.
  intros C. unfold maxima. rewrite nth_map_seq by (rewrite width_d; exact C).
  destruct (lmax_spec (column c X) (column_ne c)) as [A B]. split.
  - unfold column in A at 2. apply in_map_iff in A as (r & R1 & R2). eauto.
  - intros r Hr. apply B. unfold column. apply (in_map (fun r => nth c r 0)). exact Hr.
Qed.
Lemma scale_back_row r : In r X ->
  zip3 scale_entry (minima X) (maxima X) (zip3 (rescale_entry false) (minima X) (maxima X) r) = r.
Proof using WF NX.
  intros I. assert (L : length r = d) by (rewrite Forall_forall in WF; auto).
  pose proof length_minima as LM. pose proof length_maxima as LN.
  apply (zip3_ext scale_entry d); auto; [rewrite length_zip3; lia|].
  intros c C. rewrite nth_zip3 by lia. unfold rescale_entry, scale_entry, store.
  destruct (minima_spec c C) as [_ A]. destruct (maxima_spec c C) as [_ B]. specialize (A r I). specialize (B r I).
  destruct (Req_EM_T (nth c (minima X) 0) (nth c (maxima X) 0)) as [E|E]; [lra|]. field. lra.
Qed.
End Matrix.

Lemma length_interpolate : forall a b x y, length a = length b -> length (interpolate a b x y) = length a.
Proof. induction a as [|u a IH]; intros [|v b] x y L; cbn in *; try lia. f_equal. apply IH. lia. Qed.
Lemma nth_interpolate : forall a b x y c, (c < length a)%nat -> length a = length b ->
  nth c (interpolate a b x y) 0 = nth c a 0 + x * (nth c b 0 - nth c a 0) / y.
Proof.
  induction a as [|u a IH]; intros [|v b] x y c C L; cbn in *; try lia. destruct c as [|c]; [reflexivity|]. apply IH; lia.
Qed.
Lemma sumsq_sum d : forall x y, length x = d -> length y = d ->
  sumsq x y = fold_right Rplus 0 (map (fun c => (nth c x 0 - nth c y 0) * (nth c x 0 - nth c y 0)) (seq 0 d)).
Proof.
  induction d as [|d IH]; intros [|a x] [|b y] LX LY; try discriminate; [reflexivity|].
  cbn [sumsq seq map fold_right nth]. f_equal. rewrite <- seq_shift, map_map. apply IH; cbn in *; lia.
Qed.
Lemma sum_nonneg (f : nat -> R) : forall l, (forall c, 0 <= f c) -> 0 <= fold_right Rplus 0 (map f l).
Proof. induction l as [|x l IH]; intros F; cbn; [lra|]. specialize (F x) as F'. specialize (IH F). lra. Qed.
Lemma sum_member (f : nat -> R) : forall l c, (forall c, 0 <= f c) -> In c l -> f c <= fold_right Rplus 0 (map f l).
Proof.
  induction l as [|x l IH]; intros c F I; cbn; [easy|]. destruct I as [<-|I].
  - pose proof (sum_nonneg f l F). lra.
  - specialize (IH c F I). specialize (F x). lra.
Qed.
