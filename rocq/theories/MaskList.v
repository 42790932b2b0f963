(** numpy's indexing with a boolean mask, and masks as increasing lists of row numbers. *)
From Coq Require Import List Bool Arith Lia Sorted.
Import ListNotations.

(** [a[mask]] for a mask as long as the array. *)
Fixpoint select {A} (keep : list bool) (l : list A) : list A :=
  match keep, l with
  | true :: k, x :: r => x :: select k r
  | false :: k, _ :: r => select k r
  | _, _ => []
  end.

(** ** Masks as lists of row numbers *)
Definition kept (keep : list bool) : list nat := filter (fun i => nth i keep false) (seq 0 (length keep)).

Lemma filter_shift f : forall n s, filter f (seq (S s) n) = map S (filter (fun i => f (S i)) (seq s n)).
Proof. induction n as [|n IH]; intros s; cbn; [reflexivity|]. destruct (f (S s)); cbn; rewrite IH; reflexivity. Qed.

Lemma select_kept {A} (d : A) : forall keep l, length keep = length l ->
  select keep l = map (fun i => nth i l d) (kept keep).
Proof.
  unfold kept. induction keep as [|b keep IH]; intros [|x l] L; cbn in *; try discriminate; [reflexivity|].
  rewrite filter_shift. injection L as L. specialize (IH l L).
  destruct b; cbn; rewrite map_map, IH; reflexivity.
Qed.

Lemma seq_sorted : forall n s, StronglySorted lt (seq s n).
Proof.
  induction n as [|n IH]; intros s; cbn; constructor; [apply IH|].
  apply Forall_forall. intros x Hx. apply in_seq in Hx. lia.
Qed.
Lemma filter_sorted {f} : forall l, StronglySorted lt l -> StronglySorted lt (filter f l).
Proof.
  induction l as [|x l IH]; intros S; cbn; [constructor|]. inversion S as [|? ? S1 S2]; subst.
  destruct (f x); [|auto]. constructor; [auto|].
  apply Forall_forall. intros y Hy. apply filter_In in Hy as [Hy _]. rewrite Forall_forall in S2. auto.
Qed.
Lemma kept_sorted keep : StronglySorted lt (kept keep).
Proof. apply filter_sorted, seq_sorted. Qed.
Lemma kept_in keep x : In x (kept keep) <-> (x < length keep)%nat /\ nth x keep false = true.
Proof.
  unfold kept. rewrite filter_In, in_seq. intuition lia.
Qed.
Lemma sorted_app (l1 l2 : list nat) : StronglySorted lt (l1 ++ l2) ->
  StronglySorted lt l2 /\ forall x y, In x l1 -> In y l2 -> (x < y)%nat.
Proof.
  induction l1 as [|a l1 IH]; cbn; intros S; [split; [exact S|easy]|].
  inversion S as [|? ? S1 S2]; subst. destruct (IH S1) as [A B]. split; [exact A|].
  intros x y [<-|X] Y; [|auto]. rewrite Forall_forall in S2. apply S2. apply in_or_app. auto.
Qed.
(** Neighbours in a sorted list have nothing between them. *)
Lemma sorted_neighbours (l l1 l2 : list nat) a b : StronglySorted lt l -> l = l1 ++ a :: b :: l2 ->
  (a < b)%nat /\ forall x, (a < x < b)%nat -> ~ In x l.
Proof.
  intros S ->. destruct (sorted_app _ _ S) as [S1 S2].
  inversion S1 as [|? ? S3 S4]; subst. inversion S3 as [|? ? S5 S6]; subst.
  rewrite Forall_forall in S4, S6. split; [apply S4; left; reflexivity|].
  intros x Hx I. apply in_app_or in I as [I|I].
  - specialize (S2 x a I (or_introl eq_refl)). lia.
  - destruct I as [<-|[<-|I]]; try lia. specialize (S6 x I). lia.
Qed.
Lemma sorted_head (l : list nat) : StronglySorted lt l -> In O l -> exists r, l = O :: r.
Proof.
  destruct l as [|x l]; [easy|]. intros S [<-|I]; [eauto|]. inversion S as [|? ? S1 S2]; subst.
  rewrite Forall_forall in S2. specialize (S2 O I). lia.
Qed.
Lemma sorted_last (l : list nat) n : StronglySorted lt l -> In n l -> (forall x, In x l -> (x <= n)%nat) -> exists r, l = r ++ [n].
Proof.
  intros S I M. apply in_split in I as (l1 & l2 & ->). destruct l2 as [|y l2]; [eauto|].
  destruct (sorted_app _ _ S) as [S1 _]. inversion S1 as [|? ? _ S4]; subst. rewrite Forall_forall in S4.
  specialize (S4 y (or_introl eq_refl)). specialize (M y ltac:(apply in_or_app; right; right; left; reflexivity)). lia.
Qed.

Lemma nth_seq_self {A} (d : A) l : map (fun i => nth i l d) (seq 0 (length l)) = l.
Proof.
  induction l as [|x l IH]; [reflexivity|]. cbn [length seq map nth]. f_equal. rewrite <- seq_shift, map_map. exact IH.
Qed.

