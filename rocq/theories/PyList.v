(** List lemmas missing from the standard library of Coq 8.16. *)
From Coq Require Import List Lia PeanoNat.
Import ListNotations.

Lemma nth_ext_error : forall A (a b : list A), (forall i, nth_error a i = nth_error b i) -> a = b.
Proof.
  induction a as [|x a IH]; intros [|y b] H.
  - reflexivity.
  - specialize (H 0). discriminate.
  - specialize (H 0). discriminate.
  - assert (E := H 0). injection E as ->. f_equal. apply IH. intro i. exact (H (S i)).
Qed.

Lemma nth_firstn_lt : forall A (l : list A) n i, i < n -> nth_error (firstn n l) i = nth_error l i.
Proof.
  induction l as [|x l IH]; intros [|n] [|i] H; try reflexivity; try lia.
  cbn. apply IH. lia.
Qed.

Lemma nth_firstn_ge : forall A (l : list A) n i, n <= i -> nth_error (firstn n l) i = None.
Proof. intros. apply nth_error_None. rewrite firstn_length. lia. Qed.

Lemma nth_skipn : forall A (l : list A) n i, nth_error (skipn n l) i = nth_error l (n + i).
Proof.
  induction l as [|x l IH]; intros [|n] i; try reflexivity.
  - cbn. destruct i; reflexivity.
  - cbn. apply IH.
Qed.

Lemma nth_map_error : forall A B (f : A -> B) l i,
  nth_error (map f l) i = option_map f (nth_error l i).
Proof. induction l as [|x l IH]; intros [|i]; cbn; try reflexivity. apply IH. Qed.

Lemma nth_seq_error : forall n s i, i < n -> nth_error (seq s n) i = Some (s + i).
Proof.
  induction n as [|n IH]; intros s [|i] H; try lia; cbn.
  - f_equal. lia.
  - rewrite IH by lia. f_equal. lia.
Qed.
