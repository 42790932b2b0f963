(** Python numbers in comparisons: floats are NaN, the infinities or a rational.

    Every finite IEEE double is a rational number, and Python compares doubles exactly, so
    [Fin q] covers all finite floats (and more).  Arithmetic that rounds is never computed
    here; models that need it take the rounded operation as a parameter. *)
From Coq Require Import QArith Bool Lia Lqa.
From Verif Require Import PyBase.

Inductive num := NaN | MInf | PInf | Fin (q : Q).

(** [a < b] on floats: False whenever one is NaN. *)
Definition nlt (a b : num) : bool :=
  match a, b with
  | NaN, _ | _, NaN => false
  | Fin x, Fin y => negb (Qle_bool y x)
  | MInf, MInf => false
  | MInf, _ => true
  | _, MInf => false
  | PInf, _ => false
  | Fin _, PInf => true
  end.

(** [a <= b] on floats. *)
Definition nle (a b : num) : bool :=
  match a, b with
  | NaN, _ | _, NaN => false
  | Fin x, Fin y => Qle_bool x y
  | MInf, _ => true
  | _, MInf => false
  | _, PInf => true
  | PInf, Fin _ => false
  end.

Definition ngt a b := nlt b a.
Definition nge a b := nle b a.

(** A Python value that is a float or None; comparing None raises TypeError. *)
Definition pnum := option num.

Definition p_lt (a b : pnum) : result bool :=
  match a, b with Some x, Some y => Ok (nlt x y) | _, _ => Raise TypeError end.
Definition p_le (a b : pnum) : result bool :=
  match a, b with Some x, Some y => Ok (nle x y) | _, _ => Raise TypeError end.
Definition p_gt a b := p_lt b a.
Definition p_ge a b := p_le b a.

(** [x and y], [x or y] on booleans that may raise (short-circuit). *)
Definition r_and (x : result bool) (y : result bool) : result bool :=
  match x with Ok true => y | _ => x end.
Definition r_or (x : result bool) (y : result bool) : result bool :=
  match x with Ok false => y | _ => x end.

(** pandas.isna on None or a float. *)
Definition isna (a : pnum) : bool :=
  match a with None | Some NaN => true | _ => false end.

Lemma nlt_fin : forall x y, nlt (Fin x) (Fin y) = true <-> (x < y)%Q.
Proof.
  intros. unfold nlt. rewrite negb_true_iff. split.
  - intro H. apply Qnot_le_lt. intro L. apply Qle_bool_iff in L. congruence.
  - intro H. destruct (Qle_bool y x) eqn:E; [|reflexivity].
    apply Qle_bool_iff in E. lra.
Qed.

Lemma nle_fin : forall x y, nle (Fin x) (Fin y) = true <-> (x <= y)%Q.
Proof. intros. apply Qle_bool_iff. Qed.

Lemma nlt_fin_false : forall x y, nlt (Fin x) (Fin y) = false <-> (y <= x)%Q.
Proof.
  intros. destruct (nlt (Fin x) (Fin y)) eqn:E.
  - apply nlt_fin in E. split; [discriminate | intro; lra].
  - split; [|reflexivity]. intros _. apply Qnot_lt_le. intro L. apply nlt_fin in L. congruence.
Qed.

Lemma nle_fin_false : forall x y, nle (Fin x) (Fin y) = false <-> (y < x)%Q.
Proof.
  intros. destruct (nle (Fin x) (Fin y)) eqn:E.
  - apply nle_fin in E. split; [discriminate | intro; lra].
  - split; [|reflexivity]. intros _. apply Qnot_le_lt. intro L. apply nle_fin in L. congruence.
Qed.
