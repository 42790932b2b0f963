(** What inverse sampling should return, without reference to the model. *)
From Coq Require Import List Reals.
Import ListNotations.
Open Scope R_scope.

(** The area under the polygon through the points (x_i, y_i) up to node [i]. *)
Fixpoint area_to (x y : list R) (i : nat) : R :=
  match i with
  | O => 0
  | S j => area_to x y j
           + (nth (S j) x 0 - nth j x 0) * (nth j y 0 + nth (S j) y 0) / 2
  end.

(** [s] is a value in the segment [i]; unless the density is constant there, the area under
    the polygon up to [s] is the fraction [u] of the whole. *)
Definition inverts (x y : list R) (u s : R) :=
  exists i, (S i < length x)%nat /\ nth i x 0 <= s <= nth (S i) x 0 /\
    area_to x y i <= u * area_to x y (length x - 1) <= area_to x y (S i) /\
    (nth i y 0 <> nth (S i) y 0 ->
     area_to x y i + nth i y 0 * (s - nth i x 0)
       + (nth (S i) y 0 - nth i y 0) / (nth (S i) x 0 - nth i x 0) * (s - nth i x 0) ^ 2 / 2
     = u * area_to x y (length x - 1)).
