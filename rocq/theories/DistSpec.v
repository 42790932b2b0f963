(** What a density and a sampler are, independently of the model (C39). *)
From Coq Require Import Reals.
From Coquelicot Require Import Coquelicot.
Open Scope R_scope.

(** A probability density on (lo, hi). *)
Definition density (f : R -> R) (lo hi : R) : Prop :=
  lo < hi /\ (forall x, 0 <= f x) /\ (forall x, x < lo \/ hi < x -> f x = 0) /\
  is_RInt_gen f (at_right lo) (at_left hi) 1.
(** Proportional to a given positive shape; with [density] this fixes f between lo and hi. *)
Definition follows (f shape : R -> R) (lo hi : R) : Prop :=
  (forall x, lo < x < hi -> 0 < shape x) /\
  (forall x y, lo < x < hi -> lo < y < hi -> f x * shape y = f y * shape x).
(** Turns a uniform number into one distributed as f: the inverse of the distribution function. *)
Definition samples (r f : R -> R) (lo hi : R) : Prop :=
  r 0 = lo /\ r 1 = hi /\
  (forall u, 0 <= u <= 1 -> lo <= r u <= hi /\ is_RInt f lo (r u) u) /\
  (forall u v, 0 <= u -> u < v -> v <= 1 -> r u < r v).
