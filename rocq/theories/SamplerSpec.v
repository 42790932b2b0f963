(** What a caller of the samplers relies on, stated without reference to the model. *)
From Coq Require Import List QArith.
Import ListNotations.
Open Scope Q_scope.

(** Raw numbers lie in [0,1) and uniform(lo, hi) stays within its limits. *)
Definition unit_stream {G} (next : G -> Q * G) := forall g, 0 <= fst (next g) /\ fst (next g) < 1.
Definition keeps_limits (scale : Q -> Q -> Q -> Q) :=
  forall lo hi u, lo <= hi -> 0 <= u -> u < 1 -> lo <= scale lo hi u /\ scale lo hi u <= hi.

(** [x] was accepted: it lies in the interval and some height not above the density there
    was drawn between 0 and the top. *)
Definition accepted_at (pdf : Q -> Q) (lo hi top x : Q) :=
  lo <= x /\ x <= hi /\ exists y, 0 <= y /\ y <= top /\ y <= pdf x.

(** [v] lies in a bin of positive weight. *)
Definition in_heavy_bin (edges ys : list Q) (v : Q) :=
  exists b lo hi w, nth_error edges b = Some lo /\ nth_error edges (S b) = Some hi /\
    nth_error ys b = Some w /\ 0 < w /\ lo <= v /\ v <= hi.

Definition increasing_edges (edges : list Q) :=
  forall b lo hi, nth_error edges b = Some lo -> nth_error edges (S b) = Some hi -> lo <= hi.

(** The k-th raw number of the stream. *)
Fixpoint raw_at {G} (next : G -> Q * G) (g : G) (k : nat) : Q :=
  match k with O => fst (next g) | S k' => raw_at next (snd (next g)) k' end.

(** What rejection sampling means.  Proposals pair two raw numbers of the stream, given by
    their positions; no raw number serves twice.  The result consists of exactly the proposed
    points whose height does not exceed the density, in the order of the proposals. *)
Definition thinned {G} (next : G -> Q * G) (scale : Q -> Q -> Q -> Q) (g : G) (pdf : Q -> Q)
    (lo hi top : Q) (proposals : list (nat * nat)) (l : list Q) :=
  let point p := scale lo hi (raw_at next g (fst p)) in
  let height p := scale 0 top (raw_at next g (snd p)) in
  NoDup (map fst proposals ++ map snd proposals) /\
  l = map point (filter (fun p => Qle_bool (height p) (pdf (point p))) proposals).

(** The bin that the cumulative weights assign to the raw number [u]: the weight before the
    bin is at most, the weight including it more than, the fraction [u] of the total. *)
Definition weight_to (ys : list Q) (b : nat) : Q := fold_right Qplus 0 (firstn b ys).
Definition chosen_bin (ys : list Q) (u : Q) (b : nat) :=
  (b < length ys)%nat /\ weight_to ys b <= u * weight_to ys (length ys)
  /\ u * weight_to ys (length ys) < weight_to ys (S b).

(** [v] is drawn with the raw number at position [p] uniformly from bin [b]. *)
Definition drawn_in {G} (next : G -> Q * G) (scale : Q -> Q -> Q -> Q) (g : G) (edges : list Q)
    (b p : nat) (v : Q) :=
  exists lo hi, nth_error edges b = Some lo /\ nth_error edges (S b) = Some hi
    /\ v = scale lo hi (raw_at next g p).
