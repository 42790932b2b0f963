(** What a user of the population tables relies on, stated on plain lists of rows. *)
From Coq Require Import List ZArith Bool.
Import ListNotations.

(** The rows of one binary, in file order. *)
Definition rows_of {A} (i : Z) (t : list (Z * A)) : list A :=
  map snd (filter (fun r => Z.eqb (fst r) i) t).

(** [out] is the part of [t] with the wanted labels: same order, nothing else. *)
Definition labelled {A} (want : Z -> Prop) (t out : list (Z * A)) : Prop :=
  exists keep : list bool, length keep = length t /\
    out = map snd (filter fst (combine keep t)) /\
    forall n b r, nth_error keep n = Some b -> nth_error t n = Some r -> (b = true <-> want (fst r)).

(** [out] are the rows of [t] at the positions where [m] is true. *)
Definition masked {A} (m : nat -> option bool) (t out : list A) : Prop :=
  exists keep : list bool, length keep = length t /\
    out = map snd (filter fst (combine keep t)) /\
    forall n b, nth_error keep n = Some b -> m n = Some b.

Definition has_label {A} (want : Z -> Prop) (t : list (Z * A)) : Prop :=
  exists r, In r t /\ want (fst r).

(** Every binary of a table has consecutive rows, and the binaries come in the order [order]:
    the table is the concatenation of the blocks of the binaries. *)
Definition grouped {A} (order : list Z) (t : list (Z * A)) : Prop :=
  NoDup order /\ exists blocks : list (list (Z * A)), t = concat blocks /\
    Forall2 (fun i b => b <> [] /\ forall r, In r b -> fst r = i) order blocks.
