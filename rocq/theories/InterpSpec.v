(** What a user of the interpolators relies on. *)
From Coq Require Import List QArith.
Import ListNotations.
Open Scope Q_scope.
Open Scope list_scope.

(** No two nodes have the same abscissa. *)
Definition distinct_x (nodes : list (Q * Q)) : Prop := ForallOrdPairs (fun m n => ~ fst m == fst n) nodes.

(** [m] and [n] are neighbours: no node lies between them. *)
Definition neighbours (nodes : list (Q * Q)) (m n : Q * Q) : Prop :=
  In m nodes /\ In n nodes /\ fst m < fst n /\ forall k, In k nodes -> fst k <= fst m \/ fst n <= fst k.

(** The straight line through two points. *)
Definition line (m n : Q * Q) (q : Q) : Q := snd m + (snd n - snd m) / (fst n - fst m) * (q - fst m).

Definition lowest (nodes : list (Q * Q)) (m : Q * Q) : Prop := In m nodes /\ forall k, In k nodes -> fst m <= fst k.
Definition highest (nodes : list (Q * Q)) (m : Q * Q) : Prop := In m nodes /\ forall k, In k nodes -> fst k <= fst m.
