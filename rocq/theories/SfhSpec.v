(** What share of a distribution belongs to a metallicity bin. *)
From Coq Require Import List QArith.
Import ListNotations.

Definition larger (a b : Q) : Q := if Qlt_le_dec a b then b else a.
Definition smaller (a b : Q) : Q := if Qlt_le_dec a b then a else b.

(** The part of the interval [lo, hi] that lies within [L, U]. *)
Definition share (F : Q -> Q) (L U lo hi : Q) : Q :=
  if Qlt_le_dec (larger lo L) (smaller hi U) then F (smaller hi U) - F (larger lo L) else 0.

(** The limits in force, and the edges of bin number i of n: the outer bins reach to limits
    beyond the bins. *)
Definition low_limit (bins : list Q) (zmin : option Q) : Q := match zmin with Some z => z | None => nth 0 bins 0 end.
Definition high_limit (bins : list Q) (zmax : option Q) : Q := match zmax with Some z => z | None => nth (length bins - 1) bins 0 end.
Definition low_edge (bins : list Q) (L : Q) (i : nat) : Q := if Nat.eqb i 0 then smaller (nth 0 bins 0) L else nth i bins 0.
Definition high_edge (bins : list Q) (U : Q) (i : nat) : Q :=
  if Nat.eqb (S i) (length bins - 1) then larger (nth (S i) bins 0) U else nth (S i) bins 0.

(** The limits touch the bins. *)
Definition limits_meet (bins : list Q) (zmin zmax : option Q) : Prop :=
  match zmin with Some a => a <= nth (length bins - 1) bins 0 | None => True end /\
  match zmax with Some b => nth 0 bins 0 < b | None => True end /\
  match zmin, zmax with Some a, Some b => a < b | _, _ => True end.
