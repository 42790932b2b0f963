(** Specification of initial-condition sampling, independent of the model's functions. *)
From Coq Require Import String List ZArith QArith Bool.
From Verif Require Import PyBase PyNum SampleModel.
Import ListNotations.
Open Scope nat_scope.
Open Scope list_scope.

(** * Column names *)

(** [key] is the first available name equal (up to casefold) to the first allowed name that
    has any equal available name. *)
Definition resolves (casefold : string -> string) (available allowed : list string) (key : string) :=
  exists pre k post a b, allowed = pre ++ k :: post /\ available = a ++ key :: b /\
    casefold key = casefold k /\
    (forall x, In x a -> casefold x <> casefold k) /\
    (forall k' x, In k' pre -> In x available -> casefold x <> casefold k').

Definition unresolved (casefold : string -> string) (available allowed : list string) :=
  forall k x, In k allowed -> In x available -> casefold x <> casefold k.

(** * Files *)

(** Distinct non-empty column names, all columns of the stated length. *)
Definition table_ok (d : csv) :=
  NoDup (map fst (columns d)) /\ ~ In EmptyString (map fst (columns d)) /\
  forall key l, In (key, l) (columns d) -> length l = n_rows d.

(** The values for a quantity: the resolved column of the file, or else generated values, one
    for each row of the file. *)
Definition sourced {G} (casefold : string -> string) (d : csv) (names : list string)
    (gen : nat -> G -> option (result (list num * G))) (g : G) (l : list num) (g' : G) :=
  (exists key, resolves casefold (map fst (columns d)) names key /\ In (key, l) (columns d) /\ g' = g)
  \/ (unresolved casefold (map fst (columns d)) names /\ gen (n_rows d) g = Some (Ok (l, g')) /\
      length l = n_rows d).

(** The kick component at row [r]: the cell of the resolved column, or None. *)
Definition kick_cell (casefold : string -> string) (d : csv) (names : list string) (r : nat)
    (v : option num) :=
  (exists key l x, resolves casefold (map fst (columns d)) names key /\ In (key, l) (columns d) /\
     nth_error l r = Some x /\ v = Some x)
  \/ (unresolved casefold (map fst (columns d)) names /\ v = None).

Definition kick_at (casefold : string -> string) (d : csv) (r : nat) (star : nat) (row : kick_row) :=
  let '(w, p, t, m) := row in
  let names first second := if star =? 1 then first else second in
  kick_cell casefold d (names PRIMARY_KICK_VELOCITY_NAMES SECONDARY_KICK_VELOCITY_NAMES) r w /\
  kick_cell casefold d (names PRIMARY_KICK_AZIMUTHAL_ANGLE_NAMES SECONDARY_KICK_AZIMUTHAL_ANGLE_NAMES) r p /\
  kick_cell casefold d (names PRIMARY_KICK_POLAR_ANGLE_NAMES SECONDARY_KICK_POLAR_ANGLE_NAMES) r t /\
  kick_cell casefold d (names PRIMARY_KICK_MEAN_ANOMALY_NAMES SECONDARY_KICK_MEAN_ANOMALY_NAMES) r m.

(** [out] consists of the [n] entries of [l] from position [i] on, read cyclically. *)
Definition cyclic {A} (l : list A) (i n : nat) (out : list A) :=
  length out = n /\ forall j, j < n -> nth_error out j = nth_error l ((i + j) mod length l).

(** * Floating-point operations *)

(** A rounding that is monotone and accurate to a relative error [eps]. *)
Definition rounds (eps : Q) (rnd : Q -> Q) :=
  (forall a b, a <= b -> rnd a <= rnd b)%Q /\
  (forall a, 0 <= a -> (1 - eps) * a <= rnd a /\ rnd a <= (1 + eps) * a)%Q.

(** * Random draws *)

(** A generator of values that takes exactly [c] random numbers per value. *)
Definition steady {G A} (next : G -> Q * G) (c : nat)
    (gen : nat -> G -> option (result (list A * G))) :=
  forall n g l g', gen n g = Some (Ok (l, g')) ->
    g' = Nat.iter (c * n) (fun x => snd (next x)) g /\ length l = n.
