(** Orbits: Roche lobes and Kepler's third law, posydon/utils/common_functions.py:225-392,
    with the constants of posydon/utils/constants.py.

    Real arithmetic instead of floating point.  [None] is NaN; infinities are not modelled. *)
From Coq Require Import List Bool Reals.
From Verif Require Import PyBase.
Import ListNotations.
Open Scope R_scope.

(** ** Numbers that may be NaN *)
Notation fl := (option R).
Definition lift1 (f : R -> R) (x : fl) : fl := match x with Some a => Some (f a) | None => None end.
Definition lift2 (f : R -> R -> R) (x y : fl) : fl :=
  match x, y with Some a, Some b => Some (f a b) | _, _ => None end.
(** Comparisons with NaN are false. *)
Definition flt (x : fl) (b : R) : bool := match x with Some a => if Rlt_dec a b then true else false | None => false end.
Definition fle (x : fl) (b : R) : bool := match x with Some a => if Rle_dec a b then true else false | None => false end.

(** ** constants.py:20, 27, 72-77, 85, 97, 107 *)
Definition c_pi : R := 3.1415926535897932384626433832795028841971693993751.
Definition standard_cgrav : R := 6.67428e-8.
Definition Msun : R := 1.9892e33.
Definition Rsun : R := 6.9598e10.
Definition dayyer : R := 365.25.
Definition aursun : R := 214.95.
Definition day2sec : R := 24 * 60 * 60.

(** ** roche_lobe_radius, common_functions.py:225-300 *)
(** Lines 246-295: an argument is a number or an array (one axis); invalid values become NaN, in an array
    in place, and an empty array becomes one NaN.  [clean] is the value used, [caller_sees] what the caller's
    variable holds afterwards.  Arrays of floats; two arguments that are the same array are not modelled. *)
Inductive arg := Scalar (x : fl) | Array (l : list fl).
Definition clean (invalid : fl -> bool) (x : arg) : arg :=
  match x with
  | Scalar v => Scalar (if invalid v then None else v)
  | Array [] => Array [None]
  | Array l => Array (map (fun v => if invalid v then None else v) l)
  end.
Definition caller_sees (invalid : fl -> bool) (x : arg) : arg :=
  match x with
  | Scalar v => Scalar v
  | Array l => Array (map (fun v => if invalid v then None else v) l)
  end.
Definition bad_separation (x : fl) : bool := flt x 0.
Definition bad_mass (x : fl) : bool := fle x 0.

(** numpy's broadcasting of numbers and arrays with one axis *)
Definition broadcast2 (f : fl -> fl -> fl) (x y : arg) : result arg :=
  match x, y with
  | Scalar a, Scalar b => Ok (Scalar (f a b))
  | Scalar a, Array m => Ok (Array (map (f a) m))
  | Array l, Scalar b => Ok (Array (map (fun a => f a b) l))
  | Array l, Array m =>
      if Nat.eqb (length l) (length m) then Ok (Array (map (fun p => f (fst p) (snd p)) (combine l m)))
      else match l, m with
           | [a], _ => Ok (Array (map (f a) m))
           | _, [b] => Ok (Array (map (fun a => f a b) l))
           | _, _ => Raise ValueError
           end
  end.
Definition map_arg (f : fl -> fl) (x : arg) : arg :=
  match x with Scalar a => Scalar (f a) | Array l => Array (map f l) end.
(** Lines 297-300.  q is positive whenever it is not NaN, as the masses were checked before. *)
Definition roche_lobe_radius (m1 m2 a_orb : arg) : result arg :=
  let a := clean bad_separation a_orb in
  let m1 := clean bad_mass m1 in
  let m2 := clean bad_mass m2 in
  rbind (broadcast2 (lift2 Rdiv) m1 m2) (fun q =>
  rbind (broadcast2 (lift2 Rmult) a (map_arg (lift1 (fun q => 0.49 * Rpower q (2 / 3))) q)) (fun num =>
  broadcast2 (lift2 Rdiv) num
    (map_arg (lift1 (fun q => 0.6 * Rpower q (2 / 3) + ln (1 + Rpower q (1 / 3)))) q))).

(** The call: its result and the arguments as the caller has them afterwards. *)
Definition roche_call (m1 m2 a_orb : arg) : result arg * (arg * arg * arg) :=
  (roche_lobe_radius m1 m2 a_orb, (caller_sees bad_mass m1, caller_sees bad_mass m2, caller_sees bad_separation a_orb)).

(** ** check_for_RLO, common_functions.py:302-336, for numbers (arrays have no truth value). *)
Definition roche_of (m1 m2 a : fl) : fl :=
  match roche_lobe_radius (Scalar m1) (Scalar m2) (Scalar a) with Ok (Scalar r) => r | _ => None end.
Definition check_for_RLO (m1 r1 m2 r2 separation : fl) (tolerance : R) : bool :=
  let RL1 := roche_of m1 m2 separation in
  let RL2 := roche_of m2 m1 separation in
  if flt (lift2 Rminus r1 RL1) tolerance && flt (lift2 Rminus r2 RL2) tolerance then false else true.

(** ** Kepler's third law, common_functions.py:338-390, for positive arguments. *)
Definition orbital_separation_from_period (P m1 m2 : R) : R :=
  let separation_cm := Rpower (standard_cgrav * (m1 * Msun + m2 * Msun) / (4 * c_pi ^ 2) * (P * day2sec) ^ 2) (1 / 3) in
  separation_cm / Rsun.
Definition orbital_period_from_separation (a m1 m2 : R) : R :=
  dayyer * Rpower ((a / aursun) ^ 3 / (m1 + m2)) (1 / 2).
