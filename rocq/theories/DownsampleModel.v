(** Downsampling of tracks, posydon/grids/downsampling.py.

    Real arithmetic instead of floating point; NaN and infinities are not modelled, except that [max_err] may
    be non-finite.  Printing ([say], lines 134-144) and warnings are left out. *)
From Coq Require Import List Bool Arith Reals.
From Verif Require Import PyBase MaskList.
Import ListNotations.
Open Scope R_scope.

(** A float argument that may be NaN or infinite ([NonFinite], lines 194: only tested for being finite; a
    negative infinity and the others give the same exception). *)
Inductive number := Finite (x : R) | NonFinite.

(** What can be passed as [independent] or [dependent] (lines 94-130): something that is not iterable, a
    sequence of numbers, a sequence of rows of numbers, a sequence of deeper arrays.  [integral] says that numpy gives the array an
    integer type.  Ragged sequences are not modelled: all rows of [Rows] are assumed equally long. *)
Inductive data :=
| NotIterable
| Vector (integral : bool) (l : list R)
| Rows (integral : bool) (l : list (list R))
| Deeper.

(** The object: the independent variable, the scaled matrix, minima and maxima of the columns (lines 115, 149).
    [keep] (lines 109, 192, 246) is passed explicitly. *)
Record tracker := { td_t : list R; td_X : list (list R); td_min : list R; td_max : list R }.

(** numpy's min and max over the first axis (line 78). *)
Definition column (c : nat) (X : list (list R)) : list R := map (fun r => nth c r 0) X.
Definition lmin (l : list R) : R := match l with [] => 0 | x :: r => fold_left Rmin r x end.
Definition lmax (l : list R) : R := match l with [] => 0 | x :: r => fold_left Rmax r x end.
Definition width (X : list (list R)) : nat := match X with [] => O | r :: _ => length r end.

(** Lines 81-84: one entry of the scaled matrix, stored in the type of the array: an integer array keeps only
    the integer part, which for values between 0 and 1 is 0 below 1. *)
Definition store (integral : bool) (x : R) : R :=
  if integral then (if Rlt_dec x 1 then 0 else 1) else x.
Definition rescale_entry (integral : bool) (lo hi x : R) : R :=
  if Req_EM_T lo hi then 0 else store integral ((x - lo) / (hi - lo)).

(** rescale_from_0_to_1, lines 53-88, of a matrix with at least one row (lines 75-76 are in [init]). *)
Fixpoint zip3 (f : R -> R -> R -> R) (a b c : list R) : list R :=
  match a, b, c with
  | x :: a', y :: b', z :: c' => f x y z :: zip3 f a' b' c'
  | _, _, _ => []
  end.
Definition minima (X : list (list R)) : list R := map (fun c => lmin (column c X)) (seq 0 (width X)).
Definition maxima (X : list (list R)) : list R := map (fun c => lmax (column c X)) (seq 0 (width X)).
Definition rescale (integral : bool) (X : list (list R)) : list (list R) :=
  map (fun row => zip3 (rescale_entry integral) (minima X) (maxima X) row) X.

(** Line 129: some step of the independent variable is not positive. *)
Fixpoint any_backstep (t : list R) : bool :=
  match t with
  | a :: ((b :: _) as r) => (if Rle_dec (b - a) 0 then true else false) || any_backstep r
  | _ => false
  end.

(** __init__, lines 94-132. *)
Definition init (independent dependent : data) : result tracker :=
  match independent with
  | NotIterable => Raise ValueError                       (* 111-112 *)
  | Rows _ [] => Raise IndexError                         (* independent[0] *)
  | Rows _ (_ :: _) => Raise ValueError                   (* 113-114 *)
  | Deeper => Raise ValueError                            (* 113-114 *)
  | Vector _ [] => Raise IndexError                       (* independent[0] *)
  | Vector _ t =>
    match dependent with
    | NotIterable => Raise ValueError                     (* 117-118 *)
    | Deeper => Raise ValueError                          (* 125-126 *)
    | Vector _ [] | Rows _ [] => Raise IndexError         (* dependent[0] *)
    | Rows _ ([] :: _) => Raise IndexError                (* self.X[0, 0] *)
    | Vector i l =>
      if any_backstep t then Raise ValueError             (* 129-130 *)
      else let X := map (fun x => [x]) l in               (* 123 *)
           Ok {| td_t := t; td_X := rescale i X; td_min := minima X; td_max := maxima X |}
    | Rows i X =>
      if any_backstep t then Raise ValueError
      else Ok {| td_t := t; td_X := rescale i X; td_min := minima X; td_max := maxima X |}
    end
  end.

(** Line 212: linear interpolation of all columns between two rows. *)
Fixpoint interpolate (xi xj : list R) (dtk dt : R) : list R :=
  match xi, xj with
  | a :: xi', b :: xj' => (a + dtk * (b - a) / dt) :: interpolate xi' xj' dtk dt
  | _, _ => []
  end.

(** Line 216: the 2-norm of the difference of two rows. *)
Fixpoint sumsq (x y : list R) : R :=
  match x, y with
  | a :: x', b :: y' => (a - b) * (a - b) + sumsq x' y'
  | _, _ => 0
  end.
Definition norm2 (x y : list R) : R := sqrt (sumsq x y).

Definition row (X : list (list R)) (i : nat) : list R := nth i X [].
Definition time (t : list R) (i : nat) : R := nth i t 0.

(** Lines 205-216: the error of the intermediate row [m] between the rows [i] and [j]. *)
Definition row_error (t : list R) (X : list (list R)) (i j m : nat) : R :=
  norm2 (row X m) (interpolate (row X i) (row X j) (time t m - time t i) (time t j - time t i)).

(** Lines 219-221: numpy's argmax: position of the first greatest value of a non-empty list, and that value. *)
Fixpoint argmax_from (best : nat) (v : R) (pos : nat) (l : list R) : nat * R :=
  match l with
  | [] => (best, v)
  | x :: r => if Rlt_dec v x then argmax_from pos x (S pos) r else argmax_from best v (S pos) r
  end.
Definition argmax (l : list R) : nat * R :=
  match l with [] => (O, 0) | x :: r => argmax_from O x 1 r end.

(** Lines 226-232. *)
Definition too_long (t : list R) (max_interval : option R) (i j : nat) : bool :=
  match max_interval with
  | None => false
  | Some m =>
    let interval := Rabs (time t i - time t j) in
    if Rlt_dec m 0
    then if Rlt_dec (Rabs (m * (time t 0 - time t (length t - 1)))) interval then true else false
    else if Rlt_dec m interval then true else false
  end.

(** keep[k] = True *)
Fixpoint mark (k : nat) (keep : list bool) : list bool :=
  match keep, k with
  | [], _ => []
  | _ :: r, O => true :: r
  | b :: r, S k' => b :: mark k' r
  end.

(** DS, lines 202-239.  [fuel] bounds the depth of the recursion; [find_downsample] passes the number of
    rows (python's recursion limit is not modelled). *)
Fixpoint DS (fuel : nat) (t : list R) (X : list (list R)) (tol : R) (mi : option R) (i j : nat) (keep : list bool)
  : list bool :=
  match fuel with
  | O => keep
  | S f =>
    if (j <=? i + 1)%nat then keep
    else
      let errors := map (row_error t X i j) (seq (i + 1) (j - (i + 1))) in
      let '(a, e_max) := argmax errors in
      let k := (i + 1 + a)%nat in
      let keep_it := too_long t mi i j || (if Rlt_dec tol e_max then true else false) in
      if keep_it
      then DS f t X tol mi k j (DS f t X tol mi i k (mark k keep))
      else keep
  end.

(** find_downsample, lines 174-246: the mask of kept rows. *)
Definition find_downsample (td : tracker) (max_err : option number) (mi : option R) : result (list bool) :=
  let t := td_t td in
  let N := length t in
  match max_err with
  | None => Ok (repeat true N)
  | Some e =>
    if (N <? 3)%nat then Ok (repeat true N)
    else match e with
         | NonFinite => Raise ValueError
         | Finite tol =>
           if Rlt_dec tol 0 then Raise ValueError
           else let keep := mark (N - 1) (mark 0 (repeat false N)) in
                Ok (DS N t (td_X td) tol mi 0 (N - 1) keep)
         end
  end.

(** Line 171. *)
Definition scale_entry (lo hi x : R) : R := x * (hi - lo) + lo.

(** extract_downsample, lines 153-172 ([select] is indexing with a mask, line 169); a mask of another length than the matrix raises IndexError. *)
Definition extract_downsample (td : tracker) (keep : list bool) (scale_back : bool) : result (list R * list (list R)) :=
  if (length keep =? length (td_X td))%nat
  then let t := select keep (td_t td) in
       let X := select keep (td_X td) in
       Ok (t, if scale_back then map (fun r => zip3 scale_entry (td_min td) (td_max td) r) X else X)
  else Raise IndexError.

(** downsample, lines 248-270, of a freshly constructed object. *)
Definition downsample (independent dependent : data) (max_err : option number) (mi : option R) (scale_back : bool)
  : result (list R * list (list R)) :=
  rbind (init independent dependent) (fun td =>
  rbind (find_downsample td max_err mi) (fun keep =>
  extract_downsample td keep scale_back)).
