(** interp1d and SingleStarInterpolator, posydon/utils/interpolators.py.  Values are exact
    rationals; NaN and infinities are not modelled. *)
From Coq Require Import String List QArith Bool.
From Verif Require Import PyBase.
Import ListNotations.
Open Scope string_scope.
Open Scope nat_scope.
Open Scope list_scope.

Definition assertion_error : exn := OtherError "AssertionError".

Definition qlt (a b : Q) : bool := negb (Qle_bool b a).

(** np.all(np.diff(x) > 0) and np.all(np.diff(x) < 0) *)
Fixpoint rising (l : list Q) : bool :=
  match l with a :: ((b :: _) as r) => qlt a b && rising r | _ => true end.
Fixpoint falling (l : list Q) : bool :=
  match l with a :: ((b :: _) as r) => qlt b a && falling r | _ => true end.

(** x[indices] and y[indices] for indices = np.argsort(x).  Equal x are kept in order here
    (numpy's order of equal elements is unspecified). *)
Fixpoint insert_node (n : Q * Q) (l : list (Q * Q)) : list (Q * Q) :=
  match l with
  | [] => [n]
  | m :: l' => if Qle_bool (fst n) (fst m) then n :: l else m :: insert_node n l'
  end.
Definition sort_nodes (l : list (Q * Q)) : list (Q * Q) := fold_right insert_node [] l.

(** The parameter fill_value. *)
Inductive fill := NoFill | Extrapolate | Both (v : Q) | Sides (below above : Q) | BadFill.

Record interp := Interp {
  i_x : list Q; i_y : list Q; i_below : option Q; i_above : option Q; i_extrapolate : bool }.

(** np.interp for a point at or after the first node and at most the last one: the last
    interval whose left end does not exceed the point. *)
Fixpoint locate (q : Q) (l : list (Q * Q)) : Q :=
  match l with
  | [] => 0
  | [(_, ya)] => ya
  | (a, ya) :: (((b, yb) :: _) as rest) =>
      if qlt q b then ((yb - ya) / (b - a) * (q - a) + ya)%Q else locate q rest
  end.

(** interpolators.py:87-121 for one point. *)
Definition call (f : interp) (q : Q) : result Q :=
  if negb (length (i_x f) =? length (i_y f)) then Raise ValueError
  else
    let l := combine (i_x f) (i_y f) in
    match l, rev l with
    | (x0, y0) :: _, (xn, yn) :: _ =>
        if qlt q x0 then
          match i_extrapolate f, l with
          | true, _ :: (x1, y1) :: _ => Ok (y0 + (y1 - y0) / (x1 - x0) * (q - x0))%Q
          | _, _ => Ok (match i_below f with Some v => v | None => y0 end)
          end
        else if qlt xn q then
          match i_extrapolate f, rev l with
          | true, _ :: (xm, ym) :: _ => Ok (yn + (yn - ym) / (xn - xm) * (q - xn))%Q
          | _, _ => Ok (match i_above f with Some v => v | None => yn end)
          end
        else Ok (locate q l)
    | _, _ => Raise ValueError
    end.

(** interpolators.py:18-85 *)
Definition construct (kind : string) (x y : list Q) (fv : fill) (left right : option Q) : result interp :=
  if negb (String.eqb kind "linear") then Raise NotImplementedError
  else
    rbind (if rising x then Ok (x, y)
           else if falling x then Ok (rev x, rev y)
           else if length y <? length x then Raise IndexError
           else let s := sort_nodes (combine x y) in Ok (map fst s, map snd s)) (fun p =>
    rbind (match fv with
           | NoFill => Ok (None, None, false)
           | Extrapolate => Ok (None, None, true)
           | Both v => Ok (Some v, Some v, false)
           | Sides a b => Ok (Some a, Some b, false)
           | BadFill => Raise NotImplementedError
           end) (fun w =>
    let '(below, above, ext) := w in
    let f := Interp (fst p) (snd p)
               (match left with Some v => Some v | None => below end)
               (match right with Some v => Some v | None => above end) ext in
    match x with
    | [] => Raise IndexError
    | x0 :: _ =>
        rbind (call f x0) (fun v =>
        match y with
        | [] => Raise IndexError
        | y0 :: _ => if Qeq_bool v y0 then Ok f else Raise assertion_error
        end)
    end)).

(** ** SingleStarInterpolator, interpolators.py:124-232 *)
Section Star.
  (** PchipInterpolator(t, data) and its derivative, for one column of data and one time. *)
  Variable D : Type.
  Variable pchip : D -> Q -> Q.
  Variable pchip' : D -> Q -> Q.

  (** [(p == is_positive and d == is_derivative) for p, d in zip(...)], then the columns and
      keys with a set mask; mask[i] is an IndexError behind the end of the flags.  Data and
      keys are filtered separately: as many keys as data are assumed by the caller, so they
      are taken as pairs here. *)
  Fixpoint filtered (columns : list (string * D)) (flags : list (bool * bool)) (key : bool * bool)
    : result (list (string * D)) :=
    match columns, flags with
    | [], _ => Ok []
    | _ :: _, [] => Raise IndexError
    | c :: cs, (p, d) :: fs =>
        rbind (filtered cs fs key) (fun r =>
        Ok (if Bool.eqb p (fst key) && Bool.eqb d (snd key) then c :: r else r))
    end.

  (** The order of the loops at lines 157-158. *)
  Definition combinations : list (bool * bool) := [(true, true); (true, false); (false, true); (false, false)].

  Fixpoint build (columns : list (string * D)) (flags : list (bool * bool)) (keys : list (bool * bool))
    : result (list ((bool * bool) * list (string * D))) :=
    match keys with
    | [] => Ok []
    | k :: ks => rbind (filtered columns flags k) (fun cs =>
                 rbind (build columns flags ks) (fun r => Ok (match cs with [] => r | _ => (k, cs) :: r end)))
    end.
  Definition star_construct (columns : list (string * D)) (positives derivatives : option (list bool)) :
      result (list ((bool * bool) * list (string * D))) :=
    let p := match positives with Some l => l | None => map (fun _ => false) columns end in
    let d := match derivatives with Some l => l | None => map (fun _ => false) columns end in
    build columns (combine p d) combinations.

  (** The property keys. *)
  Definition star_keys (its : list ((bool * bool) * list (string * D))) : list string :=
    flat_map (fun e => map fst (snd e)) its.

  (** __call__ for one time: the dictionary of results. *)
  Definition value (key : bool * bool) (d : D) (t : Q) : Q :=
    let v := if snd key then pchip' d t else pchip d t in
    if fst key then (if Qle_bool 0 v then v else 0)%Q else v.
  Definition star_call (its : list ((bool * bool) * list (string * D))) (offset t : Q) : list (string * Q) :=
    dset_all String.eqb [] (flat_map (fun e => map (fun c => (fst c, value (fst e) (snd c) (t - offset)%Q)) (snd e)) its).
End Star.
Arguments star_construct {D} _ _ _.
Arguments star_keys {D} _.
Arguments star_call {D} _ _ _ _ _.
Arguments build {D} _ _ _.
Arguments filtered {D} _ _ _.
