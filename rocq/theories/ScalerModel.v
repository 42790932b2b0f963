(** Scaling of data before interpolation, posydon/interpolation/data_scaling.py.

    Real arithmetic; [None] stands for NaN and for infinities (a logarithm of a number that is not positive, a division by
    zero), and arithmetic with it gives [None]. *)
From Coq Require Import String List Bool Reals.
From Verif Require Import PyBase.
Import ListNotations.
Open Scope string_scope.
Open Scope R_scope.
Open Scope list_scope.

Notation fl := (option R).
Definition lift2 (f : R -> R -> R) (x y : fl) : fl := match x, y with Some a, Some b => Some (f a b) | _, _ => None end.
Definition fadd := lift2 Rplus.
Definition fsub := lift2 Rminus.
Definition fmul := lift2 Rmult.
Definition fdiv (x y : fl) : fl :=
  match x, y with Some a, Some b => if Req_EM_T b 0 then None else Some (a / b) | _, _ => None end.
Definition fopp (x : fl) : fl := option_map Ropp x.
Definition fabs (x : fl) : fl := option_map Rabs x.
Definition log10 (x : fl) : fl := match x with Some a => if Rlt_dec 0 a then Some (ln a / ln 10) else None | None => None end.
Definition pow10 (x : fl) : fl := option_map (fun a => Rpower 10 a) x.

(** numpy's reductions of a one-dimensional array; min and max of an empty one raise ValueError, mean and
    standard deviation (that of the population) are NaN. *)
Definition np_min (l : list fl) : result fl :=
  match l with [] => Raise ValueError | x :: r => Ok (fold_left (lift2 Rmin) r x) end.
Definition np_max (l : list fl) : result fl :=
  match l with [] => Raise ValueError | x :: r => Ok (fold_left (lift2 Rmax) r x) end.
Definition np_sum (l : list fl) : fl := fold_right fadd (Some 0) l.
Definition np_mean (l : list fl) : fl := fdiv (np_sum l) (Some (INR (length l))).
Definition np_std (l : list fl) : fl :=
  option_map sqrt (np_mean (map (fun x => fmul (fsub x (np_mean l)) (fsub x (np_mean l))) l)).

(** The object, lines 32-36. *)
Record scaler := { params : option (list fl); method : option string; lower : option R; upper : option R }.
Definition new_scaler : scaler := {| params := None; method := None; lower := None; upper := None |}.

(** The argument of [fit]: a one-dimensional numpy array, or something else (line 60). *)
Inductive arg := Array1 (l : list fl) | OtherArg.

Definition set_method (m : string) (s : scaler) : scaler :=
  {| params := params s; method := Some m; lower := lower s; upper := upper s |}.
Definition set_range (lo hi : R) (s : scaler) : scaler :=
  {| params := params s; method := method s; lower := Some lo; upper := Some hi |}.
Definition set_params (p : list fl) (s : scaler) : scaler :=
  {| params := Some p; method := method s; lower := lower s; upper := upper s |}.

(** fit, lines 38-97: the object afterwards, and None or the exception.  Lines 68-80 share the assertion on the limits. *)
Definition fit_range (lo hi : R) (pmin pmax : result fl) (s : scaler) : scaler * option exn :=
  if Rlt_dec lo hi
  then let s := set_range lo hi s in
       match pmin, pmax with
       | Ok a, Ok b => (set_params [a; b] s, None)
       | Raise e, _ | _, Raise e => (s, Some e)
       end
  else (s, Some (OtherError "AssertionError")).
Definition fit_one (p : result fl) (s : scaler) : scaler * option exn :=
  match p with Ok a => (set_params [a] s, None) | Raise e => (s, Some e) end.
Definition rmap (f : fl -> fl) (x : result fl) : result fl := rbind x (fun a => Ok (f a)).

Definition fit (s : scaler) (x : arg) (m : string) (lo hi : R) : scaler * option exn :=
  match x with
  | OtherArg => (s, Some (OtherError "AssertionError"))
  | Array1 l =>
    let s := set_method m s in
    if String.eqb m "min_max" then fit_range lo hi (np_min l) (np_max l) s
    else if String.eqb m "log_min_max" then fit_range lo hi (rmap log10 (np_min l)) (rmap log10 (np_max l)) s
    else if String.eqb m "neg_log_min_max"
         then fit_range lo hi (rmap log10 (np_min (map fopp l))) (rmap log10 (np_max (map fopp l))) s
    else if String.eqb m "max_abs" then fit_one (np_max (map fabs l)) s
    else if String.eqb m "log_max_abs" then fit_one (np_max (map (fun v => fabs (log10 v)) l)) s
    else if String.eqb m "standarize" then (set_params [np_mean l; np_std l] s, None)
    else if String.eqb m "log_standarize" then (set_params [np_mean (map log10 l); np_std (map log10 l)] s, None)
    else if String.eqb m "neg_log_standarize"
         then (set_params [np_mean (map (fun v => log10 (fopp v)) l); np_std (map (fun v => log10 (fopp v)) l)] s, None)
    else if String.eqb m "log" then (set_params [] s, None)
    else if String.eqb m "none" then (set_params [] s, None)
    else (s, Some ValueError)
  end.

(** self.params[i]: TypeError on None, IndexError beyond the end. *)
Definition param (s : scaler) (i : nat) : result fl :=
  match params s with
  | None => Raise TypeError
  | Some p => match nth_error p i with Some v => Ok v | None => Raise IndexError end
  end.
Definition limit (x : option R) : result fl := match x with None => Raise TypeError | Some v => Ok (Some v) end.

(** Lines 124-133: (y - p0) / (p1 - p0) * (upper - lower) + lower. *)
Definition to_range (s : scaler) (ys : list fl) : result (list fl) :=
  rbind (param s 0) (fun p0 => rbind (param s 1) (fun p1 => rbind (limit (upper s)) (fun u => rbind (limit (lower s)) (fun l =>
  Ok (map (fun y => fadd (fmul (fdiv (fsub y p0) (fsub p1 p0)) (fsub u l)) l) ys))))).
Definition standard (s : scaler) (ys : list fl) : result (list fl) :=
  rbind (param s 0) (fun p0 => rbind (param s 1) (fun p1 => Ok (map (fun y => fdiv (fsub y p0) p1) ys))).
Definition relative (s : scaler) (ys : list fl) : result (list fl) :=
  rbind (param s 0) (fun p0 => Ok (map (fun y => fdiv y p0) ys)).

(** transform, lines 99-150. *)
Definition transform (s : scaler) (x : list fl) : result (list fl) :=
  match method s with
  | None => Raise (OtherError "AssertionError")
  | Some m =>
    if String.eqb m "min_max" then to_range s x
    else if String.eqb m "log_min_max" then to_range s (map log10 x)
    else if String.eqb m "neg_log_min_max" then to_range s (map (fun v => log10 (fopp v)) x)
    else if String.eqb m "max_abs" then relative s x
    else if String.eqb m "log_max_abs" then relative s (map log10 x)
    else if String.eqb m "standarize" then standard s x
    else if String.eqb m "log_standarize" then standard s (map log10 x)
    else if String.eqb m "neg_log_standarize" then standard s (map (fun v => log10 (fopp v)) x)
    else if String.eqb m "log" then Ok (map log10 x)
    else Ok x
  end.

(** Lines 200-208: (y - lower) / (upper - lower) * (p1 - p0) + p0. *)
Definition from_range (s : scaler) (ys : list fl) : result (list fl) :=
  rbind (limit (lower s)) (fun l => rbind (limit (upper s)) (fun u => rbind (param s 1) (fun p1 => rbind (param s 0) (fun p0 =>
  Ok (map (fun y => fadd (fmul (fdiv (fsub y l) (fsub u l)) (fsub p1 p0)) p0) ys))))).
Definition unstandard (s : scaler) (ys : list fl) : result (list fl) :=
  rbind (param s 1) (fun p1 => rbind (param s 0) (fun p0 => Ok (map (fun y => fadd (fmul y p1) p0) ys))).
Definition unrelative (s : scaler) (ys : list fl) : result (list fl) :=
  rbind (param s 0) (fun p0 => Ok (map (fun y => fmul y p0) ys)).
Definition lmap (f : fl -> fl) (x : result (list fl)) : result (list fl) := rbind x (fun l => Ok (map f l)).

(** inv_transform, lines 181-224. *)
Definition inv_transform (s : scaler) (x : list fl) : result (list fl) :=
  match method s with
  | None => Raise (OtherError "AssertionError")
  | Some m =>
    if String.eqb m "min_max" then from_range s x
    else if String.eqb m "log_min_max" then lmap pow10 (from_range s x)
    else if String.eqb m "neg_log_min_max" then lmap (fun v => fopp (pow10 v)) (from_range s x)
    else if String.eqb m "max_abs" then unrelative s x
    else if String.eqb m "log_max_abs" then lmap pow10 (unrelative s x)
    else if String.eqb m "standarize" then unstandard s x
    else if String.eqb m "log_standarize" then lmap pow10 (unstandard s x)
    else if String.eqb m "neg_log_standarize" then lmap (fun v => fopp (pow10 v)) (unstandard s x)
    else if String.eqb m "log" then Ok (map pow10 x)
    else Ok x
  end.

(** fit_and_transform, lines 152-179. *)
Definition fit_and_transform (s : scaler) (x : list fl) (m : string) (lo hi : R) : scaler * result (list fl) :=
  match fit s (Array1 x) m lo hi with
  | (s', None) => (s', transform s' x)
  | (s', Some e) => (s', Raise e)
  end.
