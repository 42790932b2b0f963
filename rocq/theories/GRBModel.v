(** get_GRB_properties, posydon/popsyn/GRB.py:14-132.

    Floats are NaN, an infinity or a rational; arithmetic does not round and does not overflow.  The frame is the list of its rows, each with the radiated mass of
    the disk of its two stars; the columns which are added are a record per star.  The random opening angles are any list of numbers, one for each selected row in
    their order (numpy draws as many as there are).  The message and warnings are left out, and so are the columns added before an exception. *)
From Coq Require Import QArith String List Bool.
From Verif Require Import PyBase PyNum.
Import ListNotations.
Open Scope Q_scope.

(** float arithmetic *)
Definition nsign (q : Q) : comparison := q ?= 0.
Definition nmul (a b : num) : num :=
  match a, b with
  | NaN, _ | _, NaN => NaN
  | Fin x, Fin y => Fin (x * y)
  | PInf, PInf | MInf, MInf => PInf
  | PInf, MInf | MInf, PInf => MInf
  | PInf, Fin y | Fin y, PInf => match nsign y with Eq => NaN | Gt => PInf | Lt => MInf end
  | MInf, Fin y | Fin y, MInf => match nsign y with Eq => NaN | Gt => MInf | Lt => PInf end
  end.
(** numpy division: by zero it gives an infinity, or NaN for zero; zeros have no sign here *)
Definition ndiv (a b : num) : num :=
  match a, b with
  | NaN, _ | _, NaN => NaN
  | Fin x, Fin y => match nsign y with Eq => match nsign x with Eq => NaN | Gt => PInf | Lt => MInf end | _ => Fin (x / y) end
  | Fin _, _ => Fin 0
  | PInf, Fin y => match nsign y with Lt => MInf | _ => PInf end
  | MInf, Fin y => match nsign y with Lt => PInf | _ => MInf end
  | _, _ => NaN
  end.

(** utils/constants.py:32, 72, 76: Msun * clight**2 in erg *)
Definition Msun : Q := inject_Z (19892 * 10 ^ 29).
Definition clight : Q := 29979245800 # 1.

(** An argument: a float, a text, or anything else (an int, say) *)
Inductive arg := AFloat (x : num) | AText (s : string) | AOther.

Record props := Props { eta : num; f_beaming : num; E_GRB : num; E_GRB_iso : num; L_GRB_iso : num; GRB : bool }.
(** lines 39, 47, 93, 100, 107, 116: what a star without a disk has *)
Definition nothing : props := Props NaN NaN (Fin 0) (Fin 0) (Fin 0) false.

(** line 83 with xi = 0.5: (C x^(-1/2))^2 = 7e46 / x *)
Definition pescalli (E e : num) : num :=
  if ngt E (Fin 0) then ndiv (Fin (inject_Z (7 * 10 ^ 46))) (ndiv (nmul e E) (Fin 25)) else Fin 1.

(** The columns of a selected star with its factor of beaming, which may depend on the energy: lines 94-96, 101-103, 108-112, 117 *)
Definition compute (e E_min : num) (beam : num -> num) (m : num) : props :=
  let E := nmul (nmul e m) (Fin (Msun * clight ^ 2)) in
  let f := beam E in
  let iso := ndiv E f in
  Props e f E iso (ndiv iso (Fin 25)) (nge iso E_min).

(** lines 31-36 *)
Definition efficiency (a : arg) : result num :=
  match a with
  | AFloat x => if nlt x (Fin 0) || ngt x (Fin 1) then Raise ValueError else Ok x
  | _ => Raise ValueError
  end.

(** lines 42-89, for the masses of the disks of one star; [draws] are the fractions of the sphere, (1 - cos theta), of lines 54-58 *)
Definition star (beaming : arg) (e E_min : num) (draws : list num) (ms : list num) : result (list props) :=
  let with_ (beam : num -> num) := map (fun m => if ngt m (Fin 0) then compute e E_min beam m else nothing) ms in
  match beaming with
  | AFloat b => Ok (with_ (fun _ => b))
  | AText s =>
      if String.eqb s "Goldstein+15" then
        Ok ((fix go ds l := match l with
                            | [] => []
                            | m :: r => if ngt m (Fin 0) then match ds with d :: ds => compute e E_min (fun _ => d) m :: go ds r | [] => nothing :: go [] r end
                                        else nothing :: go ds r
                            end) draws ms)
      else if String.eqb s "Pescalli+15" then Ok (with_ (fun E => pescalli E e))
      else Raise ValueError
  | AOther => Raise ValueError
  end.

(** lines 17-20 and 120-132; [m1] and [m2] are the columns of radiated masses, if they exist *)
Definition get_GRB_properties (m1 m2 : option (list num)) (eff beaming : arg) (E_min : num) (draws1 draws2 : list num) : result (list props * list props) :=
  match m1, m2 with
  | Some m1, Some m2 =>
      rbind (efficiency eff) (fun e =>
      rbind (star beaming e E_min draws1 m1) (fun p1 =>
      rbind (star beaming e E_min draws2 m2) (fun p2 => Ok (p1, p2))))
  | _, _ => Raise ValueError
  end.
