(** Model of posydon/interpolation/eep.py: equivalent evolutionary phases (EEPs) of a track. *)
From Coq Require Import String Bool List Arith QArith Qabs.
From Verif Require Import PyBase.
Import ListNotations.
Open Scope list_scope.
Open Scope string_scope.

(** A row of a history, by the names of the columns; numbers are exact, and none is NaN. *)
Definition row := string -> Q.
Definition track := list row.
Definition lt (a b : Q) : bool := negb (Qle_bool b a).
(** An index where nothing is found is -1 in the code; the search after it starts at 0. *)
Definition next (i : option nat) : nat := match i with Some i => S i | None => 0 end.
Definition at_row (t : track) (i : nat) : result row := match nth_error t i with Some r => Ok r | None => Raise IndexError end.

(** The loops "for i in range(guess, len(tr)): if ...: found = i; break" *)
Fixpoint first (P : row -> bool) (i : nat) (t : track) : option nat := match t with [] => None | r :: t => if P r then Some i else first P (S i) t end.
Definition first_from (P : row -> bool) (guess : nat) (t : track) : option nat := first P guess (skipn guess t).
(** The loops which keep the best value so far and its index *)
Fixpoint best (ok : row -> bool) (better : Q -> Q -> bool) (val : row -> Q) (cur : Q) (idx i : nat) (t : track) : nat :=
  match t with
  | [] => idx
  | r :: t => if ok r && better (val r) cur then best ok better val (val r) i (S i) t else best ok better val cur idx (S i) t
  end.
Definition best_from (ok : row -> bool) (better : Q -> Q -> bool) (val : row -> Q) (start : Q) (guess : nat) (t : track) : nat := best ok better val start 0 guess (skipn guess t).
Definition gt (a b : Q) : bool := lt b a.

(** eep.py 120-126 *)
Definition PreMS (t : track) : option nat := match t with [] => None | r0 :: _ => first_from (fun r => lt (r "center_h2") ((1 # 100) * r0 "center_h2")) 0 t end.
(** eep.py 128-134 *)
Definition ZAMS (t : track) : option nat := match t with [] => None | r0 :: _ => first_from (fun r => gt (Qabs (r "center_h1" - r0 "center_h1")) (1 # 1000)) 0 t end.
(** eep.py 136-142, with Xc = 0.2 of line 50: the guess is not used *)
Definition IAMS (t : track) : option nat := first_from (fun r => lt (r "center_h1") (1 # 5)) 0 t.
(** eep.py 144-150 *)
Definition TAMS (t : track) : option nat := first_from (fun r => lt (r "center_h1") (1 # 100000)) 0 t.
(** eep.py 152-167 *)
Definition TRGB (guess : nat) (t : track) : result nat :=
  rbind (at_row t guess) (fun r0 =>
    let ok r := gt (r "center_he4") (r0 "center_he4" - (1 # 100)) in
    Ok (Nat.min (best_from ok gt (fun r => r "log_LHe") (-99) guess t) (best_from ok lt (fun r => r "log_center_T") 99 guess t))).
(** eep.py 169-184 *)
Definition ZACHEB (guess : nat) (t : track) : result nat :=
  rbind (at_row t guess) (fun r0 =>
    let y := r0 "center_he4" - (3 # 100) in
    let ok r := gt (r "center_he4") (if lt (9 # 10) y then y else 9 # 10) in
    let i1 := best_from ok gt (fun r => r "log_LHe") (-99) guess t in
    Ok (best_from ok lt (fun r => r "log_center_T") 99 i1 t)).
(** eep.py 186-192 *)
Definition TACHEB (guess : nat) (t : track) : option nat := first_from (fun r => lt (r "center_he4") (1 # 1000)) guess t.
(** eep.py 194-203 *)
Definition TPAGB (guess : nat) (t : track) : option nat :=
  first_from (fun r => lt (r "center_he4") (1 # 1000000) && lt (r "he_core_mass" - r "c_core_mass") (1 # 10)) guess t.
(** eep.py 205-219 *)
Definition PAGB (guess : nat) (t : track) : result (option nat) :=
  rbind (at_row t guess) (fun r => rbind (at_row t (List.length t - 1)) (fun e =>
    Ok (if gt (r "log_center_T") (e "log_center_T") then first_from (fun r => gt (r "c_core_mass" / r "star_mass") (8 # 10)) guess t else None))).
(** eep.py 221-227 *)
Definition WDCS (guess : nat) (t : track) : option nat := first_from (fun r => gt (r "center_gamma") 10) guess t.
(** eep.py 229-239 *)
Definition CBURN (guess : nat) (t : track) : option nat :=
  first_from (fun r => lt (r "center_h1") (1 # 1000000) && lt (r "center_he4") (1 # 1000000) && lt (r "center_c12") (1 # 10)) guess t.

Section Track.
  (** The decimal logarithm; the monotone cubic through points with strictly increasing abscissae, as an extrapolating function (scipy's pchip); the columns of the file. *)
  Variables (log10 : Q -> Q) (cubic : list Q -> list Q -> Q -> Q) (names : list string).
  (** eep.py 245-265; the weight of the last term is 0. *)
  Definition sq (x : Q) : Q := x * x.
  Definition term (r r' : row) : Q :=
    2 * sq (r' "log_Teff" - r "log_Teff") + (1 # 8) * sq (r' "log_L" - r "log_L") + 1 * sq (log10 (r' "star_age") - log10 (r "star_age")) +
    0 * sq (r' "log_center_Rho" - r "log_center_Rho").
  Fixpoint metric_from (m : Q) (r : row) (t : track) : list Q := match t with [] => [m] | r' :: t => m :: metric_from (m + term r r') r' t end.
  Definition metric_function (t : track) : list Q := match t with [] => [] | r :: t => metric_from 0 r t end.
  (** scipy.interpolate.pchip: needs two points and strictly increasing abscissae *)
  Fixpoint increasing (l : list Q) : bool := match l with a :: (b :: _) as r => lt a b && increasing r | _ => true end.
  Definition pchip (x y : list Q) (m : Q) : result Q := if Nat.ltb (List.length x) 2 || negb (increasing x) then Raise ValueError else Ok (cubic x y m).
  Fixpoint all {A B} (f : A -> result B) (l : list A) : result (list B) := match l with [] => Ok [] | a :: l => rbind (f a) (fun b => rbind (all f l) (fun r => Ok (b :: r))) end.
  Definition slice {A} (lo hi : nat) (l : list A) : list A := skipn lo (firstn hi l).
  (** eep.py 47-58: the indices of all primary EEPs *)
  Record phases := Phases { prems : option nat; zams : option nat; iams : option nat; tams : option nat; trgb : nat; zacheb : nat; tacheb : option nat; tpagb : option nat; pagb : option nat;
    wdcs : option nat; cburn : option nat }.
  Definition find_phases (t : track) : result phases :=
    rbind (TRGB (next (TAMS t)) t) (fun g => rbind (ZACHEB (S g) t) (fun z =>
      let th := TACHEB (S z) t in let tp := TPAGB (next th) t in
      rbind (PAGB (next tp) t) (fun pa => Ok (Phases (PreMS t) (ZAMS t) (IAMS t) (TAMS t) g z th tp pa (WDCS (next pa) t) (CBURN (S z) t))))).
  (** eep.py 64-90 *)
  Definition phase (p : phases) (name : string) : option nat :=
    if String.eqb name "PreMS" then prems p else if String.eqb name "ZAMS" then zams p else if String.eqb name "IAMS" then iams p else if String.eqb name "TAMS" then tams p
    else if String.eqb name "TRGB" then Some (trgb p) else if String.eqb name "ZACHEB" then Some (zacheb p) else if String.eqb name "TACHEB" then tacheb p
    else if String.eqb name "TPAGB" then tpagb p else if String.eqb name "PAGB" then pagb p else if String.eqb name "WDCS" then wdcs p else if String.eqb name "CBURN" then cburn p else None.
  Definition eep_index (p : phases) (wanted : list string) : list nat := flat_map (fun name => match phase p name with Some i => [i] | None => [] end) wanted.
  (** eep.py 92-117: the array is filled by writing rows at positions; the sum of the steps in the metric is exact. *)
  Fixpoint upd {A} (l : list A) (i : nat) (v : A) : list A := match l, i with [], _ => [] | _ :: l, O => v :: l | a :: l, S i => a :: upd l i v end.
  Definition cells (r : row) : list Q := map r names.
  Fixpoint primaries (t : track) (interval counter : nat) (index : list nat) : result (list (nat * list Q)) :=
    match index with
    | [] => Ok []
    | i :: l => rbind (at_row t i) (fun r => rbind (primaries t interval (counter + (interval + 1)) l) (fun w => Ok ((counter, cells r) :: w)))
    end.
  Definition metric_at (m : list Q) (i : nat) : result Q := match nth_error m i with Some x => Ok x | None => Raise IndexError end.
  Definition secondary (t : track) (m : list Q) (interval counter lo hi : nat) : result (list (nat * list Q)) :=
    rbind (metric_at m hi) (fun mhi => rbind (metric_at m lo) (fun mlo =>
      let dm := (mhi - mlo) / (Z.of_nat (interval + 1) # 1) in
      all (fun j => rbind (all (fun name => pchip (slice lo hi m) (map (fun r => r name) (slice lo hi t)) (mlo + (Z.of_nat j # 1) * dm)) names) (fun y => Ok (counter + j, y)%nat))
        (seq 1 interval))).
  Fixpoint secondaries (t : track) (m : list Q) (interval counter : nat) (index : list nat) : result (list (nat * list Q)) :=
    match index with
    | lo :: ((hi :: _) as l) => rbind (secondary t m interval counter lo hi) (fun w => rbind (secondaries t m interval (counter + (interval + 1)) l) (fun w' => Ok (w ++ w')%list))
    | _ => Ok []
    end.
  Definition fill (n : nat) (w : list (nat * list Q)) : list (list Q) := fold_left (fun a x => upd a (fst x) (snd x)) w (repeat (map (fun _ => 0) names) n).
  (** The constructor: the number of primary and of all EEPs, and the EEPs.  numpy refuses a negative size. *)
  Definition EEP (t : track) (wanted : list string) (interval : nat) : result (nat * list (list Q)) :=
    rbind (find_phases t) (fun p =>
      let index := eep_index p wanted in let k := List.length index in
      if Nat.eqb k 0 && negb (Nat.eqb interval 0) then Raise ValueError
      else rbind (primaries t interval 0 index) (fun w => rbind (secondaries t (metric_function t) interval 0 index) (fun w' =>
        Ok (k, fill (k + interval * (k - 1)) (w ++ w')%list)))).
End Track.
Definition ZAMSlo : list string := ["ZAMS"; "IAMS"; "TAMS"; "TRGB"; "ZACHEB"; "TACHEB"].
Definition ZAMShi : list string := ["ZAMS"; "IAMS"; "TAMS"; "ZACHEB"; "TACHEB"; "CBURN"].
Definition HeZAMS : list string := ["ZACHEB"; "TACHEB"; "CBURN"].
