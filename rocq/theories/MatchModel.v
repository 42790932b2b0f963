(** Model of posydon/binary_evol/track_match.py: the first guess (473-603), the attempts to match a star to a single-star track (819-1458), the matched
    data (1461-1616) and the matching of both stars of a binary (1830-2026).  The optimisers of SciPy are functions from what they are asked to
    what they return.  Rational numbers; None is NaN or None. *)
From Coq Require Import String Bool List ZArith QArith Qabs Qminmax.
From Verif Require Import PyBase FlowChartModel DetStepModel.
Import ListNotations.
Open Scope list_scope.
Open Scope string_scope.

(** ** First guess, track_match.py:473-603 *)
(** Lines 284-288. *)
Definition root_keys : list string :=
  ["age"; "mass"; "he_core_mass"; "co_core_mass"; "center_h1"; "center_he4"; "surface_he4"; "surface_h1"; "center_c12"; "log_R"].
(** A floating point number that may be infinite or NaN. *)
Inductive ext := Fin (q : Q) | Inf | NaN.
(** A grid: the initial masses and, for each, the rows of its track; a row holds the values of root_keys in order. *)
Definition grid := list (Q * list (list Q)).
Definition max_track_length (g : grid) : nat := fold_right Nat.max 0%nat (map (fun t => length (snd t)) g).
(** Lines 488-495 and 514-521: rows beyond the end of a track are infinite, here None. *)
Definition padded (n : nat) (rows : list (list Q)) : list (option (list Q)) := map Some rows ++ repeat None (n - length rows).
Definition rootm (g : grid) : list (list (option (list Q))) := map (fun t => padded (max_track_length g) (snd t)) g.
(** Line 569: numpy.argmax of the comparisons, 0 where the name is not among the keys. *)
Fixpoint index_of (k : string) (l : list string) : option nat :=
  match l with [] => None | x :: r => if String.eqb k x then Some 0%nat else option_map S (index_of k r) end.
Definition column_of (k : string) : nat := match index_of k root_keys with Some i => i | None => 0%nat end.
(** Lines 577-583, before the square root, which keeps the order: the squared rescaled distance of a row to the star. *)
Fixpoint dist_row (row : list Q) (names : list string) (vals : list (option Q)) (facs : list Q) : ext :=
  match names, vals, facs with
  | n :: ns, v :: vs, f :: fs =>
    match v, dist_row row ns vs fs with
    | Some x, Fin d => Fin (((nth (column_of n) row 0 - x) / f) ^ 2 + d)
    | _, _ => NaN
    end
  | _, _, _ => Fin 0
  end.
Definition is_nan (o : option Q) : bool := match o with None => true | Some _ => false end.
Definition dist (names : list string) (vals : list (option Q)) (facs : list Q) (cell : option (list Q)) : ext :=
  match cell with
  | Some row => dist_row row names vals facs
  | None => if existsb is_nan vals then NaN else Inf
  end.
(** numpy.argmin: the first NaN if there is one, otherwise the first minimum. *)
Definition before (x y : ext) : bool :=
  match x, y with
  | _, NaN => false
  | NaN, _ => true
  | Inf, _ => false
  | Fin _, Inf => true
  | Fin a, Fin b => negb (Qle_bool b a)
  end.
Fixpoint argmin_from (k : nat) (best : nat) (v : ext) (l : list ext) : nat :=
  match l with [] => best | x :: r => if before x v then argmin_from (S k) k x r else argmin_from (S k) best v r end.
Definition argmin (l : list ext) : option nat := match l with [] => None | x :: r => Some (argmin_from 1 0 x r) end.
(** Lines 553-603.  A grid without a row has no minimum; the age of a padded row is infinite, here NaN. *)
Definition get_root0 (g : grid) (names : list string) (vals : list (option Q)) (facs : option (list Q)) : result (Q * option Q) :=
  match facs with
  | None => Raise (OtherError "UFuncTypeError")
  | Some fs =>
    let n := max_track_length g in
    match argmin (map (dist names vals fs) (concat (rootm g))) with
    | None => Raise ValueError
    | Some k => Ok (nth (k / n) (map fst g) 0,
                    option_map (fun row => nth (column_of "age") row 0) (nth (k mod n) (nth (k / n) (rootm g) []) None))
    end
  end.

(** ** Lists of quantities to match, flow_chart.py:121-135 and track_match.py:330-403 *)
(** Whether the name of a state contains "Core_H_burning", "stripped_He", "Core_He_burning". *)
Definition core_H (s : star_state) : bool := star_in s [HR_Core_H_burning; acc_Core_H_burning].
Definition stripped (s : star_state) : bool := star_in s [str_Core_He_burning; str_Core_He_depleted; str_Core_C_depleted; str_non_burning].
Definition core_He (s : star_state) : bool := star_in s [HR_Core_He_burning; acc_Core_He_burning; str_Core_He_burning].
Definition FOR_HMS := filter core_H STAR_STATES_NORMALSTAR.
Definition FOR_postMS := filter (fun s => negb (core_H s) && negb (stripped s)) STAR_STATES_NORMALSTAR.
Definition FOR_postHeMS := filter (fun s => negb (core_He s) && stripped s) STAR_STATES_NORMALSTAR.
Definition FOR_Hestar := star_minus (filter stripped STAR_STATES_NORMALSTAR ++ [acc_Core_He_burning]) FOR_postHeMS.
Record mlist := MList { l_names : list string; l_facs : list Q; l_methods : list string; l_mass : Q * Q }.
Record mlists := MLists {
  l_HMS : mlist; l_postMS : mlist; l_HeStar : mlist; l_postHeMS : mlist;
  l_HMS_alt : mlist; l_postMS_alt : mlist; l_HeStar_alt : mlist; l_postHeMS_alt : mlist }.
(** Lines 345-398; bH and bHe are the least and the greatest initial mass of the grids, ages are bound by 0 below only.  The user may give the first four. *)
Definition matching_lists (bH bHe : Q * Q) (u1 u2 u3 u4 : option mlist) : mlists :=
  let or_default (u : option mlist) (d : mlist) := match u with Some l => l | None => d end in
  MLists
    (or_default u1 (MList ["mass"; "center_h1"; "log_R"; "he_core_mass"] [20; 1; 2; 10] ["log_min_max"; "min_max"; "min_max"; "min_max"] bH))
    (or_default u2 (MList ["mass"; "center_he4"; "log_R"; "he_core_mass"] [20; 1; 2; 10] ["log_min_max"; "min_max"; "min_max"; "min_max"] bH))
    (or_default u3 (MList ["he_core_mass"; "center_he4"; "log_R"] [10; 1; 2] ["min_max"; "min_max"; "min_max"] bHe))
    (or_default u4 (MList ["he_core_mass"; "log_R"] [10; 2] ["min_max"; "min_max"] bHe))
    (MList ["mass"; "center_h1"; "he_core_mass"] [20; 1; 10] ["log_min_max"; "min_max"; "min_max"] bH)
    (MList ["mass"; "center_h1"; "he_core_mass"] [20; 1; 10] ["log_min_max"; "min_max"; "min_max"] bH)
    (MList ["he_core_mass"; "center_he4"; "log_R"] [10; 1; 2] ["min_max"; "min_max"; "min_max"] bHe)
    (MList ["he_core_mass"; "log_R"] [10; 2] ["min_max"; "min_max"] bHe).

(** ** Attempts, track_match.py:1095-1458 *)
(** What scipy.optimize.minimize is asked: method, grid searched (the H-rich one if true), and the list of quantities with the bounds on the mass; its
    first guess is get_root0 of the same. *)
Record request := Req { rq_method : string; rq_htrack : bool; rq_list : mlist }.
(** What it returns: mass and age, the function there (None for NaN) and success; or it raises. *)
Inductive outcome := Sol (x : Q * Q) (f : option Q) (success : bool) | Exc.
Inductive match_type := default_match | alt_match | evolved_alt_match.
(** Lines 1095-1225, get_match_attrs: None for a star on the main sequence in the last attempt.  A state in no list is refused in the first attempt;
    in the last one there would be an unbound name. *)
Definition get_match_attrs (L : mlists) (s : star_state) (ht : bool) (t : match_type) : result (option (bool * mlist)) :=
  match t with
  | default_match =>
    if star_in s FOR_HMS then Ok (Some (ht, l_HMS L)) else if star_in s FOR_postMS then Ok (Some (ht, l_postMS L))
    else if star_in s FOR_Hestar then Ok (Some (ht, l_HeStar L)) else if star_in s FOR_postHeMS then Ok (Some (ht, l_postHeMS L))
    else Raise ValueError
  | alt_match =>
    if star_in s FOR_HMS then Ok (Some (ht, l_HMS_alt L)) else if star_in s FOR_postMS then Ok (Some (ht, l_postMS_alt L))
    else if star_in s FOR_Hestar then Ok (Some (ht, l_HeStar_alt L)) else if star_in s FOR_postHeMS then Ok (Some (ht, l_postHeMS_alt L))
    else Raise ValueError
  | evolved_alt_match =>
    if star_in s FOR_HMS then Ok None else if star_in s FOR_Hestar then Ok (Some (true, l_HeStar L))
    else if star_in s FOR_postMS then Ok (Some (false, l_postMS L)) else if star_in s FOR_postHeMS then Ok (Some (true, l_postHeMS L))
    else Raise (OtherError "UnboundLocalError")
  end.
(** Lines 1082-1093: every name has to be a key; the age is no property of a star, and get_attr_values raises the same error. *)
Definition usable (l : mlist) : bool := forallb (fun n => match index_of n root_keys with Some (S _) => true | _ => false end) (l_names l).
(** Lines 1385-1394. *)
Definition match_sequence : list (match_type * string) :=
  [(default_match, "TNC"); (default_match, "Powell"); (alt_match, "TNC"); (evolved_alt_match, "TNC")].
Definition BIG : Q := inject_Z (10 ^ 99).
(** The best solution so far: mass and age, the function; None for the dummy of lines 1397-1400, whose function is 1e99. *)
Definition best := option ((Q * Q) * Q).
Definition best_fun (b : best) : Q := match b with Some (_, f) => Qabs f | None => BIG end.
Definition Qltb (x y : Q) : bool := negb (Qle_bool y x).
Section Minimize.
Context (tol hard : Q) (L : mlists) (s : star_state) (minimize : request -> outcome).
(** Lines 1402-1428, with what was asked of the optimiser, in order.  NaN becomes 1e99 (lines 1340-1341).  The state of the star does not change; the grid
    asked for in the first three attempts is that of the star when the attempt starts. *)
Fixpoint attempts (seq : list (match_type * string)) (ht : bool) (b : best) : result (best * bool * list request) :=
  match seq with
  | [] => Ok (b, ht, [])
  | (t, m) :: rest =>
    rbind (get_match_attrs L s ht t) (fun o =>
    match o with
    | None => attempts rest ht b
    | Some (nh, l) =>
      if negb (usable l) then Raise AttributeError else
      let rq := Req m nh l in
      match minimize rq with
      | Exc => Raise (OtherError "NumericalError")
      | Sol x fo ok =>
        let f := match fo with Some f => f | None => BIG end in
        let better := Qltb (Qabs f) (best_fun b) && ok in
        let match_ok := Qle_bool (Qabs f) tol && ok in
        let b' := if better then Some (x, f) else b in
        let ht' := if better then nh else ht in
        if better && match_ok then Ok (b', ht', [rq])
        else rbind (attempts rest ht' b') (fun r => let '(b2, h2, tr) := r in Ok (b2, h2, rq :: tr))
      end
    end)
  end.
(** Lines 1430-1458: mass and age, or None for NaN; the grid of the star afterwards; what was asked. *)
Definition match_through_minimize (ht : bool) : result (option (Q * Q) * bool * list request) :=
  rbind (attempts match_sequence ht None) (fun r => let '(b, h, tr) := r in
  Ok (match b with Some (x, f) => if Qle_bool (Qabs f) hard then Some x else None | None => None end, h, tr)).
End Minimize.
(** Lines 819-903: scipy.optimize.root returns mass, age and success. *)
Definition match_through_root (sol : (Q * Q) * bool) : option (Q * Q) :=
  if negb (snd sol) || Qltb (snd (fst sol)) 0 then None else Some (fst sol).

(** ** Matched data, track_match.py:1461-1616 *)
(** Lines 1586-1601: rows whose successor is not older are deleted, all at once, until there are none.  The loop ends, as each turn that changes anything
    deletes a row; fuel is the number of rows. *)
Fixpoint delete_bad {A} (l : list (Q * A)) : list (Q * A) :=
  match l with
  | [] => []
  | x :: r => match r with
              | [] => [x]
              | y :: _ => if Qle_bool (fst y) (fst x) then delete_bad r else x :: delete_bad r
              end
  end.
Fixpoint clean {A} (fuel : nat) (l : list (Q * A)) : list (Q * A) := match fuel with O => l | S n => clean n (delete_bad l) end.
Definition monotonic {A} (l : list (Q * A)) : list (Q * A) := clean (length l) l.
(** Line 1541: the greatest age, before rows are deleted. *)
Definition Qmax2 (x y : Q) : Q := if Qle_bool x y then y else x.
Definition t_max {A} (l : list (Q * A)) : Q := match l with [] => 0 | x :: r => fold_left (fun m y => Qmax2 m (fst y)) r (fst x) end.
(** Lines 1499-1535: mass and age of the track of a star; None if there is none.  found: what match_to_single_star gives, with the grid of the star
    afterwards.  The mass must be in the grid unless the star is a compact object. *)
Definition get_star_match_data (range : bool -> Q * Q) (zams co ht : bool) (mass : Q) (found : result (option (Q * Q) * bool))
    (copied : option (Q * Q)) : result (option (Q * Q) * bool) :=
  rbind (if co then Ok (copied, ht) else if zams then Ok (Some (mass, 0), ht) else found) (fun r =>
  match r with
  | (None, h) => Ok (None, h)
  | (Some (m, t), h) =>
    if negb co && (Qltb m (fst (range h)) || Qltb (snd (range h)) m) then Raise (OtherError "MatchingError") else Ok (Some (m, t), h)
  end).

(** ** Matching of a binary, track_match.py:1830-2026 *)
Record matched := Matched {
  primary_is : who;
  track1 : option (Q * Q); track2 : option (Q * Q);   (* mass and age of the tracks of the stars; None if they were not asked for *)
  matched_1 : bool; matched_2 : bool;
  match_event : option string }.  (* the event recorded with record_matching; None if it stays *)
Definition event_of (m1 m2 : bool) : option string :=
  if m1 && m2 then Some "Match12" else if m1 then Some "Match1" else if m2 then Some "Match2" else None.
(** Lines 1903-2008.  The copies of m0 and t0 by a primary that is no star need those of the secondary. *)
Definition do_matching (range : bool -> Q * Q) (zams : bool) (s1 s2 : star_state) (mass : who -> Q) (time : Q)
    (found : who -> result (option (Q * Q) * bool)) (match_secondary match_primary : bool) : result matched :=
  rbind (determine_star_states s1 s2) (fun ro =>
  let p := r_primary ro in let sec := other p in
  let p_not_normal := p_co ro in
  rbind (if match_secondary then
           rbind (get_star_match_data range zams (s_co ro) (s_htrack ro) (mass sec) (found sec)
                    (if s_co ro then Some (mass sec, time) else None)) (fun r => Ok (Some (fst r)))
         else Ok None) (fun ds =>
  rbind (if match_primary then
           if p_not_normal then
             match ds with
             | None => Raise (OtherError "UnboundLocalError")
             | Some c => rbind (get_star_match_data range zams true (p_htrack ro) (mass p) (found p) c) (fun r => Ok (Some (fst r)))
             end
           else rbind (get_star_match_data range zams false (p_htrack ro) (mass p) (found p) None) (fun r => Ok (Some (fst r)))
         else Ok None) (fun dp =>
  match ds, dp with
  | Some None, _ | _, Some None => Raise (OtherError "MatchingError")
  | _, _ =>
    let tr (o : option (option (Q * Q))) := match o with Some t => t | None => None end in
    let ms := match_secondary && negb (s_co ro) in let mp := match_primary && negb p_not_normal in
    let m1 := of_star p mp ms in let m2 := of_star p ms mp in
    Ok (Matched p (of_star p (tr dp) (tr ds)) (of_star p (tr ds) (tr dp)) m1 m2 (event_of m1 m2))
  end))).
