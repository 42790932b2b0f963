(** Model of the functions selecting transients, posydon/popsyn/transient_select_funcs.py, and of the detection probabilities, posydon/popsyn/selection_effects.py.

    Tables are lists of rows with the index of the binary.  Numbers are real numbers or NaN (None). *)
From Coq Require Import String List Bool Reals ZArith.
From Verif Require Import PyBase PySplit.
Import ListNotations.
Open Scope string_scope.
Open Scope R_scope.
Open Scope list_scope.

Notation num := (option R).
(** One row of the history of a binary; of the columns those used here, the numbers by name *)
Record hrow := HRow { h_idx : Z; h_S1 : string; h_S2 : string; h_step : string; h_state : string; h_event : string; h_val : string -> num }.
(** One row of the oneline table *)
Record orow := ORow { o_idx : Z; o_val : string -> num }.
Definition h_star (second : bool) (r : hrow) : string := if second then h_S2 r else h_S1 r.

(** ** GRB_selection, lines 19-126 *)
Definition positive (x : num) : bool := match x with Some v => if Rlt_dec 0 v then true else false | None => false end.
Definition scale (k : R) (x : num) : num := match x with Some v => Some (v * k) | None => None end.
(** selection = history_chunk.loc[indices], line 83: the rows of each binary, KeyError for one without *)
Definition rows_of (i : Z) (h : list hrow) : list hrow := filter (fun r => Z.eqb (h_idx r) i) h.
Fixpoint loc (h : list hrow) (indices : list Z) : result (list hrow) :=
  match indices with
  | [] => Ok []
  | i :: l => match rows_of i h with [] => Raise KeyError | rows => rbind (loc h l) (fun rest => Ok (rows ++ rest)) end
  end.
(** S_mask, lines 84-87: a row at which the star is a black hole after the supernova step, and in the row before (of the whole selection) is none.  The first row has
    NaN for the row before, which counts as False. *)
Definition formed (second : bool) (before r : hrow) : bool := String.eqb (h_star second r) "BH" && negb (String.eqb (h_star second before) "BH") && String.eqb (h_step r) "step_SN".
(** The selected rows, each with the row before (pre_SN_hist and post_SN_hist, lines 91-93) *)
Fixpoint formations (second : bool) (rows : list hrow) : list (hrow * hrow) :=
  match rows with
  | a :: ((b :: _) as rows') => (if formed second a b then [(a, b)] else []) ++ formations second rows'
  | _ => []
  end.
Definition disk (second : bool) : string := if second then "S2_m_disk_radiated" else "S1_m_disk_radiated".
Definition cc (second : bool) : string := if second then "_CC2" else "_CC1".
(** A row of the result: the values of the row before and of the row itself by name of their columns, the channel and the time *)
Record grb := GRB { g_idx : Z; g_pre : string -> num; g_post : string -> num; g_one : string -> num; g_channel : option string; g_time : num }.
(** Lines 111-116: the channel up to the formation of this star; the channels are a column without missing values *)
Definition cut_channel (second : bool) (c : string) : string := append (hd "" (split (cc second) c)) (cc second).
Fixpoint fill (second : bool) (channel : option (Z -> string)) (rows : list orow) (pairs : list (hrow * hrow)) : result (list grb) :=
  match rows, pairs with
  | [], [] => Ok []
  | o :: rows', (a, b) :: pairs' =>
      rbind (fill second channel rows' pairs') (fun rest =>
      Ok (GRB (o_idx o) (h_val a) (h_val b) (o_val o) (match channel with Some f => Some (cut_channel second (f (o_idx o))) | None => None end) (scale 1e-6 (h_val b "time")) :: rest))
  | _, _ => Raise ValueError                                               (* Length of values does not match length of index *)
  end.
Definition GRB_selection (history : list hrow) (oneline : list orow) (channel : option (Z -> string)) (S1_S2 : string) : result (list grb) :=
  let go second :=
    let chosen := filter (fun o => positive (o_val o (disk second))) oneline in
    match chosen with [] => Ok [] | _ => rbind (loc history (map o_idx chosen)) (fun selection => fill second channel chosen (formations second selection)) end in
  if String.eqb S1_S2 "S1" then go false else if String.eqb S1_S2 "S2" then go true else Raise ValueError.

(** ** BBH_selection_function, lines 211-264 *)
Definition double (r : hrow) : bool := String.eqb (h_S1 r) "BH" && String.eqb (h_S2 r) "BH" && String.eqb (h_step r) "step_SN" && String.eqb (h_state r) "detached".
Definition ended (r : hrow) : bool := String.eqb (h_event r) "END".
(** Assigning a column: aligned by the index, ValueError if it is not unique.  (pandas assigns a column with the index of the table as it is; the index of the
    table is assumed to be unique here, so this is the same.) *)
Fixpoint unique (l : list Z) : bool := match l with [] => true | i :: l' => negb (existsb (Z.eqb i) l') && unique l' end.
Definition aligned (rows : list hrow) : result (Z -> option hrow) := if unique (map h_idx rows) then Ok (fun i => find (fun r => Z.eqb (h_idx r) i) rows) else Raise ValueError.
Definition minus (x y : num) : num := match x, y with Some a, Some b => Some (a - b) | _, _ => None end.
Record bbh := BBH { b_idx : Z; b_time : num; b_inspiral : num; b_val : string -> num; b_metallicity : num }.
Definition BBH_selection (history : list hrow) (oneline : list orow) : result (list bbh) :=
  rbind (aligned (filter ended history)) (fun last =>
  rbind (aligned (filter double history)) (fun formation =>
  Ok (map (fun o => let time := match last (o_idx o) with Some r => scale 1e-6 (h_val r "time") | None => None end in
                    let val c := match formation (o_idx o) with Some r => h_val r c | None => None end in
                    BBH (o_idx o) time (minus time (scale 1e-6 (val "time"))) val (o_val o "metallicity")) oneline))).

(** ** KNNmodel, selection_effects.py *)
Record system := System { m1 : R; q : R; z : R; chieff : R }.
(** np.round(x, 5), half to even *)
Definition round5 (x : R) : R :=
  let y := x * 100000 in let n := Int_part y in
  (if Rlt_dec (frac_part y) (1 / 2) then IZR n else if Rlt_dec (1 / 2) (frac_part y) then IZR (n + 1) else if Z.even n then IZR n else IZR (n + 1)) / 100000.
Definition rmin_list (l : list R) : R := match l with [] => 0 | x :: l' => fold_left Rmin l' x end.
Definition rmax_list (l : list R) : R := match l with [] => 0 | x :: l' => fold_left Rmax l' x end.
Definition log10 (x : R) : R := ln x / ln 10.
(** normalize, lines 139-145 *)
Definition normalize (x lo hi : R) : R := (x - lo) / (hi - lo).
Record place := Place { p1 : R; p2 : R; p3 : R; p4 : R }.
Definition bounds (f : system -> R) (grid : list (system * R)) : R * R := (round5 (rmin_list (map (fun g => f (fst g)) grid)), round5 (rmax_list (map (fun g => f (fst g)) grid))).
(** Lines 69-73 and 120-123: the place of a system in the unit cube *)
Definition place_of (grid : list (system * R)) (s : system) : place :=
  let b f := bounds f grid in
  Place (normalize (log10 (m1 s)) (log10 (fst (b m1))) (log10 (snd (b m1)))) (normalize (q s) (fst (b q)) (snd (b q)))
        (normalize (log10 (z s)) (log10 (fst (b z))) (log10 (snd (b z)))) (normalize (chieff s) (fst (b chieff)) (snd (b chieff))).
Definition dist (a b : place) : R := sqrt ((p1 a - p1 b) ^ 2 + (p2 a - p2 b) ^ 2 + (p3 a - p3 b) ^ 2 + (p4 a - p4 b) ^ 2).
(** scikit-learn's KNeighborsRegressor(n_neighbors=10, weights='distance'): the ten nearest points (of equally distant ones the first here) and the mean with
    the inverse distances as weights; if there are points at distance zero among them, their mean. *)
Fixpoint insert (p : R * R) (l : list (R * R)) : list (R * R) := match l with [] => [p] | p' :: l' => if Rle_dec (fst p) (fst p') then p :: l else p' :: insert p l' end.
Definition sorted (l : list (R * R)) : list (R * R) := fold_right insert [] l.
Definition sum (l : list R) : R := fold_right Rplus 0 l.
Definition weights (l : list (R * R)) : list R :=
  if existsb (fun p => if Req_EM_T (fst p) 0 then true else false) l then map (fun p => if Req_EM_T (fst p) 0 then 1 else 0) l else map (fun p => 1 / fst p) l.
Definition mean (l : list (R * R)) : R := sum (map (fun wp => fst wp * snd (snd wp)) (combine (weights l) l)) / sum (weights l).
Definition neighbours (grid : list (system * R)) (s : system) : list (R * R) := firstn 10 (sorted (map (fun g => (dist (place_of grid (fst g)) (place_of grid s), snd g)) grid)).
Definition predicted (grid : list (system * R)) (s : system) : R := mean (neighbours grid s).

(** ** DCO_detectability, lines 267-331 *)
Definition sensitivities : list string := ["O3actual_H1L1V1"; "O4low_H1L1V1"; "O4high_H1L1V1"; "design_H1L1V1"].
(** A merger: masses, spins and tilts of both components, and the columns q and chi_eff if the population has them *)
Record merger := Merger { mg_m1 : R; mg_m2 : R; mg_q : option R; mg_chi : option R; mg_a1 : num; mg_a2 : num; mg_t1 : num; mg_t2 : num }.
Definition or0 (x : num) : R := match x with Some v => v | None => 0 end.
(** mass_ratio, lines 204-208; chi_eff, lines 129-172, with 0 for what is missing *)
Definition mass_ratio (a b : R) : R := let r := b / a in if Rlt_dec 1 r then 1 / r else r.
Definition chi_eff (g : merger) : R := (mg_m1 g * or0 (mg_a1 g) * cos (or0 (mg_t1 g)) + mg_m2 g * or0 (mg_a2 g) * cos (or0 (mg_t2 g))) / (mg_m1 g + mg_m2 g).
Definition slice (g : merger) (redshift : R) : system :=
  System (mg_m1 g) (match mg_q g with Some x => x | None => mass_ratio (mg_m1 g) (mg_m2 g) end) redshift (match mg_chi g with Some x => x | None => chi_eff g end).
(** predict_pdet, lines 93-136, for one system: masses and redshifts that are not positive have no finite logarithm and are refused by scikit-learn, and so are too
    few neighbours; then the assertion of line 131 *)
Definition predict_pdet (grid : list (system * R)) (s : system) : result R :=
  if Rlt_dec 0 (m1 s) then if Rlt_dec 0 (z s) then
    if Nat.ltb (length grid) 10 then Raise ValueError
    else let p := predicted grid s in if Rle_dec p 1 then if Rle_dec 0 p then Ok p else Raise (OtherError "AssertionError") else Raise (OtherError "AssertionError")
  else Raise ValueError else Raise ValueError.
Fixpoint map_r {A B} (f : A -> result B) (l : list A) : result (list B) := match l with [] => Ok [] | a :: l' => rbind (f a) (fun b => rbind (map_r f l') (fun l'' => Ok (b :: l''))) end.
(** One merger: its redshifts and weights, one for each column.  The code goes column by column; which exception comes first differs. *)
Definition weight (grid : list (system * R)) (g : merger) (zw : num * R) : result R :=
  match fst zw with None => Ok (snd zw) | Some red => rbind (predict_pdet grid (slice g red)) (fun p => Ok (snd zw * p)) end.
Definition DCO_detectability (grids : string -> list (system * R)) (sensitivity : string) (population : list (merger * list (num * R))) : result (list (list R)) :=
  if existsb (String.eqb sensitivity) sensitivities then map_r (fun gz => map_r (weight (grids sensitivity) (fst gz)) (snd gz)) population else Raise ValueError.
