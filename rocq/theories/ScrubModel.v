(** Scrubbing of MESA histories, posydon/grids/scrubbing.py, with the thresholds of
    posydon/utils/limits_thresholds.py:15, 18, 28-29.

    Numbers are rational, [None] is NaN; warnings are left out. *)
From Coq Require Import String List Bool ZArith QArith Qround Qabs.
From Verif Require Import PyBase MaskList.
Import ListNotations.
Open Scope string_scope.
Open Scope list_scope.

Notation num := (option Q).
(** Comparisons with NaN are false. *)
Definition nlt (x y : num) : bool :=
  match x, y with Some a, Some b => negb (Qle_bool b a) | _, _ => false end.
Definition nge (x : num) (b : Q) : bool := match x with Some a => Qle_bool b a | None => false end.
Definition nsub (x y : num) : num := match x, y with Some a, Some b => Some (a - b)%Q | _, _ => None end.
Definition nis0 (x : num) : bool := match x with Some a => Qeq_bool a 0 | None => false end.

(** ** scrub, lines 21-80 *)
(** Lines 53-58: from row [i - 1] down to row 0; [acc] is the mask of the rows already seen.  Model numbers are
    integers. *)
Fixpoint walk_back (model : list Z) (age : list num) (i : nat) (last_m : Z) (last_t : num) (acc : list bool)
  : result (list bool) :=
  match i with
  | O => Ok acc
  | S k =>
    match nth_error model k, nth_error age k with
    | Some m, Some t =>
      if nlt t last_t && (m <? last_m)%Z
      then walk_back model age k m t (true :: acc)
      else walk_back model age k last_m last_t (false :: acc)
    | _, _ => Raise IndexError
    end
  end.
(** Lines 48-58. *)
Definition use_rows (model : list Z) (age : list num) : result (list bool) :=
  match model with
  | [] => Ok []
  | _ =>
    match nth_error model (length model - 1), nth_error age (length age - 1) with
    | Some m, Some t => walk_back model age (length model - 1) m t [true]
    | _, _ => Raise IndexError
    end
  end.

Section Scrub.
Context {A : Type}.
(** Lines 43-60: one table; numpy raises IndexError for a mask of the wrong length. *)
Definition scrub_table (table : option (list A)) (model : option (list Z)) (age : option (list num))
  : result (option (list A * list Z)) :=
  match table, model, age with
  | Some t, Some m, Some a =>
    rbind (use_rows m a) (fun mask =>
      if (length mask =? length t)%nat then Ok (Some (select mask t, select mask m)) else Raise IndexError)
  | _, _, _ => Ok None
  end.
(** zip: the shortest list decides. *)
Fixpoint scrub_tables (tables : list (option (list A))) (models : list (option (list Z))) (ages : list (option (list num)))
  : result (list (option (list A * list Z))) :=
  match tables, models, ages with
  | t :: ts, m :: ms, a :: az =>
    rbind (scrub_table t m a) (fun x => rbind (scrub_tables ts ms az) (fun xs => Ok (x :: xs)))
  | _, _, _ => Ok []
  end.
(** Lines 63-69: the set of common model numbers, as a list. *)
Definition common_step (common : option (list Z)) (s : option (list A * list Z)) : option (list Z) :=
  match s with
  | None => common
  | Some (_, m) => match common with
                   | None => Some m
                   | Some c => Some (filter (fun x => existsb (Z.eqb x) m) c)
                   end
  end.
Definition common_models (scr : list (option (list A * list Z))) : option (list Z) := fold_left common_step scr None.
(** Lines 72-78. *)
Definition final_table (common : option (list Z)) (s : option (list A * list Z)) : option (list A) :=
  match s with
  | None => None
  | Some (t, m) =>
    let c := match common with Some c => c | None => [] end in
    Some (select (map (fun x => existsb (Z.eqb x) c) m) t)
  end.
Definition scrub (tables : list (option (list A))) (models : list (option (list Z))) (ages : list (option (list num)))
  : result (list (option (list A))) :=
  rbind (scrub_tables tables models ages) (fun scr => Ok (map (final_table (common_models scr)) scr)).
End Scrub.

(** ** Structured arrays *)
(** Column names and rows; a row gives a number for every name.  A numpy row has only the columns of the array:
    values of other names play no role. *)
Definition record := string -> num.
Record table := { names : list string; rows : list record }.
Definition has (t : table) (c : string) : bool := existsb (String.eqb c) (names t).
Definition col (t : table) (c : string) : list num := map (fun r => r c) (rows t).
Definition setcol (c : string) (f : record -> num) (r : record) : record :=
  fun c' => if String.eqb c' c then f r else r c'.
Definition from (n : nat) (t : table) : table := {| names := names t; rows := skipn n (rows t) |}.
Definition till (n : nat) (t : table) : table := {| names := names t; rows := firstn n (rows t) |}.

(** limits_thresholds.py:15, 18, 28-29 *)
Definition RL_RELATIVE_OVERFLOW_THRESHOLD : Q := 0.
Definition LG_MTRANSFER_RATE_THRESHOLD : Q := -10.
Definition THRESHOLD_CENTRAL_ABUNDANCE : Q := 1 # 100.
Definition THRESHOLD_CENTRAL_ABUNDANCE_LOOSE_C : Q := 1 # 10.

(** ** keep_after_RLO, lines 83-171 *)
Definition np_diff (l : list num) : list num :=
  match l with [] => [] | _ :: r => map (fun p => nsub (fst p) (snd p)) (combine r l) end.
(** python's min of a non-empty sequence *)
Definition py_min (l : list num) : num :=
  match l with [] => None | x :: r => fold_left (fun m y => if nlt y m then y else m) r x end.
Definition first_true (l : list bool) : option nat :=
  (fix go (i : nat) (l : list bool) := match l with [] => None | b :: r => if b then Some i else go (S i) r end) O l.

(** Lines 108-132: the rows at which mass transfer or overflow is met. *)
Definition conditions_met (bh : table) : result (list bool) :=
  if negb (has bh "lg_mtransfer_rate") then Raise ValueError
  else
    let has1 := has bh "rl_relative_overflow_1" in
    let has2 := has bh "rl_relative_overflow_2" in
    if negb (has1 || has2) then Raise ValueError
    else Ok (map (fun r =>
           (has1 && nge (r "rl_relative_overflow_1") RL_RELATIVE_OVERFLOW_THRESHOLD
            || has2 && nge (r "rl_relative_overflow_2") RL_RELATIVE_OVERFLOW_THRESHOLD)
           || nge (r "lg_mtransfer_rate") LG_MTRANSFER_RATE_THRESHOLD) (rows bh)).

(** Lines 143-163: the age to subtract.  Only numpy's division by an age of zero differs (NaN or infinity instead
    of 0). *)
Definition age_to_remove (ages : list num) : result num :=
  let a0 := hd None ages in
  let new_ages := map (fun a => nsub a a0) ages in
  if (1 <? length new_ages)%nat && nis0 (py_min (np_diff new_ages))
  then
    let min_dt := py_min (np_diff ages) in
    let cand := match a0, min_dt with
                | Some a, Some d => if negb (Qeq_bool d 0) then Some (inject_Z (Qfloor (a / d)) * d)%Q else Some a
                | Some a, None => None
                | None, _ => None
                end in
    let cand := match cand, a0 with
                | Some c, Some a => if Qeq_bool c a then nsub cand min_dt else cand
                | _, _ => cand
                end in
    let too_big := match cand, a0 with
                   | Some c, Some a => negb (Qle_bool (Qabs (c - a) / a) (1 # 100))
                   | _, _ => false
                   end in
    if too_big then Raise (OtherError "Exception")
    else if existsb (fun d => negb (nlt (Some 0%Q) d) && match d with Some _ => true | None => false end)
                    (np_diff (map (fun a => nsub a cand) ages))
         then Raise (OtherError "Exception")
         else Ok cand
  else Ok a0.

(** The three histories; the function returns three, or [None] (line 135).  [after] is what the caller's arrays
    hold afterwards: slices are views, so the ages are changed in place (lines 139-141, 165-169). *)
Definition histories := (option table * option table * option table)%type.
Record kept_after := { returned : option histories; after : histories }.

Definition shift_age (c : string) (a : num) (t : table) : table :=
  {| names := names t; rows := if has t c then map (setcol c (fun r => nsub (r c) a)) (rows t) else rows t |}.
(** The rows before [n] unchanged, the others as in the slice. *)
Definition put_back (n : nat) (t new : table) : table := {| names := names t; rows := firstn n (rows t) ++ rows new |}.

Definition keep_after_RLO (bh h1 h2 : option table) : result kept_after :=
  match bh with
  | None => Ok {| returned := Some (bh, h1, h2); after := (bh, h1, h2) |}
  | Some b =>
    rbind (conditions_met b) (fun cond =>
    match first_true cond with
    | None => Ok {| returned := None; after := (bh, h1, h2) |}
    | Some n =>
      if negb (has b "age") then Raise ValueError
      else
        rbind (age_to_remove (col (from n b) "age")) (fun a =>
        let nb := shift_age "age" a (from n b) in
        let n1 := option_map (fun h => shift_age "star_age" a (from n h)) h1 in
        let n2 := option_map (fun h => shift_age "star_age" a (from n h)) h2 in
        let back h new := match h, new with Some t, Some t' => Some (put_back n t t') | _, _ => h end in
        Ok {| returned := Some (Some nb, n1, n2);
              after := (Some (put_back n b nb), back h1 n1, back h2 n2) |})
    end)
  end.

(** ** keep_till_central_abundance_He_C, lines 174-285 *)
Definition below (r : record) (Ystop XCstop : Q) : bool :=
  nlt (r "center_he4") (Some Ystop) && nlt (r "center_c12") (Some XCstop).
(** Lines 211-226: the last row is depleted. *)
Definition depleted (h : table) (Ystop XCstop : Q) : bool :=
  has h "center_he4" && has h "center_c12" &&
  match rev (rows h) with [] => false | r :: _ => below r Ystop XCstop end.
(** Lines 232-242: the first depleted row. *)
Definition first_depleted (h : table) (Ystop XCstop : Q) : option nat :=
  first_true (map (fun r => below r Ystop XCstop) (rows h)).
(** Indexing one value of a column: ValueError if there is no such column, IndexError beyond the end. *)
Definition value_at (t : table) (c : string) (i : nat) : result num :=
  if negb (has t c) then Raise ValueError
  else match nth_error (rows t) i with Some r => Ok (r c) | None => Raise IndexError end.

Definition primary_stopped : string := "Primary got stopped before central carbon depletion".
Definition secondary_stopped : string := "Secondary got stopped before central carbon depletion".

(** Lines 232-271: the row and the flag.  The two warnings (238-241, 250-253) cannot occur, the last row being
    depleted; [None] stands for them. *)
Definition stop_at (b h1 h2 : table) (Ystop XCstop : Q) : result (option (nat * string)) :=
  let d1 := depleted h1 Ystop XCstop in
  let d2 := depleted h2 Ystop XCstop in
  match (if d1 then first_depleted h1 Ystop XCstop else None), (if d2 then first_depleted h2 Ystop XCstop else None) with
  | Some i1, Some i2 =>
    rbind (if has h1 "star_age" then value_at h1 "star_age" i1 else value_at b "age" i1) (fun a1 =>
    rbind (if has h1 "star_age" then value_at h2 "star_age" i2 else value_at b "age" i2) (fun a2 =>
    Ok (Some (if nlt a2 a1 then (i2, secondary_stopped) else (i1, primary_stopped)))))
  | Some i1, None => Ok (if d2 then None else Some (i1, primary_stopped))
  | None, Some i2 => Ok (if d1 then None else Some (i2, secondary_stopped))
  | None, None => Ok None
  end.

Definition keep_till_central_abundance_He_C (bh h1 h2 : option table) (Ystop XCstop : Q)
  : result (histories * string) :=
  match bh, h1, h2 with
  | Some b, Some t1, Some t2 =>
    if negb (has b "age" || (has t1 "star_age" && has t2 "star_age")) then Ok ((bh, h1, h2), "")
    else
      rbind (stop_at b t1 t2 Ystop XCstop) (fun s =>
      match s with
      | None => Ok ((bh, h1, h2), "")
      | Some (n, flag) =>
        let n := if (n + 2 <=? length (rows b))%nat then S n else n in
        Ok ((Some (till n b), Some (till n t1), Some (till n t2)), flag)
      end)
  | _, _, _ => Ok ((bh, h1, h2), "")
  end.
