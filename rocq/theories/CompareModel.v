(** The comparison of two runs of the test binaries, dev-tools/script_data/src/compare_runs.py.

    A table is whether it has a column binary_id, its other columns, each numeric or not (dtype), and its rows: the number of the binary and the cell of each
    column.  What is reported is a list of constructors instead of texts; the numbers and examples within a text are left out.  The tables of warnings and errors
    keep the columns which are read.  The reading of files is left out: a file is its tables, and a table that cannot be read is missing (lines 300-307). *)
From Coq Require Import String List Bool ZArith QArith Qabs.
From Verif Require Import PyBase PyNum.
Import ListNotations.
Open Scope Q_scope.
Open Scope list_scope.
Open Scope string_scope.

Inductive cell := CNum (x : num) | CStr (s : string) | CNone.
Record table := Table { has_id : bool; columns : list (string * bool); rows : list (Z * (string -> cell)) }.

(** lines 33-43 *)
Definition QUALITATIVE_COLUMNS : list string :=
  ["state"; "event"; "step_names"; "S1_state"; "S2_state"; "SN_type"; "S1_SN_type"; "S2_SN_type"; "interp_class_HMS_HMS"; "interp_class_CO_HMS_RLO";
   "interp_class_CO_HeMS"; "interp_class_CO_HeMS_RLO"; "mt_history_HMS_HMS"; "mt_history_CO_HMS_RLO"; "mt_history_CO_HeMS"; "mt_history_CO_HeMS_RLO"; "mass_transfer_case"].
(** lines 46-53: true if quantitative *)
Definition classify_column (col : string) (numeric : bool) : bool := if existsb (String.eqb col) QUALITATIVE_COLUMNS then false else numeric.

Inductive diff :=
| NoIds | Missing (id : Z) | Extra (id : Z) | StepCount (id : Z) | BaseOnly (id : Z) (l : list string) | CandOnly (id : Z) (l : list string)
| NanMismatch (id : Z) (col : string) | Values (id : Z) (col : string) | Texts (id : Z) (col : string)
| NoEvolution | BaseNoEvolution | CandNoEvolution
| CandWarnings | BaseWarnings | WarnCount | WarnNew (id : Z) | WarnRemoved (id : Z) | WarnNumber (id : Z) | WarnCategories (id : Z) | WarnMessages (id : Z)
| CandErrors | BaseErrors | NewlyFailing (id : Z) | NewlyPassing (id : Z) | ErrorType (id : Z) | ErrorMessage (id : Z)
| TableMissing (k : string) | TableExtra (k : string).

Section Compare.
(** str of a float, and float of a text (None: ValueError) *)
Variable show : num -> string.
Variable parse : string -> option num.

(** astype(str), and to_numpy(dtype=float) of one cell *)
Definition text (c : cell) : string := match c with CNum x => show x | CStr s => s | CNone => "None" end.
Definition number (c : cell) : result num :=
  match c with CNum x => Ok x | CNone => Ok NaN | CStr s => match parse s with Some x => Ok x | None => Raise ValueError end end.
Definition is_nan (x : num) : bool := match x with NaN => true | _ => false end.
Fixpoint numbers (l : list cell) : result (list num) :=
  match l with [] => Ok [] | c :: r => rbind (number c) (fun x => rbind (numbers r) (fun xs => Ok (x :: xs))) end.

Definition zin (x : Z) (l : list Z) : bool := existsb (Z.eqb x) l.
Definition sin (x : string) (l : list string) : bool := existsb (String.eqb x) l.
(** A set of numbers of binaries; the order of reports, which is that of the numbers, is left out: here it is that of the table *)
Definition ids (t : table) : list Z := nodup Z.eq_dec (map fst (rows t)).
Definition names (t : table) : list string := map fst (columns t).
Definition of_binary (id : Z) (t : table) : list (string -> cell) := map snd (filter (fun r => Z.eqb (fst r) id) (rows t)).

(** x == y on floats *)
Definition neqb (a b : num) : bool :=
  match a, b with Fin x, Fin y => Qeq_bool x y | PInf, PInf | MInf, MInf => true | _, _ => false end.
(** numpy.isclose on floats which are not NaN, lines 161: an infinity is close only to itself *)
Definition close (rtol atol : Q) (b c : num) : bool :=
  match b, c with
  | Fin x, Fin y => Qle_bool (Qabs (x - y)) (atol + rtol * Qabs y)
  | _, _ => neqb b c
  end.

(** lines 116-195, for one column of one binary *)
Definition compare_column (rtol atol : Q) (id : Z) (col : string) (numeric : bool) (b c : list (string -> cell)) : result (list diff) :=
  let n := min (length b) (length c) in
  let bc := map (fun r => r col) (firstn n b) in
  let cc := map (fun r => r col) (firstn n c) in
  if classify_column col numeric then
    rbind (numbers bc) (fun ba => rbind (numbers cc) (fun ca =>
      let pairs := combine ba ca in
      let one_nan := existsb (fun p => xorb (is_nan (fst p)) (is_nan (snd p))) pairs in
      let valid := filter (fun p => negb (is_nan (fst p) || is_nan (snd p))) pairs in
      let differ := if Qeq_bool rtol 0 && Qeq_bool atol 0 then existsb (fun p => negb (neqb (fst p) (snd p))) valid
                    else negb (forallb (fun p => close rtol atol (fst p) (snd p)) valid) in
      Ok ((if one_nan then [NanMismatch id col] else []) ++ (if differ then [Values id col] else []))%list))
  else Ok (if forallb (fun p => String.eqb (text (fst p)) (text (snd p))) (combine bc cc) then [] else [Texts id col]).

Fixpoint collect_all (l : list (result (list diff))) : result (list diff) :=
  match l with [] => Ok [] | x :: r => rbind x (fun a => rbind (collect_all r) (fun b => Ok (a ++ b)%list)) end.

(** lines 93-196, for one binary which is in both tables *)
Definition compare_binary (rtol atol : Q) (base cand : table) (id : Z) : result (list diff) :=
  let b := of_binary id base in
  let c := of_binary id cand in
  let base_only := filter (fun n => negb (sin n (names cand))) (names base) in
  let cand_only := filter (fun n => negb (sin n (names base))) (names cand) in
  rbind (collect_all (map (fun col => compare_column rtol atol id (fst col) (snd col) b c) (filter (fun col => sin (fst col) (names cand)) (columns base)))) (fun d =>
  Ok ((if Nat.eqb (length b) (length c) then [] else [StepCount id]) ++
      (match base_only with [] => [] | l => [BaseOnly id l] end) ++ (match cand_only with [] => [] | l => [CandOnly id l] end) ++ d)%list).

(** lines 56-195 *)
Definition compare_evolution (rtol atol : Q) (base cand : table) (base_err cand_err : list Z) : result (list diff) :=
  if has_id base && has_id cand then
    let bi := ids base in
    let ci := ids cand in
    rbind (collect_all (map (compare_binary rtol atol base cand) (filter (fun i => zin i ci) bi))) (fun d =>
    Ok (map Missing (filter (fun i => negb (zin i ci) && negb (zin i cand_err)) bi) ++ map Extra (filter (fun i => negb (zin i bi) && negb (zin i base_err)) ci) ++ d)%list)
  else Ok [NoIds].

(** The table of warnings: whether it has the columns binary_id, category and message; each row's number, and the texts of the last two *)
Record warnings := Warnings { w_id : bool; w_cat : bool; w_msg : bool; w_rows : list (Z * (string * string)) }.
Definition count (x : string) (l : list string) : nat := length (filter (String.eqb x) l).
(** sorted(a) != sorted(b): two sorted lists are the same if everything occurs as often in both *)
Definition same_sorted (a b : list string) : bool := forallb (fun x => Nat.eqb (count x a) (count x b)) (a ++ b).
Definition warned (id : Z) (w : warnings) : list (string * string) := map snd (filter (fun r => Z.eqb (fst r) id) (w_rows w)).

(** lines 198-251 *)
Definition compare_warnings (base cand : option warnings) : list diff :=
  match base, cand with
  | None, None => []
  | None, Some _ => [CandWarnings]
  | Some _, None => [BaseWarnings]
  | Some b, Some c =>
      ((if Nat.eqb (length (w_rows b)) (length (w_rows c)) then [] else [WarnCount]) ++
       (if w_id b && w_id c then
          flat_map (fun id =>
            let bw := warned id b in
            let cw := warned id c in
            match length bw, length cw with
            | O, O => []
            | O, _ => [WarnNew id]
            | _, O => [WarnRemoved id]
            | n, m =>
                if Nat.eqb n m then
                  (if w_cat b && w_cat c then (if same_sorted (map fst bw) (map fst cw) then [] else [WarnCategories id]) else []) ++
                  (if w_msg b && w_msg c then (if same_sorted (map snd bw) (map snd cw) then [] else [WarnMessages id]) else [])
                else [WarnNumber id]
            end) (nodup Z.eq_dec (map fst (w_rows b) ++ map fst (w_rows c)))
        else []))%list
  end.

(** The table of errors: whether it has the column binary_id; each row's number, and the texts of the type and the message of the exception (empty if there is no
    such column) *)
Record errors := Errors { e_id : bool; e_rows : list (Z * (string * string)) }.
Definition error_ids (e : option errors) : list Z := match e with Some e => if e_id e then map fst (e_rows e) else [] | None => [] end.
Definition first_error (id : Z) (e : errors) : option (string * string) := option_map snd (find (fun r => Z.eqb (fst r) id) (e_rows e)).

(** lines 254-297 *)
Definition compare_errors (base cand : option errors) : list diff :=
  match base, cand with
  | None, None => []
  | None, Some _ => [CandErrors]
  | Some _, None => [BaseErrors]
  | Some b, Some c =>
      if e_id b && e_id c then
        let bi := nodup Z.eq_dec (map fst (e_rows b)) in
        let ci := nodup Z.eq_dec (map fst (e_rows c)) in
        (map NewlyFailing (filter (fun i => negb (zin i bi)) ci) ++ map NewlyPassing (filter (fun i => negb (zin i ci)) bi) ++
         flat_map (fun id =>
           match first_error id b, first_error id c with
           | Some (bt, bm), Some (ct, cm) => (if String.eqb bt ct then [] else [ErrorType id]) ++ (if String.eqb bm cm then [] else [ErrorMessage id])
           | _, _ => []
           end) (filter (fun i => zin i ci) bi))%list
      else []
  end.

(** A file: the names of its tables, and those which are read *)
Record file := File { keys : list string; evolution : option table; warns : option warnings; errs : option errors }.

(** lines 388-394 *)
Definition ignored_keys : list string := ["/evolution"; "/warnings"; "/errors"; "/metadata"].
Definition compare_keys (base cand : file) : list diff :=
  (map TableMissing (filter (fun k => negb (sin k (keys cand)) && negb (sin k ignored_keys)) (keys base)) ++
   map TableExtra (filter (fun k => negb (sin k (keys base)) && negb (sin k ignored_keys)) (keys cand)))%list.

(** lines 310-497: the exit status; 2 for an exception *)
Definition all_diffs (rtol atol : Q) (base cand : file) : result (list diff) :=
  rbind (match evolution base, evolution cand with
         | None, None => Ok [NoEvolution]
         | None, _ => Ok [BaseNoEvolution]
         | _, None => Ok [CandNoEvolution]
         | Some b, Some c => compare_evolution rtol atol b c (error_ids (errs base)) (error_ids (errs cand))
         end) (fun d => Ok (d ++ compare_warnings (warns base) (warns cand) ++ compare_errors (errs base) (errs cand) ++ compare_keys base cand)%list).
Definition main (rtol atol : Q) (base cand : file) : Z :=
  match all_diffs rtol atol base cand with Ok [] => 0 | Ok _ => 1 | Raise _ => 2 end%Z.
End Compare.
