(** Selecting binaries of a population file, posydon/popsyn/analysis.py.

    A table is a list of rows with the index of their binary.  Messages are left out; columns are apart from rows. *)
From Coq Require Import String List Bool ZArith.
From Verif Require Import PyBase SNNameModel.
Import ListNotations.
Open Scope list_scope.
Open Scope Z_scope.

(** lines 14-15 *)
Definition CHUNKSIZE : Z := 100000.
Definition CHUNKSIZE_SMALL : Z := 1000.
(** _decide_chunksize, 34-38 *)
Definition decide_chunksize (n_binaries : option Z) : Z :=
  match n_binaries with None => CHUNKSIZE | Some n => Z.min CHUNKSIZE (Z.max CHUNKSIZE_SMALL (n / 10)) end.
(** _filter_columns, 41-71; a single pattern is a list of one *)
Definition filter_columns (columns : list string) (patterns : option (list string)) : list string :=
  match patterns with None => columns | Some ps => filter (fun c => existsb (fun p => contains p c) ps) columns end.

Section Tables.
Variable A : Type.
(** pandas.read_hdf with a chunk size: parts of that many rows, the last one shorter *)
Fixpoint chunks_fuel (fuel : nat) (n : nat) (l : list (Z * A)) : list (list (Z * A)) :=
  match fuel, l with
  | O, _ | _, [] => []
  | S k, _ => firstn n l :: chunks_fuel k n (skipn n l)
  end.
Definition chunks (n : nat) (l : list (Z * A)) : list (list (Z * A)) := chunks_fuel (length l) n l.
(** Sets of indices, as lists without repetitions *)
Definition mem (i : Z) (s : list Z) : bool := existsb (Z.eqb i) s.
Definition add (s : list Z) (i : Z) : list Z := if mem i s then s else i :: s.
Definition update (s : list Z) (l : list (Z * A)) : list Z := fold_left add (map fst l) s.
(** Python's [list[:n]] *)
Definition upto {B} (n : Z) (l : list B) : list B := firstn (Z.to_nat (if n <? 0 then Z.of_nat (length l) + n else n)) l.

(** lines 143-158: the indices selected.  [sel] gives the rows chosen of a chunk; [order] is the order in which a set is listed *)
Fixpoint select (sel : list (Z * A) -> list (Z * A)) (order : list Z -> list Z) (find_n : option Z) (cs : list (list (Z * A))) (s : list Z) : list Z :=
  match cs with
  | [] => s
  | c :: r =>
      let s' := update s (sel c) in
      match find_n with
      | Some n => if n <=? Z.of_nat (length s') then upto n (order s') else select sel order find_n r s'
      | None => select sel order find_n r s'
      end
  end.
(** lines 160-173; None: no selector *)
Fixpoint get_oneline (s : option (list Z)) (cs : list (list (Z * A))) (included : list Z) : list (Z * A) :=
  match cs with
  | [] => []
  | c :: r =>
      match s with
      | None => (c ++ get_oneline s r included)%list
      | Some x =>
          let c' := filter (fun p => mem (fst p) x) c in
          let included' := update included c' in
          (c' ++ (if Nat.eqb (length included') (length x) then [] else get_oneline s r included'))%list
      end
  end.
(** lines 175-190 *)
Fixpoint get_history (s : option (list Z)) (cs : list (list (Z * A))) (included : list Z) (stop_at_next : bool) : list (Z * A) :=
  match cs with
  | [] => []
  | c :: r =>
      match s with
      | None => (c ++ get_history s r included stop_at_next)%list
      | Some x =>
          let c' := filter (fun p => mem (fst p) x) c in
          let included' := update included c' in
          let found := Nat.eqb (length included') (length x) in
          (c' ++ (if found && stop_at_next then [] else get_history s r included' (stop_at_next || found)))%list
      end
  end.
End Tables.
Arguments chunks {A}. Arguments update {A}. Arguments select {A}. Arguments get_oneline {A}. Arguments get_history {A}.

(** get_subsets, 74-192; [H] and [O] are the other columns of the tables *)
Definition get_subsets {O H} (order : list Z -> list Z) (oneline : list (Z * O)) (history : list (Z * H)) (find_n : option Z)
    (select_oneline : option (list (Z * O) -> list (Z * O))) (select_history : option (list (Z * H) -> list (Z * H))) : result (list (Z * O) * list (Z * H)) :=
  let n := Z.to_nat (decide_chunksize find_n) in
  let finish s := Ok (get_oneline s (chunks n oneline) [], get_history s (chunks n history) [] false) in
  match select_oneline, select_history with
  | Some _, Some _ => Raise (OtherError "Exception")
  | Some f, None => finish (Some (select f order find_n (chunks n oneline) []))
  | None, Some f => finish (Some (select f order find_n (chunks n history) []))
  | None, None => finish None
  end.
