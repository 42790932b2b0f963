(** Counting the binaries of a population with the same evolution, class ParseDataFrame, posydon/visualization/VH_diagram/ParseDataFrame.py.

    A row of the table is the number of its binary (the index) and its values in the columns which are read; the table is read in chunks, given here as a list of
    lists of rows (pandas gives chunks of chunk_size rows from start to stop, none of them empty).  [hash] is Python's hash of the tuple of all values of the rows of
    a binary, which, the number of columns being fixed, is a function of the list of rows.  counts and index_list, which always have the same keys, are one dict. *)
From Coq Require Import List Bool ZArith QArith.
From Verif Require Import PyBase.
Import ListNotations.

Section Parse.
Context {A H : Type}.
Variable hash : list A -> H.
Variable Heqb : H -> H -> bool.

Definition seq_of (i : Z) (l : list (Z * A)) : list A := map snd (filter (fun r => Z.eqb (fst r) i) l).
Fixpoint insert (i : Z) (l : list Z) : list Z := match l with [] => [i] | j :: r => if Z.leb i j then i :: l else j :: insert i r end.
(** groupby: the binaries in the order of their numbers *)
Definition groups (l : list (Z * A)) : list (Z * list A) := map (fun i => (i, seq_of i l)) (fold_right insert [] (nodup Z.eq_dec (map fst l))).

(** _f_lambda, lines 44-51: for a number [i] and the rows of its group *)
Definition counter := list (H * (Z * nat)).
Definition f_lambda (d : counter) (g : Z * list A) : counter :=
  let h := hash (snd g) in
  dset Heqb d h (match dget Heqb d h with Some (i, n) => (i, S n) | None => (fst g, 1%nat) end).

(** lines 54-71: the rows of the last binary of a chunk are kept for the next chunk; [df_gb.index[0]] of no rows is an IndexError *)
Fixpoint parse (chunks : list (list (Z * A))) (rdf : list (Z * A)) (d : counter) : result counter :=
  match chunks with
  | [] => match rdf with [] => Raise IndexError | (i, _) :: _ => Ok (f_lambda d (i, map snd rdf)) end
  | c :: r =>
      let dataf := (rdf ++ c)%list in
      match rev dataf with
      | [] => Raise IndexError
      | (j, _) :: _ =>
          parse r (filter (fun x => Z.eqb (fst x) j) dataf) (fold_left f_lambda (groups (filter (fun x => negb (Z.eqb (fst x) j)) dataf)) d)
      end
  end.
(** lines 35-40 *)
Definition count_dict (chunks : list (list (Z * A))) : result (list (Z * nat)) :=
  rbind (parse chunks [] []) (fun d => Ok (dset_all Z.eqb [] (map snd d))).
(** lines 73-76 *)
Definition get_frequencies (chunks : list (list (Z * A))) : result (list (Z * Q)) :=
  rbind (parse chunks [] []) (fun d =>
    let total := fold_right plus 0%nat (map (fun e => snd (snd e)) d) in
    Ok (dset_all Z.eqb [] (map (fun e => (fst (snd e), 100 * inject_Z (Z.of_nat (snd (snd e))) / inject_Z (Z.of_nat total))%Q) d))).
End Parse.
