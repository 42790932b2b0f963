(** Tables of a population file and the interface classes History and Oneline of
    posydon/popsyn/synthetic_population.py.

    A table of an HDF5 file is a list of rows in file order; a row has an integer index (the
    index of the binary, not necessarily unique) and contents.  Which columns are read does
    not matter for the rows, so contents are abstract. *)
From Coq Require Import String List ZArith Bool Lia.
From Verif Require Import PyBase.
Import ListNotations.
Open Scope string_scope.
Open Scope nat_scope.
Open Scope list_scope.

Definition table (A : Type) := list (Z * A).
Definition keys {A} (t : table A) : list Z := map fst t.
Definition zin (i : Z) (l : list Z) : bool := inb Z.eqb i l.

(** The exception of pandas for the query "index in []" (its type depends on the version). *)
Definition empty_query : exn := OtherError "query".

(** Successive pieces of [n] rows (n >= 1), the last one possibly shorter. *)
Fixpoint chunks_aux {A} (fuel n : nat) (l : list A) : list (list A) :=
  match fuel with
  | O => []
  | S f => match l with [] => [] | _ => firstn n l :: chunks_aux f n (skipn n l) end
  end.
Definition chunks {A} (n : nat) (l : list A) : list (list A) := chunks_aux (length l) n l.

(** pd.concat(out, axis=0): no pieces at all is an error. *)
Definition pd_concat {A} (pieces : list (list A)) : result (list A) :=
  match pieces with [] => Raise ValueError | _ => Ok (concat pieces) end.

(** DFInterface.select with a condition on the index, synthetic_population.py:260-289.
    pandas' TableIterator first finds the matching rows and then yields them in pieces of
    chunksize rows, leaving out empty pieces. *)
Definition select_where {A} (c : nat) (t : table A) (p : Z -> bool) : result (table A) :=
  pd_concat (chunks c (filter (fun r => p (fst r)) t)).

(** DFInterface.select with start and stop and no condition (stop is cut at the number of rows). *)
Definition window {A} (start stop : nat) (l : list A) : list A := firstn (stop - start) (skipn start l).
Definition select_range {A} (c : nat) (t : table A) (start stop : nat) : result (table A) :=
  pd_concat (chunks c (window start stop t)).

(** The query string "index in [...]". *)
Definition select_in {A} (c : nat) (t : table A) (l : list Z) : result (table A) :=
  match l with [] => Raise empty_query | _ => select_where c t (fun i => zin i l) end.

(** list(range(a, b)) *)
Definition zrange (a b : Z) : list Z := map (fun k => (a + Z.of_nat k)%Z) (seq 0 (Z.to_nat (b - a))).

(** What a caller may put between the brackets.  [KOther] is any other type (numpy integers
    that are not Python ints, lists of mixed type, None). *)
Inductive key :=
| KSlice (start stop : option Z)
| KInt (i : Z)
| KInts (l : list Z)             (* list of int, also the empty list *)
| KIntArray (l : list Z)         (* numpy array of int *)
| KMask (m : list bool)          (* numpy array of bool *)
| KColumn (name : string)
| KColumns (names : list string) (* non-empty list of str *)
| KFloats (l : list Z)           (* non-empty list of float *)
| KOther.

(** What is returned: pd.DataFrame() or rows, with all columns or only the named ones. *)
Inductive view (A : Type) :=
| NoFrame
| Rows (t : table A)
| Columns (names : list string) (t : table A).
Arguments NoFrame {A}.
Arguments Rows {A} _.
Arguments Columns {A} _ _.

Definition as_rows {A} (r : result (table A)) : result (view A) := rbind r (fun t => Ok (Rows t)).
Definition as_columns {A} (names : list string) (r : result (table A)) : result (view A) :=
  rbind r (fun t => Ok (Columns names t)).

Section History.
  Variable A : Type.

  (** groupby(index).count(): sorted distinct values with their number of occurrences. *)
  Fixpoint insert_key (i : Z) (l : list Z) : list Z :=
    match l with
    | [] => [i]
    | j :: l' => if Z.ltb i j then i :: l else if Z.eqb i j then l else j :: insert_key i l'
    end.
  Definition sorted_unique (l : list Z) : list Z := fold_right insert_key [] l.
  Definition count_key (t : table A) (i : Z) : nat := length (filter (fun r => Z.eqb (fst r) i) t).
  Definition group_lengths (t : table A) : table nat :=
    map (fun i => (i, count_key t i)) (sorted_unique (keys t)).

  (** The History object, synthetic_population.py:349-399.  [stored] is the table
      history_lengths if the file has one. *)
  Record history := History {
    h_rows : table A; h_names : list string; h_lengths : table nat; h_chunk : nat }.
  Definition open_history (t : table A) (names : list string) (stored : option (table nat)) (c : nat) : history :=
    History t names (match stored with Some l => l | None => group_lengths t end) c.
  Definition h_systems (h : history) : nat := length (h_lengths h).

  (** __len__, synthetic_population.py:504-512. *)
  Definition history_len (h : history) : nat := list_sum (map snd (h_lengths h)).

  (** chunk[mask]: a mask of the wrong length is a ValueError. *)
  Fixpoint apply_mask {B} (m : list bool) (l : list B) : list B :=
    match m, l with
    | b :: m', x :: l' => if b then x :: apply_mask m' l' else apply_mask m' l'
    | _, _ => []
    end.
  Definition mask_rows {B} (m : list bool) (l : list B) : result (list B) :=
    if length m =? length l then Ok (apply_mask m l) else Raise ValueError.

  (** The loop "for i, chunk in enumerate(iterator): out.append(chunk[key[i:i+chunksize]])",
      synthetic_population.py:479-484: [i] counts chunks, not rows. *)
  Fixpoint mask_chunks (i c : nat) (m : list bool) (pieces : list (table A)) : result (list (table A)) :=
    match pieces with
    | [] => Ok []
    | p :: rest =>
        rbind (mask_rows (window i (i + c) m) p) (fun r =>
        rbind (mask_chunks (S i) c m rest) (fun rs => Ok (r :: rs)))
    end.

  (** History.__getitem__, synthetic_population.py:401-502.  A pandas DataFrame of bools as
      mask is not modelled (indexing a frame by a frame keeps all rows and blanks cells). *)
  Definition history_get (h : history) (k : key) : result (view A) :=
    let c := h_chunk h in
    match k with
    | KSlice start stop =>
        let pre := match start with None => 0%Z | Some a => a end in
        let n := match stop with None => Z.of_nat (h_systems h) | Some b => (b - pre)%Z end in
        as_rows (select_in c (h_rows h) (zrange pre (pre + n)))
    | KInt i => as_rows (select_where c (h_rows h) (fun j => Z.eqb j i))
    | KInts l | KIntArray l =>
        match l with [] => Ok NoFrame | _ => as_rows (select_in c (h_rows h) l) end
    | KMask m =>
        match m with
        | [] => Ok NoFrame
        | _ => as_rows (rbind (mask_chunks 0 c m (chunks c (h_rows h))) pd_concat)
        end
    | KColumn name =>
        if inb String.eqb name (h_names h) then as_columns [name] (select_range c (h_rows h) 0 (length (h_rows h)))
        else Raise ValueError
    | KColumns names =>
        if forallb (fun n => inb String.eqb n (h_names h)) names
        then as_columns names (select_range c (h_rows h) 0 (length (h_rows h)))
        else Raise ValueError
    | KFloats _ | KOther => Raise ValueError
    end.

  (** head and tail, synthetic_population.py:221-257: start=-n counts from the end in
      pytables, and -0 is 0. *)
  Definition head (t : table A) (n : nat) : table A := firstn n t.
  Definition tail (t : table A) (n : nat) : table A :=
    match n with O => t | _ => skipn (length t - n) t end.
End History.
Arguments History {A} _ _ _ _.
Arguments h_rows {A} _.
Arguments h_names {A} _.
Arguments h_lengths {A} _.
Arguments h_chunk {A} _.
Arguments h_systems {A} _.
Arguments history_get {A} _ _.
Arguments history_len {A} _.
Arguments open_history {A} _ _ _ _.
Arguments count_key {A} _ _.
Arguments group_lengths {A} _.
Arguments head {A} _ _.
Arguments tail {A} _ _.

Section Oneline.
  Variable A : Type.

  (** The Oneline object, synthetic_population.py:623-647: its indices are those of the rows
      in file order. *)
  Record oneline := Oneline { o_rows : table A; o_names : list string; o_chunk : nat }.

  (** numpy indexing by a bool array: IndexError unless the lengths agree. *)
  Definition mask_indices (m : list bool) (l : list Z) : result (list Z) :=
    if length m =? length l then Ok (apply_mask m l) else Raise IndexError.

  (** Oneline.__getitem__, synthetic_population.py:649-726. A DataFrame of bools with one
      column behaves like the array of its values. *)
  Definition oneline_get (o : oneline) (k : key) : result (view A) :=
    let c := o_chunk o in
    match k with
    | KSlice start stop =>
        let pre := match start with None => 0%Z | Some a => a end in
        let n := match stop with None => Z.of_nat (length (o_rows o)) | Some b => (b - pre)%Z end in
        as_rows (select_in c (o_rows o) (zrange pre (pre + n)))
    | KInt i => as_rows (select_where c (o_rows o) (fun j => Z.eqb j i))
    | KInts l | KIntArray l => as_rows (select_in c (o_rows o) l)
    | KFloats _ => Raise ValueError
    | KMask m => rbind (mask_indices m (keys (o_rows o))) (fun l => as_rows (select_in c (o_rows o) l))
    | KColumn name =>
        if inb String.eqb name (o_names o) then as_columns [name] (select_range c (o_rows o) 0 (length (o_rows o)))
        else Raise ValueError
    | KColumns names =>
        if forallb (fun n => inb String.eqb n (o_names o)) names
        then as_columns names (select_range c (o_rows o) 0 (length (o_rows o)))
        else Raise ValueError
    | KOther => Raise ValueError
    end.
End Oneline.
Arguments Oneline {A} _ _ _.
Arguments o_rows {A} _.
Arguments o_names {A} _.
Arguments o_chunk {A} _.
Arguments oneline_get {A} _ _.
