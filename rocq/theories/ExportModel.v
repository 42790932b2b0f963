(** Population.export_selection, posydon/popsyn/synthetic_population.py:1163-1385. *)
From Coq Require Import String List ZArith QArith Bool Lia.
From Verif Require Import PyBase PyStr TableModel.
Import ListNotations.
Open Scope string_scope.
Open Scope nat_scope.
Open Scope list_scope.

(** A row of mass_per_metallicity.  The row label is the metallicity, a float; floats are
    integer multiples of a fixed power of two, and the integer is used as label. *)
Record mass := Mass { m_sim : Q; m_single : Q; m_bin : Q; m_systems : Z }.
Definition mass_add (a b : mass) : mass :=
  Mass (m_sim a + m_sim b) (m_single a + m_single b) (m_bin a + m_bin b) (m_systems a + m_systems b).
Definition no_mass : mass := Mass 0 0 0 0.
Definition mass_table := table mass.

(** tmp_df.groupby(tmp_df.index).sum() *)
Definition group_sum (t : mass_table) : mass_table :=
  map (fun i => (i, fold_right (fun r acc => if Z.eqb (fst r) i then mass_add (snd r) acc else acc) no_mass t))
      (sorted_unique (keys t)).

Section Export.
  (** Contents of history, one-line and formation-channel rows; the metallicity column of the
      one-line table is kept apart. *)
  Variables H O C : Type.

  (** The tables of a file; [None]: the file has no such table. *)
  Record store := Store {
    s_hist : option (table H); s_one : option (table (O * option Z)); s_chan : option (table C);
    s_len : option (table nat); s_mass : option mass_table }.
  Definition empty_store : store := Store None None None None None.

  (** store.append: nothing is written for an empty frame. *)
  Definition append_rows {A} (old : option (table A)) (rows : table A) : option (table A) :=
    match rows with
    | [] => old
    | _ => Some (match old with Some t => t ++ rows | None => rows end)
    end.

  (** The population object: tables of its file, objects built on them, and what it holds in
      memory.  [p_met_column]: the one-line table has a column "metallicity". *)
  Record population := Population {
    p_hist : history H; p_one : oneline (O * option Z); p_chan : option (table C);
    p_chunk : nat; p_mass : mass_table; p_metallicities : list Z; p_met_column : bool }.

  (** df.loc[labels]: the rows label by label; KeyError if one is missing. *)
  Definition loc {A} (t : table A) (labels : list Z) : result (table A) :=
    if forallb (fun i => zin i (keys t)) labels
    then Ok (flat_map (fun i => filter (fun r => Z.eqb (fst r) i) t) labels)
    else Raise KeyError.

  (** tmp_df.rename(index=reindex) *)
  Definition reindex_row {A} (d : list (Z * Z)) (r : Z * A) : Z * A :=
    (match dget Z.eqb d (fst r) with Some j => j | None => fst r end, snd r).

  (** The last index in the file, lines 1252-1258; -1 if there is none. *)
  Definition max_key (l : list Z) : Z := match l with [] => (-1)%Z | x :: l' => fold_left Z.max l' x end.
  Definition last_index (s : store) : Z :=
    match s_one s, s_hist s with
    | Some t, _ => max_key (keys t)
    | None, Some t => max_key (keys t)
    | None, None => (-1)%Z
    end.

  (** {i: j for i, j in zip(selection, np.arange(...))}, lines 1276-1291. *)
  Definition reindex (last : Z) (selection : list Z) : list (Z * Z) :=
    let n := Z.of_nat (length selection) in
    dset_all Z.eqb [] (combine selection
      (if Z.eqb last (-1) then zrange 0 (0 + n) else zrange (last + 1) (last + n + 1))).

  (** The loops over pieces of the selection: each reads rows, renames and appends them. *)
  Fixpoint write_pieces {A} (read : list Z -> result (table A)) (d : list (Z * Z))
      (pieces : list (list Z)) (out : option (table A)) : option (table A) * option exn :=
    match pieces with
    | [] => (out, None)
    | p :: rest =>
        match read p with
        | Raise e => (out, Some e)
        | Ok rows => write_pieces read d rest (append_rows out (map (reindex_row d) rows))
        end
    end.

  Definition rows_only {A} (r : result (view A)) : result (table A) :=
    rbind r (fun v => match v with Rows t => Ok t | Columns _ t => Ok t | NoFrame => Ok [] end).

  (** The contents of the one-line rows as written: the population's metallicity (in absolute
      units) is filled in when the column is missing, lines 1314-1318. *)
  Definition fill_metallicity (p : population) (t : table (O * option Z)) : table (O * option Z) :=
    if p_met_column p then t
    else map (fun r => (fst r, (fst (snd r), nth_error (p_metallicities p) 0))) t.

  (** "number_of_systems" of every row is set, in place. *)
  Definition set_systems (n : nat) (t : mass_table) : mass_table :=
    map (fun r => (fst r, Mass (m_sim (snd r)) (m_single (snd r)) (m_bin (snd r)) (Z.of_nat n))) t.

  (** The whole method.  [exists_] gives the contents of an existing target file.  The result
      is the population object afterwards, the target file afterwards ([None]: no file) and
      the exception, if any.  [hchunk] is history_chunksize.  Writing the ini parameters is
      left out. *)
  Definition export_selection (p : population) (selection : list Z) (filename : string)
      (exists_ : option store) (overwrite append : bool) (hchunk : nat)
    : population * option store * option exn :=
    if negb (py_in ".h5" filename) then (p, exists_, Some ValueError)
    else if append && overwrite then (p, exists_, Some ValueError)
    else if match exists_ with Some _ => negb overwrite && negb append | None => false end
    then (p, exists_, Some FileExistsError)
    else
      let s0 := if negb overwrite && append then match exists_ with Some s => s | None => empty_store end
                else empty_store in
      let d := reindex (last_index s0) selection in
      if negb (p_met_column p) && (1 <? length (p_metallicities p))%nat then (p, Some s0, Some ValueError)
      else
      let read_one l := rbind (rows_only (oneline_get (p_one p) (KInts l))) (fun t => Ok (fill_metallicity p t)) in
      let '(one, e1) := write_pieces read_one d (chunks (p_chunk p) selection) (s_one s0) in
      let s1 := Store (s_hist s0) one (s_chan s0) (s_len s0) (s_mass s0) in
      match e1 with Some e => (p, Some s1, Some e) | None =>
      let '(hist, e2) := write_pieces (fun l => rows_only (history_get (p_hist p) (KInts l))) d
                           (chunks hchunk selection) (s_hist s0) in
      let s2 := Store hist one (s_chan s0) (s_len s0) (s_mass s0) in
      match e2 with Some e => (p, Some s2, Some e) | None =>
      let '(chan, e3) := match p_chan p with
                         | None => (s_chan s0, None)
                         | Some t => write_pieces (loc t) d (chunks (p_chunk p) selection) (s_chan s0)
                         end in
      let s3 := Store hist one chan (s_len s0) (s_mass s0) in
      match e3 with Some e => (p, Some s3, Some e) | None =>
      let '(len, e4) := write_pieces (loc (h_lengths (p_hist p))) d (chunks (p_chunk p) selection) (s_len s0) in
      let s4 := Store hist one chan len (s_mass s0) in
      match e4 with Some e => (p, Some s4, Some e) | None =>
      let own := set_systems (length selection) (p_mass p) in
      let masses := match s_mass s0 with Some old => group_sum (old ++ own) | None => own end in
      (Population (p_hist p) (p_one p) (p_chan p) (p_chunk p) own (p_metallicities p) (p_met_column p),
       Some (Store hist one chan len (Some masses)), None)
      end end end end.
End Export.
Arguments Store {H O C} _ _ _ _ _.
Arguments s_hist {H O C} _.
Arguments s_one {H O C} _.
Arguments s_chan {H O C} _.
Arguments s_len {H O C} _.
Arguments s_mass {H O C} _.
Arguments Population {H O C} _ _ _ _ _ _ _.
Arguments p_hist {H O C} _.
Arguments p_one {H O C} _.
Arguments p_chan {H O C} _.
Arguments p_chunk {H O C} _.
Arguments p_mass {H O C} _.
Arguments p_metallicities {H O C} _.
Arguments p_met_column {H O C} _.
Arguments export_selection {H O C} _ _ _ _ _ _ _.
Arguments empty_store {H O C}.
