(** Model of the population loop of posydon/popsyn/binarypopulation.py: splitting the
    population over processes, evolving binaries safely, saving batches and combining them. *)
From Coq Require Import String List Bool ZArith QArith DecimalString.
From Verif Require Import PyBase WarnModel WarnSpec.
Import ListNotations.
Local Open Scope string_scope.

(** * Splitting over processes *)

(** numpy.array_split(l, n) for an integer n: the first [len l mod n] parts have one element
    more than the others. *)
Fixpoint chop {A} (l : list A) (sizes : list nat) : list (list A) :=
  match sizes with
  | [] => []
  | s :: sizes' => firstn s l :: chop (skipn s l) sizes'
  end.
Definition np_array_split {A} (l : list A) (n : Z) : result (list (list A)) :=
  if (n <=? 0)%Z then Raise ValueError
  else
    let each := (length l / Z.to_nat n)%nat in
    let extras := (length l mod Z.to_nat n)%nat in
    Ok (chop l (repeat (S each) extras ++ repeat each (Z.to_nat n - extras))).

(** How the population is run: alone, or as one of [size] processes (MPI or job array). *)
Inductive run_mode := Serial | Parallel (rank size : Z).

(** binarypopulation.py:239-292.  [stored] is self.kwargs.get('indices'), [given] the argument
    of this call; the result is what _safe_evolve gets and the new self.kwargs['indices']. *)
Definition range (n : Z) : list Z := map Z.of_nat (seq 0 (Z.to_nat n)).
Definition evolve_indices (mode : run_mode) (number_of_binaries : Z)
    (stored given : option (list Z)) : result (list Z * option (list Z)) :=
  let indices := match given with
    | Some l => l
    | None => match stored with Some l => l | None => range number_of_binaries end
    end in
  match mode with
  | Serial => Ok (indices, Some indices)
  | Parallel rank size =>
    rbind (np_array_split indices size) (fun parts =>
    match py_nth parts rank with
    | Some batch => Ok (batch, Some batch)
    | None => Raise IndexError
    end)
  end.

(** * The population manager *)

(** One row of a history table and of a one-line table; [None] masses are NaN.  The other
    columns are the payload; the metallicity column added on saving is left out. *)
Record hrow := HRow { h_index : Z; h_state : string; h_m1 : option Q; h_m2 : option Q; h_rest : list string }.
Record orow := ORow { o_index : Z; o_rest : list string }.

(** Entry of PopulationManager.indices: append(list) stores a nested list. *)
Inductive ival := IInt (z : Z) | IList (l : list Z).
Definition ival_eqb (a b : ival) : bool :=
  match a, b with
  | IInt x, IInt y => Z.eqb x y
  | IList x, IList y => if list_eq_dec Z.eq_dec x y then true else false
  | _, _ => false
  end.
(** [l.remove(x)]: the first equal element, ValueError if there is none. *)
Fixpoint list_remove {A} (eqb : A -> A -> bool) (l : list A) (x : A) : option (list A) :=
  match l with
  | [] => None
  | y :: l' => if eqb y x then Some l' else option_map (cons y) (list_remove eqb l' x)
  end.

(** Sums of masses, numpy.nansum.  Simplification: exact rational sums. *)
Definition nansum (l : list (option Q)) : Q :=
  fold_right (fun x s => match x with Some q => q + s | None => s end)%Q 0%Q l.
Record totals := Totals { t_mass : Q; t_single : Q; t_binaries : Q; t_systems : Z }.
Definition no_totals : totals := Totals 0 0 0 0.

(** [history[~history.index.duplicated(keep="first")]] *)
Fixpoint first_rows (seen : list Z) (l : list hrow) : list hrow :=
  match l with
  | [] => []
  | r :: l' => if inb Z.eqb (h_index r) seen then first_rows seen l'
               else r :: first_rows (h_index r :: seen) l'
  end.
Definition is_single (r : hrow) : bool := String.eqb (h_state r) "initially_single_star".
(** lines 570-578 and 923-931 *)
Definition mass_single (l : list hrow) : Q :=
  nansum (map h_m1 (filter is_single (first_rows [] l))).
Definition mass_binaries (l : list hrow) : Q :=
  nansum (flat_map (fun r => [ h_m1 r; h_m2 r ]) (filter (fun r => negb (is_single r)) (first_rows [] l))).

(** A saved HDF file; a key may be absent. *)
Record fcontent := FC { f_hist : option (list hrow); f_one : option (list orow); f_totals : option totals }.

Section Pop.
  (** Binaries, the random-number generator, drawing a binary, evolving it, and the tables. *)
  Variables B G : Type.
  Variable b_index : B -> Z.
  Variable to_df : B -> result (list hrow).
  Variable to_oneline : B -> result orow.
  (** manager.generate / from_hdf: draws (or loads) the binary with the given index. *)
  Variable gen : G -> Z -> G * result B.
  (** binary.evolve(): new generator state, the binary, the alarm left set, the warnings issued
      on the way and the exception raised, if any. *)
  Variable evo : G -> B -> G * B * Z * list wcall * option exn.
  (** set_binary_to_failed + traceback, and binary.warnings = True. *)
  Variable fail : B -> exn -> B.
  Variable warned : B -> B.
  (** Does the HDF library accept appending these rows to a table holding those?  (String
      columns have a width fixed by the first append.) *)
  Variable fits_h : list hrow -> list hrow -> bool.
  Variable fits_o : list orow -> list orow -> bool.

  Record mgr := Mgr { m_bins : list nat; m_idx : list ival;
                      m_hdfs : list (list hrow); m_odfs : list orow }.

  (** Everything the loop changes. Objects live in [heap]; an object is its position. *)
  Record world := World { heap : list B; rng : G; man : mgr; warn : pw; alarm : Z;
                          files : list (string * fcontent); names : list string }.

  Definition set_man w m := World (heap w) (rng w) m (warn w) (alarm w) (files w) (names w).
  Definition set_files w f := World (heap w) (rng w) (man w) (warn w) (alarm w) f (names w).
  Definition add_name w p := World (heap w) (rng w) (man w) (warn w) (alarm w) (files w) (names w ++ [ p ]).

  (** lines 676-685 *)
  Definition append_one (h : list B) (m : mgr) (b : nat) : mgr :=
    Mgr (m_bins m ++ [ b ]) (m_idx m ++ match nth_error h b with Some x => [ IInt (b_index x) ] | None => [] end)
        (m_hdfs m) (m_odfs m).
  Definition append_list (h : list B) (m : mgr) (bs : list nat) : mgr :=
    Mgr (m_bins m ++ bs)
        (m_idx m ++ [ IList (flat_map (fun b => match nth_error h b with Some x => [ b_index x ] | None => [] end) bs) ])
        (m_hdfs m) (m_odfs m).

  (** lines 687-699; on ValueError of the second removal the first one has happened. *)
  Definition remove_one (h : list B) (m : mgr) (b : nat) : mgr * option exn :=
    match list_remove Nat.eqb (m_bins m) b with
    | None => (m, Some ValueError)
    | Some bs =>
      let m1 := Mgr bs (m_idx m) (m_hdfs m) (m_odfs m) in
      match nth_error h b with
      | None => (m1, Some AttributeError)
      | Some x =>
        match list_remove ival_eqb (m_idx m) (IInt (b_index x)) with
        | None => (m1, Some ValueError)
        | Some is_ => (Mgr bs is_ (m_hdfs m) (m_odfs m), None)
        end
      end
    end.
  Fixpoint remove_list (h : list B) (m : mgr) (bs : list nat) : mgr * option exn :=
    match bs with
    | [] => (m, None)
    | b :: bs' => match remove_one h m b with
                  | (m1, None) => remove_list h m1 bs'
                  | r => r
                  end
    end.

  (** lines 701-704 *)
  Definition clear_dfs (m : mgr) : mgr := Mgr (m_bins m) (m_idx m) [] [].

  (** lines 706-725: exceptions are printed and swallowed, earlier effects stay. *)
  Definition breakdown (h : list B) (m : mgr) (b : nat) : mgr :=
    match nth_error h b with
    | None => m
    | Some x =>
      match to_df x with
      | Raise _ => m
      | Ok history =>
        let m1 := Mgr (m_bins m) (m_idx m) (m_hdfs m ++ [ history ]) (m_odfs m) in
        match to_oneline x with
        | Raise _ => m1
        | Ok oneline =>
          fst (remove_one h (Mgr (m_bins m1) (m_idx m1) (m_hdfs m1) (m_odfs m1 ++ [ oneline ])) b)
        end
      end
    end.

  (** lines 727-769 without a selection function; the result None is Python's None. *)
  Fixpoint tables {A} (f : B -> result A) (h : list B) (bs : list nat) : result (list A) :=
    match bs with
    | [] => Ok []
    | b :: bs' => rbind (match nth_error h b with Some x => f x | None => Raise AttributeError end) (fun t =>
                  rbind (tables f h bs') (fun ts => Ok (t :: ts)))
    end.
  Definition mgr_to_df (h : list B) (m : mgr) : result (option (list hrow)) :=
    match m_bins m, m_hdfs m with
    | [], [] => Ok None
    | [], hs => Ok (Some (concat hs))
    | bs, _ => rbind (tables to_df h bs) (fun ts => Ok (Some (concat ts)))
    end.
  Definition mgr_to_oneline (h : list B) (m : mgr) : result (option (list orow)) :=
    match m_bins m, m_odfs m with
    | [], [] => Ok None
    | [], os => Ok (Some os)
    | bs, _ => rbind (tables to_oneline h bs) (fun ts => Ok (Some ts))
    end.

  Definition write (w : world) (p : string) (c : fcontent) : world :=
    set_files w (dset String.eqb (files w) p c).

  (** lines 862-964, PopulationManager.save with mode "w".  The metadata written from
      self.kwargs is left out (all keys present). *)
  Definition save (w : world) (p : string) : world * option exn :=
    let w0 := write w p (FC None None None) in
    match mgr_to_df (heap w) (man w) with
    | Raise e => (w0, Some e)
    | Ok hist =>
      match mgr_to_oneline (heap w) (man w) with
      | Raise e => (w0, Some e)
      | Ok one =>
        match hist, one with
        | Some hs, Some os =>
          if fits_h [] hs then
            let t := Totals (mass_single hs + mass_binaries hs) (mass_single hs) (mass_binaries hs)
                            (Z.of_nat (length os)) in
            (write w p (FC (Some hs) (if fits_o [] os then Some os else None) (Some t)), None)
          else (w0, Some ValueError)
        | _, _ => (w0, Some AttributeError)
        end
      end
    end.

  (** Names of the batch files; [rank] is given in parallel runs.  The directory part is
      left out. *)
  Definition str_nat (n : nat) : string := NilZero.string_of_uint (Nat.to_uint n).
  Definition rank_suffix (rank : option nat) : string :=
    match rank with None => "" | Some r => "." ++ str_nat r end.
  Definition batch_name (j : nat) (rank : option nat) : string :=
    str_nat j ++ "_evolution.batch" ++ rank_suffix rank.
  Definition leftover_name (rank : option nat) : string :=
    "leftover_evolution.batch" ++ rank_suffix rank.
  Definition combined_name (rank : option nat) : string :=
    match rank with
    | None => "evolution.combined.h5"
    | Some r => "evolution.combined." ++ str_nat r ++ ".h5"
    end.

  (** Options of evolve; [memory] is None unless ram_per_cpu is given, then it tells whether
      memory is nearly used up after binary j. *)
  Record opts := Opts { op_breakdown : bool; op_ram : bool; op_dump : option Z;
                        op_memory : option (nat -> bool); op_verbose : bool; op_rank : option nat }.

  (** lines 319-322 *)
  Definition dump_rate (o : opts) (n : nat) : Z :=
    Z.max (match op_dump o with Some r => r | None => Z.of_nat (n / 10) end) 1.

  (** lines 402-442: is a batch written after binary j? *)
  Definition dumps (o : opts) (n j : nat) : bool :=
    op_ram o &&
    match op_memory o with
    | None => (Z.of_nat j mod dump_rate o n =? 0)%Z && negb (j =? 0)%nat
    | Some full => full j
    end.

  (** lines 413-421: write the batch, then forget what was written. *)
  Definition dump (o : opts) (w : world) (p : string) : world * option exn :=
    match save w p with
    | (w1, Some e) => (w1, Some e)
    | (w1, None) =>
      let w2 := add_name w1 p in
      if op_breakdown o then (set_man w2 (clear_dfs (man w2)), None)
      else let '(m, e) := remove_list (heap w2) (man w2) (m_bins (man w2)) in (set_man w2 m, e)
    end.

  (** Stack of the call in _safe_evolve (line 358). *)
  Definition evolve_stack : list frame := [ ("binarypopulation.py", 358%Z) ].

  (** lines 358-395: the body of the with statement; the exceptions of evolve end here. *)
  Definition guarded (b : nat) (w : world) (x : B) (e : option exn) (al : Z) (s : pw) (verbose : bool)
    : B * pw :=
    let x1 := match e with Some ex => fail x ex | None => x end in
    let x2 := if got_called s then warned x1 else x1 in
    (x2, if verbose then s else reset_cache s).

  (** lines 346-442 for one binary *)
  Definition one_binary (o : opts) (n j : nat) (index : Z) (w : world) : world * option exn :=
    let '(g1, r) := gen (rng w) index in
    match r with
    | Raise e => (World (heap w) g1 (man w) (warn w) (alarm w) (files w) (names w), Some e)
    | Ok x =>
      let b := length (heap w) in
      let h1 := (heap w ++ [ x ])%list in
      let m1 := append_one h1 (man w) b in
      let '(s0, c) := make_ctx (warn w) true true true true in
      match enter s0 evolve_stack c with
      | (s1, Some e) => (World h1 g1 m1 s1 (alarm w) (files w) (names w), Some e)
      | (s1, None) =>
        let '(g2, x2, al, calls, ex) := evo g1 x in
        let '(s2, _) := pwarn_seq calls s1 in
        let '(x3, s3) := guarded b w x2 ex al s2 (op_verbose o) in
        let '(s4, e4) := leave s3 evolve_stack in
        let h2 := (heap w ++ [ x3 ])%list in
        let w1 := World h2 g2 m1 s4 0 (files w) (names w) in
        match e4 with
        | Some e => (w1, Some e)
        | None =>
          let w2 := if op_breakdown o then set_man w1 (breakdown h2 m1 b) else w1 in
          if dumps o n j then dump o w2 (batch_name j (op_rank o)) else (w2, None)
        end
      end
    end.

  Fixpoint all_binaries (o : opts) (n j : nat) (indices : list Z) (w : world) : world * option exn :=
    match indices with
    | [] => (w, None)
    | i :: l => match one_binary o n j i w with
                | (w1, None) => all_binaries o n (S j) l w1
                | r => r
                end
    end.

  (** lines 445-463 *)
  Definition leftover (o : opts) (w : world) : world * option exn :=
    if negb ((length (m_bins (man w)) =? 0)%nat && (length (m_hdfs (man w)) =? 0)%nat) && op_ram o
    then dump o w (leftover_name (op_rank o)) else (w, None).

  (** lines 560-590: one file; an exception leaves what was appended before it. *)
  Record store := Store { s_hist : list hrow; s_one : list orow; s_totals : totals }.
  Definition combine_one (s : store) (f : option fcontent) : store :=
    match f with
    | Some (FC (Some hs) one _) =>
      if fits_h (s_hist s) hs then
        let s1 := Store (s_hist s ++ hs) (s_one s) (s_totals s) in
        match one with
        | None => s1
        | Some os =>
          let sb := (t_binaries (s_totals s) + mass_binaries hs)%Q in
          let ss := (t_single (s_totals s) + mass_single hs)%Q in
          let t := Totals (ss + sb)%Q ss sb (t_systems (s_totals s) + Z.of_nat (length os))%Z in
          Store (s_hist s1) (if fits_o (s_one s) os then s_one s ++ os else s_one s) t
        end
      else s
    | _ => s
    end%list.

  Fixpoint remove_files (fs : list (string * fcontent)) (l : list string)
    : list (string * fcontent) * option exn :=
    match l with
    | [] => (fs, None)
    | p :: l' =>
      match dget String.eqb fs p with
      | None => (fs, Some FileNotFoundError)
      | Some _ => remove_files (filter (fun kv => negb (String.eqb p (fst kv))) fs) l'
      end
    end.

  (** lines 526-612 with mode "w". *)
  Definition combine_saved_files (w : world) (target : string) (file_names : list string)
    : world * option exn :=
    match file_names with
    | [] => (w, Some IndexError)
    | f0 :: _ =>
      match dget String.eqb (files w) f0 with
      | Some (FC (Some _) (Some _) _) =>
        let w0 := write w target (FC None None None) in
        let s := fold_left (fun s f => combine_one s (dget String.eqb (files w0) f)) file_names
                   (Store [] [] no_totals) in
        let w1 := write w target (FC (Some (s_hist s)) (Some (s_one s)) (Some (s_totals s))) in
        let '(fs, e) := remove_files (files w1) file_names in (set_files w1 fs, e)
      | Some _ => (w, Some KeyError)
      | None => (w, Some FileNotFoundError)
      end
    end.

  (** lines 294-489.  (Loading the steps and creating the directory are left out.) *)
  Definition safe_evolve (o : opts) (indices : list Z) (w : world) : world * option exn :=
    let w0 := World (heap w) (rng w) (man w) (warn w) (alarm w) (files w) [] in
    match all_binaries o (length indices) 0 indices w0 with
    | (w1, Some e) => (w1, Some e)
    | (w1, None) =>
      match leftover o w1 with
      | (w2, Some e) => (w2, Some e)
      | (w2, None) =>
        if op_ram o then combine_saved_files w2 (combined_name (op_rank o)) (names w2)
        else if op_breakdown o then save w2 (combined_name (op_rank o))
        else (w2, None)
      end
    end.
End Pop.
