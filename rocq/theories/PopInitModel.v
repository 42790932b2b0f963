(** How a population is set up, posydon/popsyn/binarypopulation.py:116-202 (BinaryPopulation.__init__), and how its steps are loaded, lines 297-309
    (the beginning of _safe_evolve).

    Metallicities are numbers in units of 1e-4 Zsun.  A SimulationProperties object lives at a place of a heap, as several populations may hold the
    same.  A generator is told apart by its seed: the entropy of numpy's SeedSequence and, for a spawned one, its number among the spawned.  The
    options not used here, the manager and the closing of the properties at exit are left out. *)
From Coq Require Import String List Bool ZArith.
From Verif Require Import PyBase.
Import ListNotations.
Open Scope string_scope.
Open Scope list_scope.
Open Scope Z_scope.

(** lines 106-110 *)
Definition STEP_NAMES_LOADING_GRIDS : list string :=
  ["step_HMS_HMS"; "step_CO_HeMS"; "step_CO_HMS_RLO"; "step_CO_HeMS_RLO"; "step_HMS_HMS_RLO"; "step_detached"; "step_isolated"; "step_disrupted";
   "step_initially_single"; "step_merged"; "step_CE"; "step_dco"].
Definition loads_grid (k : string) : bool := existsb (String.eqb k) STEP_NAMES_LOADING_GRIDS.

(** numpy.random.SeedSequence and its spawn: [[i for i in seq.spawn(size)][rank]] *)
Record seed := Seed { entropy : Z; spawned : option Z }.
Definition seed_sequence (e : Z) : result seed := if e <? 0 then Raise ValueError else Ok (Seed e None).
Definition spawn (s : seed) (size rank : Z) : result seed :=
  let n := Z.max size 0 in
  if (- n <=? rank) && (rank <? n) then Ok (Seed (entropy s) (Some (if rank <? 0 then rank + n else rank))) else Raise IndexError.

(** The steps of SimulationProperties with the option metallicity of each (None: not given), and, once load_steps was called, the options the steps were
    made with and the generator given to them (SimPropModel has the details); and the time at which evolution ends. *)
Record props := Props { steps : list (string * option Z); loaded : option (list (string * option Z) * option seed); max_time : Z }.
Definition force (m : Z) (p : props) : props := Props (map (fun s => (fst s, if loads_grid (fst s) then Some m else snd s)) (steps p)) (loaded p) (max_time p).
Definition load_steps (g : option seed) (p : props) : props := Props (steps p) (Some (steps p, g)) (max_time p).
Definition set_time (t : Z) (p : props) : props := Props (steps p) (loaded p) t.
Definition heap := list props.
Fixpoint upd (h : heap) (i : nat) (f : props -> props) : heap :=
  match h, i with [], _ => [] | p :: r, O => f p :: r | p :: r, S j => p :: upd r j f end.

(** The options of a population: [metallicity], [entropy], [comm] (rank and size), [JOB_ID] with [RANK] and [size] *)
Record options := Options { metallicities : list Z; metallicity_index : Z; metallicity : option Z; given_entropy : option Z; comm : option (Z * Z);
                            job : option Z; job_rank : option Z; job_size : option Z; max_simulation_time : Z }.
Record population := Population { p_metallicity : Z; p_seed : seed; p_props : nat }.

(** [l.index(x)] *)
Fixpoint index_from (i : Z) (l : list Z) (x : Z) : result Z := match l with [] => Raise ValueError | y :: r => if y =? x then Ok i else index_from (i + 1) r x end.
Definition index (l : list Z) (x : Z) : result Z := index_from 0 l x.

(** lines 157-191; [os] is what the operating system gives without an entropy *)
Definition seed_of (os : Z) (o : options) (m : Z) : result seed :=
  rbind (match given_entropy o with Some e => seed_sequence e | None => Ok (Seed os None) end) (fun seq =>
  match comm o, job o with
  | Some _, Some _ => Raise ValueError
  | Some (rank, size), None =>
      match given_entropy o with
      | None => Raise ValueError
      | Some e => rbind (index (metallicities o) m) (fun k => rbind (seed_sequence (e + k)) (fun s => spawn s size rank))
      end
  | None, Some id =>
      rbind (match given_entropy o with
             | Some _ => Ok seq
             | None => rbind (index (metallicities o) m) (fun k => seed_sequence (id + k))
             end) (fun s =>
      match job_size o, job_rank o with Some size, Some rank => spawn s size rank | _, _ => Raise TypeError end)
  | None, None => Ok seq
  end).
(** lines 116-202: metallicity and time are forced upon the properties before anything about seeds may fail *)
Definition new_population (os : Z) (o : options) (at_ : nat) (h : heap) : result population * heap :=
  match py_nth (metallicities o) (metallicity_index o) with
  | None => (Raise IndexError, h)
  | Some d =>
      let m := match metallicity o with Some m => m | None => d end in
      (rbind (seed_of os o m) (fun s => Ok (Population m s at_)), upd h at_ (fun p => set_time (max_simulation_time o) (force m p)))
  end.
(** lines 297-309 *)
Definition ensure_loaded (p : population) (h : heap) : heap :=
  upd h (p_props p) (fun s => match loaded s with Some _ => s | None => load_steps (Some (p_seed p)) (force (p_metallicity p) s) end).
(** The options with which the steps that evolve the binaries of a population were made, and their generator *)
Definition used (p : population) (h : heap) : option (list (string * option Z) * option seed) :=
  match nth_error (ensure_loaded p h) (p_props p) with Some s => loaded s | None => None end.
