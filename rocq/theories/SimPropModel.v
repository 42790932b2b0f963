(** SimulationProperties: construction, loading of steps and track matchers,
    posydon/binary_evol/simulationproperties.py, and TrackMatcher's options,
    posydon/binary_evol/track_match.py. *)
From Coq Require Import String List Bool ZArith.
From Verif Require Import PyBase PyStr.
Import ListNotations.
Open Scope string_scope.
Open Scope list_scope.

(** Values of options.  Metallicities are numbers in units of 1e-4; a grid is known by its file, a
    matcher by its place in the heap; other objects (lists, generators) by a number. *)
Inductive val := VNone | VNum (z : Z) | VText (s : string) | VObj (n : nat) | VGrid (file : string) | VMatcher (id : nat).
Definition val_eqb (a b : val) : bool :=
  match a, b with
  | VNone, VNone => true
  | VNum x, VNum y => Z.eqb x y
  | VText x, VText y | VGrid x, VGrid y => String.eqb x y
  | VObj x, VObj y | VMatcher x, VMatcher y => Nat.eqb x y
  | _, _ => false
  end.
Definition options := list (string * val).
Notation get := (dget String.eqb).
Notation put := (dset String.eqb).
Definition has {A} (d : list (string * A)) (k : string) : bool := match get d k with Some _ => true | None => false end.
(** d.pop(k, None) *)
Fixpoint pop {A} (d : list (string * A)) (k : string) : list (string * A) :=
  match d with [] => [] | (k', v) :: r => if String.eqb k k' then r else (k', v) :: pop r k end.
Definition pop_all {A} (d : list (string * A)) (ks : list string) : list (string * A) := fold_left pop ks d.

(** convert_metallicity_to_string, posydon/utils/common_functions.py:2862-2868 *)
Definition zstring (m : val) : result string :=
  match m with
  | VNum 20000 => Ok "2e+00" | VNum 10000 => Ok "1e+00" | VNum 4500 => Ok "4.5e-01" | VNum 2000 => Ok "2e-01"
  | VNum 1000 => Ok "1e-01" | VNum 100 => Ok "1e-02" | VNum 10 => Ok "1e-03" | VNum 1 => Ok "1e-04"
  | _ => Raise ValueError
  end.

(** track_match.py:255-275; the default of "path" is a text. *)
Definition matcher_defaults : options :=
  [("grid_Hrich", VNone); ("grid_strippedHe", VNone); ("path", VText "PATH_TO_POSYDON_DATA"); ("metallicity", VNone);
   ("matching_method", VText "minimize"); ("matching_tolerance", VNum 100); ("matching_tolerance_hard", VNum 1000);
   ("list_for_matching_HMS", VNone); ("list_for_matching_HeStar", VNone); ("list_for_matching_postMS", VNone);
   ("list_for_matching_postHeMS", VNone); ("record_matching", VNum 0); ("verbose_matching", VNum 0)].
Definition training_triggers : list string :=
  ["grid_Hrich"; "grid_strippedHe"; "path"; "metallicity"; "list_for_matching_HMS"; "list_for_matching_HeStar";
   "list_for_matching_postMS"; "list_for_matching_postHeMS"].
(** track_match.py:405-420: what is left of the options of the step, and those of the matcher. *)
Definition separate (d : options) : options * options :=
  (pop_all d (filter (fun k => negb (String.eqb k "metallicity")) (dkeys matcher_defaults)),
   dset_all String.eqb matcher_defaults (filter (fun e => has matcher_defaults (fst e)) d)).

(** A matcher: its options (its attributes are set together with them) and the options it was trained with. *)
Record matcher := Matcher { m_options : options; m_trained : options }.

Section Properties.
  (** Classes of steps, the names in DEFAULT_KWARGS ([None]: no such attribute), and calling the class. *)
  Variable Class Object : Type.
  Variable defaults : Class -> option (list string).
  Variable build : Class -> options -> result Object.
  (** Opening a grid file and training a matcher: the exception raised, if any. *)
  Variable open_grid : string -> option exn.
  Variable train : options -> option exn.
  Variable abspath : string -> string.
  Variable age_of_universe : Z.
  Variable data : string.                                     (* PATH_TO_POSYDON_DATA *)

  (** What is stored in the dictionaries of the object.  Tuples are those of a class and a dictionary. *)
  Inductive entry := Tuple (c : Class) (d : options) | Plain (v : val) | Names (l : list string) | Built (o : Object).
  (** The items of extra_hooks: a class with arguments, a name with a value, another tuple, no tuple. *)
  Inductive hook := HookClass (n : nat) | HookName (name : string) (v : val) | OtherTuple | NoTuple.

  (** Other attributes the class sets for itself (kwargs, default_hooks, _detached_step, ...) are taken
      not to be named by the user. *)
  Record properties := Properties {
    p_kwargs : list (string * entry);
    p_attrs : list (string * entry);
    p_hooks : list nat;
    p_step_names : list string;
    p_loaded : bool;
    p_heap : list matcher;
    p_matchers : list ((val * string) * nat);
    p_Hrich : list (val * string);
    p_strippedHe : list (val * string) }.

  (** ** Construction, simulationproperties.py:42-226 *)
  Definition step_names : list string :=
    ["step_HMS_HMS"; "step_CO_HeMS"; "step_CO_HMS_RLO"; "step_CO_HeMS_RLO"; "step_detached"; "step_disrupted";
     "step_merged"; "step_initially_single"; "step_dco"; "step_SN"; "step_CE"; "step_end"].
  Definition default_grid_paths : list (string * string) :=
    [("single_HMS_path", data ++ "/single_HMS"); ("single_HeMS_path", data ++ "/single_HeMS"); ("HMS_HMS_path", data ++ "/HMS-HMS");
     ("CO_HMS_RLO_path", data ++ "/CO-HMS_RLO"); ("CO_HeMS_path", data ++ "/CO-HeMS"); ("CO_HeMS_RLO_path", data ++ "/CO-HeMS_RLO")]%string.

  (** Lines 168-183. *)
  Fixpoint add_hooks (items : list hook) (attrs : list (string * entry)) (classes : list nat)
    : result (list (string * entry) * list nat) :=
    match items with
    | [] => Ok (attrs, classes)
    | HookClass n :: r => add_hooks r attrs (classes ++ [n])
    | HookName s v :: r => add_hooks r (put attrs s (Plain v)) classes
    | OtherTuple :: r => add_hooks r attrs classes
    | NoTuple :: _ => Raise ValueError
    end.
  Definition if_missing (attrs : list (string * entry)) (k : string) (e : entry) : list (string * entry) :=
    if has attrs k then attrs else put attrs k e.
  (** set_path, lines 227-281, for the default names. *)
  Definition set_path (attrs : list (string * entry)) (name dflt : string) (given : option entry) : result (list (string * entry)) :=
    match given with
    | None | Some (Plain VNone) => Ok (put attrs name (Plain (VText (abspath dflt))))
    | Some (Plain (VText s)) => Ok (put attrs name (Plain (VText (abspath s))))
    | Some _ => Raise TypeError
    end.
  Fixpoint set_paths (kwargs : list (string * entry)) (paths : list (string * string)) (attrs : list (string * entry)) :
      result (list (string * entry)) :=
    match paths with
    | [] => Ok attrs
    | (n, p) :: r => rbind (set_path attrs n p (get kwargs n)) (set_paths kwargs r)
    end.
  (** [steps]: the tuples of the twelve steps, in order; [kwargs]: further keyword arguments. *)
  Definition construct (flow : entry) (steps : list entry) (extra_hooks : list hook) (kwargs : list (string * entry)) : result properties :=
    let kw := put (dset_all String.eqb (put kwargs "flow" flow) (combine step_names steps)) "extra_hooks" (Names []) in
    rbind (add_hooks extra_hooks [] []) (fun h =>
    let attrs := if_missing (if_missing (if_missing (if_missing (fst h)
                   "max_simulation_time" (Plain (VNum age_of_universe)))
                   "end_events" (Names [])) "end_states" (Names []))
                   "max_n_steps_per_binary" (Plain (VNum 100)) in
    let attrs := dset_all String.eqb attrs (filter (fun e => negb (py_in "step" (fst e))) kw) in
    rbind (set_paths kw default_grid_paths attrs) (fun attrs =>
    Ok (Properties kw attrs (snd h) (filter (py_in "step") (dkeys kw)) false [] [] [] []))).

  (** ** Track matchers *)
  Definition met_eqb (a b : val * string) : bool := val_eqb (fst a) (fst b) && String.eqb (snd a) (snd b).
  Definition path_of (p : properties) (name : string) : result string :=
    match get (p_attrs p) name with
    | Some (Plain (VText s)) => Ok s
    | Some _ => Raise TypeError
    | None => Raise AttributeError
    end.
  Definition file_of (path z : string) : string := (path ++ "/" ++ z ++ "_Zsun.h5")%string.
  (** Opening a grid that is not kept yet. *)
  Definition grid (kept : list (val * string)) (m : val) (file : string) : list (val * string) * result unit :=
    match dget val_eqb kept m with
    | Some _ => (kept, Ok tt)
    | None => match open_grid file with Some e => (kept, Raise e) | None => (dset val_eqb kept m file, Ok tt) end
    end.
  Definition set_grids (p : properties) (h he : list (val * string)) : properties :=
    Properties (p_kwargs p) (p_attrs p) (p_hooks p) (p_step_names p) (p_loaded p) (p_heap p) (p_matchers p) h he.
  Definition set_matchers (p : properties) (heap : list matcher) (ms : list ((val * string) * nat)) : properties :=
    Properties (p_kwargs p) (p_attrs p) (p_hooks p) (p_step_names p) (p_loaded p) heap ms (p_Hrich p) (p_strippedHe p).
  Definition grid_value (kept : list (val * string)) (m : val) : val :=
    match dget val_eqb kept m with Some f => VGrid f | None => VNone end.

  (** create_track_matcher, lines 676-719 *)
  Definition create_matcher (p : properties) (m : val) (name : string) (o : options) : properties * result unit :=
    match zstring m, path_of p "single_HMS_path", path_of p "single_HeMS_path" with
    | Raise e, _, _ | _, Raise e, _ | _, _, Raise e => (p, Raise e)
    | Ok z, Ok hms, Ok hems =>
        let (h, r1) := grid (p_Hrich p) m (file_of hms z) in
        match r1 with
        | Raise e => (set_grids p h (p_strippedHe p), Raise e)
        | Ok _ =>
            let (he, r2) := grid (p_strippedHe p) m (file_of hems z) in
            let p := set_grids p h he in
            match r2 with
            | Raise e => (p, Raise e)
            | Ok _ =>
                let o := put (put o "grid_Hrich" (grid_value h m)) "grid_strippedHe" (grid_value he m) in
                match train o with
                | Some e => (p, Raise e)
                | None => (set_matchers p (p_heap p ++ [Matcher o o]) (dset met_eqb (p_matchers p) (m, name) (length (p_heap p))), Ok tt)
                end
            end
        end
    end.

  (** Lines 637-650: the options changed by the loop, and whether the matcher must be trained again. *)
  Fixpoint update_options (mo given current : options) (retrain : bool) : result (options * bool) :=
    match mo with
    | [] => Ok (current, retrain)
    | (k, v) :: r =>
        match get given k with
        | None => update_options r given current retrain
        | Some g =>
            match get current k with
            | None => Raise KeyError
            | Some c => if val_eqb c g then update_options r given current retrain
                        else update_options r given (put current k v) (retrain || inb String.eqb k training_triggers)
            end
        end
    end.
  Definition set_nth (l : list matcher) (i : nat) (x : matcher) : list matcher := firstn i l ++ x :: skipn (S i) l.

  (** del d[k] *)
  Fixpoint del {K A} (eqb : K -> K -> bool) (d : list (K * A)) (k : K) : result (list (K * A)) :=
    match d with
    | [] => Raise KeyError
    | (k', v) :: r => if eqb k k' then Ok r else rbind (del eqb r k) (fun r' => Ok ((k', v) :: r'))
    end.
  (** Lines 655-668. *)
  Fixpoint forget (keys : list (val * string)) (m : val) (name : string) (p : properties) : properties * result unit :=
    match keys with
    | [] => (p, Ok tt)
    | (m', n') :: r =>
        if negb (val_eqb m' m) && String.eqb n' name then
          match del met_eqb (p_matchers p) (m', n') with
          | Raise e => (p, Raise e)
          | Ok ms =>
              let p := set_matchers p (p_heap p) ms in
              if existsb (fun e => val_eqb (fst (fst e)) m') ms then forget r m name p
              else match del val_eqb (p_Hrich p) m' with
                   | Raise e => (p, Raise e)
                   | Ok h => let p := set_grids p h (p_strippedHe p) in
                             match del val_eqb (p_strippedHe p) m' with
                             | Raise e => (p, Raise e)
                             | Ok he => forget r m name (set_grids p h he)
                             end
                   end
          end
        else forget r m name p
    end.

  (** _check_track_matcher, lines 557-674: the object, the options left to the step, and the matcher.
      [d] are the options of the step with its metallicity, [given] those passed originally. *)
  Definition check_matcher (p : properties) (m : val) (name : string) (d given : options) : properties * options * result nat :=
    let (d', mo) := separate d in
    let (p, r) :=
      match dget met_eqb (p_matchers p) (m, name) with
      | None => create_matcher p m name mo
      | Some i =>
          match nth_error (p_heap p) i with
          | None => (p, Raise KeyError)
          | Some x =>
              match update_options mo given (m_options x) false with
              | Raise e => (p, Raise e)
              | Ok (o, retrain) =>
                  let p := set_matchers p (set_nth (p_heap p) i (Matcher o (m_trained x))) (p_matchers p) in
                  if retrain then create_matcher p m name o else (p, Ok tt)
              end
          end
      end in
    match r with
    | Raise e => (p, d', Raise e)
    | Ok _ =>
        let (p, r) := forget (dkeys (p_matchers p)) m name p in
        match r with
        | Raise e => (p, d', Raise e)
        | Ok _ => match dget met_eqb (p_matchers p) (m, name) with
                  | Some i => (p, d', Ok i)
                  | None => (p, d', Raise KeyError)
                  end
        end
    end.

  (** ** Loading steps *)
  Definition grid_steps : list (string * string) :=
    [("step_HMS_HMS", "HMS_HMS_path"); ("step_CO_HMS_RLO", "CO_HMS_RLO_path"); ("step_CO_HeMS", "CO_HeMS_path"); ("step_CO_HeMS_RLO", "CO_HeMS_RLO_path")].

  (** check_step, lines 479-555: the object, the step's dictionary as it is left, and the outcome. *)
  Definition check_step (p : properties) (m : val) (rng : val) (name : string) (c : Class) (d : options) : properties * options * result unit :=
    match defaults c with
    | None => (p, d, Raise AttributeError)
    | Some names =>
        let given := d in
        match (if inb String.eqb "metallicity" names then
                 let m := match get d "metallicity" with Some v => v | None => m end in
                 match (match m with VNone => VNum 10000 | _ => m end) with
                 | VNum z => Ok (VNum z, put d "metallicity" (VNum z))
                 | _ => Raise TypeError                                    (* float() *)
                 end
               else Ok (m, d)) with
        | Raise e => (p, d, Raise e)
        | Ok (m, d) =>
            match (match get grid_steps name with
                   | None => Ok d
                   | Some n => rbind (path_of p n) (fun s => Ok (put d "grid_path" (VText s)))
                   end) with
            | Raise e => (p, d, Raise e)
            | Ok d =>
                let '(p, d, r) := if inb String.eqb "track_matcher" names
                                  then let '(p, d, r) := check_matcher p m name d given in
                                       match r with Ok i => (p, put d "track_matcher" (VMatcher i), Ok tt) | Raise e => (p, d, Raise e) end
                                  else (p, d, Ok tt) in
                match r with
                | Raise e => (p, d, Raise e)
                | Ok _ => (p, if inb String.eqb "RNG" names then put d "RNG" rng else d, Ok tt)
                end
            end
        end
    end.

  Definition is_tuple (e : entry) : bool := match e with Tuple _ _ => true | _ => false end.
  Definition all_loaded (kwargs attrs : list (string * entry)) : bool :=
    forallb (fun e => negb (is_tuple (snd e)) || has attrs (fst e)) kwargs.
  (** Lines 452-475: the attribute, and whether everything is loaded now. *)
  Definition attach (p : properties) (name : string) (o : Object) : properties :=
    let attrs := put (p_attrs p) name (Built o) in
    Properties (p_kwargs p) attrs (p_hooks p) (p_step_names p) (all_loaded (p_kwargs p) attrs) (p_heap p) (p_matchers p) (p_Hrich p) (p_strippedHe p).

  (** load_a_step, lines 386-477, without an ini file: the object and the tuple's dictionary afterwards. *)
  Definition load_a_step (p : properties) (name : string) (c : Class) (d : options) (m rng : val) : properties * options * result unit :=
    let '(p, d, r) := if String.eqb name "flow" then (p, d, Ok tt) else check_step p m rng name c d in
    match r with
    | Raise e => (p, d, Raise e)
    | Ok _ =>
        match (match build c d with Raise TypeError => build c [] | r => r end) with
        | Ok o => (attach p name o, d, Ok tt)
        | Raise e => (p, d, Raise e)
        end
    end.

  (** load_steps, lines 354-384.  The dictionaries of the tuples are those in kwargs. *)
  Definition set_kwargs (p : properties) (kw : list (string * entry)) : properties :=
    Properties kw (p_attrs p) (p_hooks p) (p_step_names p) (p_loaded p) (p_heap p) (p_matchers p) (p_Hrich p) (p_strippedHe p).
  Fixpoint load_list (entries : list (string * entry)) (m rng : val) (p : properties) : properties * result unit :=
    match entries with
    | [] => (p, Ok tt)
    | (name, Tuple c d) :: r =>
        let m := match get d "metallicity" with Some v => v | None => m end in
        let '(p, d, res) := load_a_step p name c d m rng in
        let p := set_kwargs p (put (p_kwargs p) name (Tuple c d)) in
        match res with Raise e => (p, Raise e) | Ok _ => load_list r m rng p end
    | _ :: r => load_list r m rng p
    end.
  Definition load_steps (p : properties) (m rng : val) : properties * result unit := load_list (p_kwargs p) m rng p.
End Properties.
