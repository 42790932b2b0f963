(** Keyword arguments from ini files: simprop_kwargs_from_ini and binarypop_kwargs_from_ini,
    posydon/popsyn/io.py:402-585. *)
From Coq Require Import String Ascii List Bool ZArith DecimalString.
From Verif Require Import PyBase PyStr.
Import ListNotations.
Open Scope string_scope.
Open Scope nat_scope.
Open Scope list_scope.

Notation get := (dget String.eqb).

(** '{}'.format(h) for a counting number. *)
Definition decimal (h : nat) : string := NilZero.string_of_int (Z.to_int (Z.of_nat h)).

(** name.split('_')[-1] *)
Fixpoint last_part (s acc : string) : string :=
  match s with
  | EmptyString => acc
  | String c r => last_part r (if Ascii.eqb c "_" then EmptyString else (acc ++ String c EmptyString)%string)
  end.

(** del d[k] *)
Fixpoint without {A} (d : list (string * A)) (k : string) : list (string * A) :=
  match d with
  | [] => []
  | (k', v) :: r => if String.eqb k k' then r else (k', v) :: without r k
  end.

(** What ast.literal_eval yields. *)
Inductive lit := LNone | LBool (b : bool) | LNum (z : Z) | LStr (s : string) | LList (l : list string) | LDict (d : list (string * string)).

Section Ini.
  Variable C : Type.                                            (* classes *)
  Variable literal : string -> result lit.                      (* ast.literal_eval *)
  Variable import_posydon : lit -> result C.                    (* module and class of 'import' *)
  Variable import_file : lit -> result C.                       (* file and class of 'absolute_import' *)
  Variable import_hook : lit -> option lit -> result C.         (* importlib.import_module(..., package=...) *)
  Variable to_int : string -> option Z.                         (* int() *)

  Inductive setting := Step (c : C) (kwargs : list (string * lit)) | Hooks (l : list (C * lit)) | Value (v : lit).

  (** The options of a section, as [parser[section].items()] lists them. *)
  Fixpoint evaluate (items : list (string * string)) : result (list (string * lit)) :=
    match items with
    | [] => Ok []
    | (k, t) :: r => rbind (literal t) (fun v => rbind (evaluate r) (fun d => Ok ((k, v) :: d)))
    end.

  (** io.py:468-495: one round of the loop over the hooks, and the loop. *)
  Fixpoint indexed (names : list string) (h : nat) : result (list string) :=
    match names with
    | [] => Ok []
    | n :: r => match to_int (last_part n "") with
                | None => Raise ValueError
                | Some z => rbind (indexed r h) (fun l => Ok (if Z.eqb z (Z.of_nat h) then n :: l else l))
                end
    end.
  Definition hook_round (names : list string) (h : nat) (st : list (string * lit) * list (C * lit))
    : result (list (string * lit) * list (C * lit)) :=
    let (sect, hooks) := st in
    rbind (indexed names h) (fun valid =>
    match valid with
    | [] => Ok st
    | _ =>
        let ki := ("import_" ++ decimal h)%string in
        let ka := ("absolute_import_" ++ decimal h)%string in
        let kk := ("kwargs_" ++ decimal h)%string in
        match get sect ki with
        | None => Raise KeyError
        | Some i =>
            let s1 := without sect ki in
            let package := get s1 ka in
            let s2 := without s1 ka in
            let kwargs := match get s2 kk with Some v => v | None => LDict [] end in
            let s3 := without s2 kk in
            rbind (import_hook i package) (fun c => Ok (s3, hooks ++ [(c, kwargs)]))
        end
    end).
  Fixpoint hook_rounds (names : list string) (hs : list nat) (st : list (string * lit) * list (C * lit)) :
      result (list (string * lit) * list (C * lit)) :=
    match hs with
    | [] => Ok st
    | h :: r => rbind (hook_round names h st) (hook_rounds names r)
    end.
  Definition load_hooks (sect : list (string * lit)) : result (list (string * lit) * list (C * lit)) :=
    let names := filter (fun n => negb (py_in "extra" n)) (dkeys sect) in
    hook_rounds names (seq 1 (length names - 1)) (sect, []).

  (** io.py:423-500: one section, and all of them. *)
  Definition one_section (section : string) (items : list (string * string)) (out : list (string * setting))
    : result (list (string * setting)) :=
    rbind (evaluate items) (fun sect =>
    rbind (match get sect "import" with
           | None => Ok (sect, out)
           | Some i =>
               let s1 := without sect "import" in
               let s2 := without s1 "absolute_import" in
               rbind (match get s1 "absolute_import" with
                      | Some LNone | None => import_posydon i
                      | Some a => import_file a
                      end) (fun c => Ok (s2, dset String.eqb out section (Step c s2)))
           end) (fun p =>
    rbind (if String.eqb section "extra_hooks"
           then rbind (load_hooks (fst p)) (fun q => Ok (fst q, dset String.eqb (snd p) section (Hooks (snd q))))
           else Ok p) (fun p =>
    Ok (if String.eqb section "grid_paths"
        then dset_all String.eqb (snd p) (map (fun e => (fst e, Value (snd e))) (fst p))
        else snd p)))).
  Fixpoint sections (only : option string) (parser : list (string * list (string * string))) (out : list (string * setting))
    : result (list (string * setting)) :=
    match parser with
    | [] => Ok out
    | (s, items) :: r =>
        if String.eqb s "DEFAULT" || match only with Some o => negb (String.eqb s o) | None => false end
        then sections only r out
        else rbind (one_section s items out) (sections only r)
    end.
  Definition simprop_kwargs (parser : list (string * list (string * string))) (only : option string) :=
    sections only parser [].

  (** ** binarypop_kwargs_from_ini, io.py:504-585 *)
  (** SLURM_ARRAY_JOB_ID, _TASK_MIN, _TASK_ID, _TASK_COUNT *)
  Record environment := Env { e_job : option Z; e_min : option Z; e_id : option Z; e_count : option Z }.
  Inductive option_value := Lit (v : lit) | Int (z : Z) | World | Missing | Options (d : list (string * lit)).
  Definition lits (d : list (string * lit)) : list (string * option_value) := map (fun e => (fst e, Lit (snd e))) d.
  Definition env_int (v : option Z) : result Z := match v with Some z => Ok z | None => Raise KeyError end.
  (** value == True *)
  Definition is_true (v : lit) : bool := match v with LBool b => b | LNum z => Z.eqb z 1 | _ => false end.

  Definition population_section (env : environment) (d : list (string * lit)) (kw : list (string * option_value))
    : result (list (string * option_value)) :=
    let kw := dset_all String.eqb kw (lits d) in
    match get kw "use_MPI" with
    | None => Raise KeyError
    | Some m =>
        let mpi := match m with Lit v => is_true v | _ => false end in
        match mpi, e_job env with
        | true, Some _ => Raise ValueError
        | true, None => Ok (dset String.eqb kw "comm" World)
        | false, Some job =>
            rbind (env_int (e_min env)) (fun mn => rbind (env_int (e_id env)) (fun i => rbind (env_int (e_count env)) (fun n =>
            Ok (dset String.eqb (dset String.eqb (dset String.eqb (dset String.eqb kw "comm" Missing) "JOB_ID" (Int job)) "RANK" (Int (i - mn))) "size" (Int n)))))
        | false, None => Ok (dset String.eqb (dset String.eqb (dset String.eqb kw "comm" Missing) "RANK" Missing) "size" Missing)
        end
    end.
  Definition star_section (include own : string) (d : list (string * lit)) (kw : list (string * option_value))
    : result (list (string * option_value)) :=
    match get d include with
    | None => Raise KeyError
    | Some v =>
        let kw := dset String.eqb kw include (Lit v) in
        let truthy := match v with
                      | LNone => false | LBool b => b | LNum z => negb (Z.eqb z 0) | LStr s => negb (String.eqb s "")
                      | LList l => match l with [] => false | _ => true end | LDict l => match l with [] => false | _ => true end end in
        Ok (if truthy then dset String.eqb kw own (Options (without d include)) else kw)
    end.
  Fixpoint population_sections (env : environment) (parser : list (string * list (string * string))) (kw : list (string * option_value))
    : result (list (string * option_value)) :=
    match parser with
    | [] => Ok kw
    | (s, items) :: r =>
        rbind (if String.eqb s "BinaryPopulation_options" then rbind (evaluate items) (fun d => population_section env d kw)
               else if String.eqb s "BinaryStar_output" then rbind (evaluate items) (fun d => Ok (dset_all String.eqb kw (lits d)))
               else if String.eqb s "SingleStar_1_output" then rbind (evaluate items) (fun d => star_section "include_S1" "S1_kwargs" d kw)
               else if String.eqb s "SingleStar_2_output" then rbind (evaluate items) (fun d => star_section "include_S2" "S2_kwargs" d kw)
               else Ok kw) (population_sections env r)
    end.
  Definition required : list string := ["BinaryPopulation_options"; "BinaryStar_output"; "SingleStar_1_output"; "SingleStar_2_output"].
  Definition binarypop_kwargs (env : environment) (parser : list (string * list (string * string))) :=
    let p := filter (fun s => negb (String.eqb (fst s) "DEFAULT")) parser in
    if forallb (fun r => inb String.eqb r (dkeys p)) required then population_sections env p []
    else Raise (OtherError "AssertionError").
End Ini.
Arguments Step {C} _ _.
Arguments Hooks {C} _.
Arguments Value {C} _.
