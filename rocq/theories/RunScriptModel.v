(** The script that submits the jobs of the pipeline, create_csv_and_slurm_job_files, bin/posydon-setup-pipeline:187-483.

    The values of the ini file are lists, texts, booleans or None.  [make] stands for create_csv and slurm_job (lines 375-387, 416-429): it gets the name of the
    job and the keyword arguments, writes files, and may raise.  The script is the list of its submitted jobs with what they wait for.  The import of the profile
    interpolation for step_5 (lines 402-406), the messages, the list of created files and chmod are left out. *)
From Coq Require Import String List Bool.
From Verif Require Import PyBase.
Import ListNotations.
Open Scope list_scope.
Open Scope string_scope.

Inductive value := VList (l : list string) | VText (s : string) | VBool (b : bool) | VNone.
Definition section := list (string * value).
Definition ini := list (string * section).
Definition truthy (v : value) : bool :=
  match v with VList l => negb (Nat.eqb (List.length l) 0) | VText s => negb (String.eqb s "") | VBool b => b | VNone => false end.
(** the operator [in] on texts *)
Definition within (x s : string) : bool := match String.index 0 x s with Some _ => true | None => false end.

(** lines 54-62 *)
Definition actions : list (string * string) :=
  [("CREATE_GRID_SLICES", "step_1"); ("COMBINE_GRID_SLICES", "step_2"); ("CALCULATE_EXTRA_VALUES", "step_3"); ("TRAIN_INTERPOLATORS", "step_4");
   ("TRAIN_PROFILE_INTERPOLATORS", "step_5"); ("EXPORT_DATASET", "step_F"); ("RERUN", "rerun")].
(** lines 64-67 *)
Definition sub_steps : list (string * string) := [("CREATE_PLOTS", "_plots"); ("DO_CHECKS", "_checks")].
(** lines 69-112; [sn] are the names of the supernova models, posydon/grids/SN_MODELS.py *)
Definition interp_errors : list string :=
  ["INTERP_ERROR_age"; "INTERP_ERROR_star_1_mass"; "INTERP_ERROR_star_2_mass"; "INTERP_ERROR_period_days"; "INTERP_ERROR_S1_co_core_mass";
   "INTERP_ERROR_S1_co_core_radius"; "INTERP_ERROR_S1_he_core_mass"; "INTERP_ERROR_S1_he_core_radius"; "INTERP_ERROR_S1_center_h1";
   "INTERP_ERROR_S1_center_he4"; "INTERP_ERROR_S1_surface_h1"; "INTERP_ERROR_S1_surface_he4"; "INTERP_ERROR_S1_surf_avg_omega_div_omega_crit";
   "INTERP_ERROR_S1_log_Teff"; "INTERP_ERROR_S1_log_L"; "INTERP_ERROR_S1_log_R"; "INTERP_ERROR_S1_spin_parameter"; "INTERP_ERROR_S1_lambda_CE_10cent";
   "INTERP_ERROR_S2_co_core_mass"; "INTERP_ERROR_S2_co_core_radius"; "INTERP_ERROR_S2_he_core_mass"; "INTERP_ERROR_S2_he_core_radius";
   "INTERP_ERROR_S2_center_h1"; "INTERP_ERROR_S2_center_he4"; "INTERP_ERROR_S2_surface_h1"; "INTERP_ERROR_S2_surface_he4";
   "INTERP_ERROR_S2_surf_avg_omega_div_omega_crit"; "INTERP_ERROR_S2_log_Teff"; "INTERP_ERROR_S2_log_L"; "INTERP_ERROR_S2_log_R";
   "INTERP_ERROR_S2_spin_parameter"; "INTERP_ERROR_S2_lambda_CE_10cent"].
Definition plotting_sets (sn : list string) : list (string * list string) :=
  [("PLOT_AFTER_CREATE", []);
   ("PLOT_AFTER_COMBINE", ["combined_TF12"; "termination_flag_1"; "termination_flag_2"; "termination_flag_3"; "termination_flag_4"; "rl_relative_overflow_1";
   "rl_relative_overflow_2"; "lg_mtransfer_rate"]);
   ("PLOT_AFTER_EXTRA", flat_map (fun m => map (fun q => "S1_" ++ m ++ "_" ++ q) ["CO_type"; "SN_type"; "mass"; "spin"; "m_disk_radiated"]) sn);
   ("PLOT_AFTER_TRAINING", (interp_errors ++ flat_map (fun m => map (fun q => ("INTERP_ERROR_S1_" ++ m ++ "_" ++ q)%string) ["mass"; "spin"; "m_disk_radiated"]) sn)%list);
   ("PLOT_AFTER_PROFILE_TRAINING", [])].
(** lines 115-121 *)
Definition checking_sets : list (string * list string) :=
  [("CHECK_AFTER_CREATE", []); ("CHECK_AFTER_COMBINE", ["failure_rate"]); ("CHECK_AFTER_EXTRA", ["CO_type"; "SN_type"]); ("CHECK_AFTER_TRAINING", []);
   ("CHECK_AFTER_PROFILE_TRAINING", [])].
(** lines 123-124 *)
Definition attributes : list string := ["GRID_TYPES"; "METALLICITIES"; "GRID_SLICES"; "COMPRESSIONS"].

Notation lookup d k := (dget String.eqb d k).
Notation put d k v := (dset String.eqb d k v).

(** get_step_kwargs, lines 251-266: a missing attribute is taken from the last step *)
Fixpoint fill (cfg : ini) (last : string) (sec : section) (attrs : list string) : result section :=
  match attrs with
  | [] => Ok sec
  | a :: r =>
      match lookup sec a with
      | Some (VList _) => fill cfg last sec r
      | _ => match lookup cfg last with
             | Some ls => match lookup ls a with Some v => fill cfg last (put sec a v) r | None => Raise KeyError end
             | None => Raise KeyError
             end
      end
  end.
(** list.remove *)
Fixpoint remove_first (x : string) (l : list string) : list string :=
  match l with [] => [] | y :: r => if String.eqb x y then r else y :: remove_first x r end.
(** lines 269-275 and 286-292: the names of sets are replaced by their contents; a text which contains the name of a set has no method remove *)
Fixpoint expand (sets : list (string * list string)) (v : value) : result value :=
  match sets with
  | [] => Ok v
  | (n, c) :: r =>
      match v with
      | VList l => expand r (VList (if existsb (String.eqb n) l then (remove_first n l ++ c)%list else l))
      | VText s => if within n s then Raise AttributeError else expand r v
      | _ => Raise TypeError
      end
  end.
(** lines 268-284 and 285-301 *)
Definition replace_sets (cfg : ini) (sets : list (string * list string)) (key flag : string) (sec : section) : result section :=
  match lookup sec key with
  | None => Ok sec
  | Some v => rbind (expand sets v) (fun v' =>
      Ok (put sec key (match lookup cfg "pipeline setup" with
                       | Some s => match lookup s flag with Some f => if truthy f then v' else VList [] | None => v' end
                       | None => v'
                       end)))
  end.
(** lines 246-303; for all steps [('step' in step_number) or (step_number=='rerun')] holds *)
Definition get_step_kwargs (sn : list string) (cfg : ini) (step last : string) : result (ini * section) :=
  match lookup cfg step with
  | None => Raise KeyError
  | Some sec =>
      rbind (fill cfg last sec attributes) (fun s1 =>
      rbind (replace_sets cfg (plotting_sets sn) "CREATE_PLOTS" "MAKE_PLOTS" s1) (fun s2 =>
      rbind (replace_sets cfg checking_sets "DO_CHECKS" "MAKE_CHECKS" s2) (fun s3 =>
      Ok (put cfg step s3, s3))))
  end.
(** has_substep, lines 319-333 *)
Definition has_entry (sec : section) (sub : string) : bool := match lookup sec sub with Some (VList (_ :: _)) => true | _ => false end.
Definition has_substep (cfg : ini) (step : string) (subs : list string) : result bool :=
  match lookup cfg step with None => Raise KeyError | Some sec => Ok (existsb (has_entry sec) subs) end.

(** create_cleanup_slurm_job, lines 1283-1286: whether there is a job to clean up *)
Definition needs_cleanup (job : string) (group : bool) : bool :=
  String.eqb job "step_2" || String.eqb job "step_F" || String.eqb job "rerun" || within "plot" job || within "check" job || (String.eqb job "pipeline" && group).

Inductive waits := Nothing | AfterOk (job : string) | AfterAny (jobs : list string).
Definition line : Type := string * waits.
(** expand_runfile, lines 209-226 *)
Definition submit (job last : string) : line := (job, if String.eqb last "" then Nothing else AfterOk last).

Record state := { cfg : ini; lines : list line; last_step : string; kwargs : option section }.
Definition merged (s1 s2 : section) : section := dset_all String.eqb s1 s2.

(** lines 408-441: the plots and checks of a step *)
Definition sub_step (make : string -> section -> result unit) (setup : section) (step : string) (st : state) (sub : string * string) : result state :=
  rbind (has_substep (cfg st) step [fst sub]) (fun b =>
    if b then
      match kwargs st with
      | None => Raise (OtherError "UnboundLocalError")
      | Some kw =>
          let job := step ++ snd sub in
          rbind (make job (merged kw setup)) (fun _ =>
          Ok {| cfg := cfg st; last_step := last_step st; kwargs := kwargs st;
                lines := (lines st ++ [submit job (last_step st)] ++ (if needs_cleanup job false then [submit (job ++ "_cleanup") job] else []))%list |})
      end
    else Ok st).
Fixpoint fold_result {S E} (f : S -> E -> result S) (l : list E) (s : S) : result S :=
  match l with [] => Ok s | x :: r => rbind (f s x) (fold_result f r) end.
(** lines 365-441: a step *)
Definition one_step (sn : list string) (make : string -> section -> result unit) (setup : section) (st : state) (a : string * string) : result state :=
  let step := snd a in
  let todo := match lookup setup (fst a) with Some v => truthy v | None => false end in
  rbind (if todo then Ok true else has_substep (cfg st) step (map fst sub_steps)) (fun b =>
  rbind (if b then rbind (get_step_kwargs sn (cfg st) step (last_step st)) (fun r => Ok {| cfg := fst r; lines := lines st; last_step := last_step st; kwargs := Some (snd r) |})
         else Ok st) (fun st1 =>
  rbind (if todo then
           match kwargs st1 with
           | None => Raise (OtherError "UnboundLocalError")
           | Some kw =>
               rbind (make step (merged kw setup)) (fun _ =>
               Ok {| cfg := cfg st1; last_step := step; kwargs := kwargs st1;
                     lines := (lines st1 ++ [submit step (last_step st1)] ++ (if needs_cleanup step false then [submit (step ++ "_cleanup") step] else []))%list |})
           end
         else Ok st1) (fun st2 =>
  fold_result (sub_step make setup step) sub_steps st2))).
(** lines 335-483 *)
Definition given_group (s : section) : bool := match lookup s "GROUP" with None | Some VNone => false | _ => true end.
Definition script (sn : list string) (make : string -> section -> result unit) (c : ini) : result (list line) :=
  match lookup c "account", lookup c "pipeline setup" with
  | Some account, Some setup =>
      rbind (fold_result (one_step sn make setup) actions {| cfg := c; lines := []; last_step := ""; kwargs := None |}) (fun st =>
        match kwargs st with
        | None => Raise (OtherError "UnboundLocalError")
        | Some kw =>
            Ok (lines st ++ (if needs_cleanup "pipeline" (given_group (merged (merged kw setup) account)) then [("pipeline_cleanup", AfterAny (map fst (lines st)))] else []))%list
        end)
  | _, _ => Raise KeyError
  end.
