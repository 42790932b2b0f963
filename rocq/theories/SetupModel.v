(** Setting up a population run, posydon/CLI/popsyn/setup.py:51-124 (posydon-popsyn setup), with the scripts of posydon/CLI/io.py.

    The files of the run are written into the current working directory.  Warnings and messages are left out. *)
From Coq Require Import String Ascii List Bool ZArith QArith.
From Verif Require Import PyBase PopModel SimPropModel SNNameModel RescueModel.
Import ListNotations.
Open Scope list_scope.
Open Scope string_scope.

(** create_run_script_text, io.py:101-121; names with line feeds are left out (textwrap.dedent would see them) *)
Definition create_run_script_text (ini : string) : string := script [
  "from posydon.popsyn.binarypopulation import BinaryPopulation";
  "from posydon.popsyn.io import binarypop_kwargs_from_ini";
  "from posydon.utils.common_functions import convert_metallicity_to_string";
  "from posydon.binary_evol.simulationproperties import SimulationProperties";
  "import argparse";
  "";
  "if __name__ == ""__main__"":";
  "    parser = argparse.ArgumentParser()";
  "    parser.add_argument('metallicity', type=float)";
  "    args = parser.parse_args()";
  "    ini_kw = binarypop_kwargs_from_ini('" ++ ini ++ "')";
  "    ini_kw['metallicity'] = args.metallicity";
  "    str_met = convert_metallicity_to_string(args.metallicity)";
  "    ini_kw['temp_directory'] = str_met+'_Zsun_' + ini_kw['temp_directory']";
  "    sim_props = SimulationProperties.from_ini('" ++ ini ++ "')";
  "    synpop = BinaryPopulation(population_properties=sim_props, **ini_kw)";
  "    synpop.evolve()"].
(** create_merge_script_text, io.py:73-99 *)
Definition create_merge_script_text (ini : string) : string := script [
  "from posydon.popsyn.binarypopulation import BinaryPopulation";
  "from posydon.popsyn.io import binarypop_kwargs_from_ini";
  "from posydon.utils.common_functions import convert_metallicity_to_string";
  "import argparse";
  "import os";
  "";
  "if __name__ == ""__main__"":";
  "    parser = argparse.ArgumentParser()";
  "    parser.add_argument(""metallicity"", type=float)";
  "    args = parser.parse_args()";
  "    ini_kw = binarypop_kwargs_from_ini(""" ++ ini ++ """)";
  "    ini_kw[""metallicity""] = args.metallicity";
  "    str_met = convert_metallicity_to_string(args.metallicity)";
  "    ini_kw[""temp_directory""] = str_met + ""_Zsun_"" + ini_kw[""temp_directory""]";
  "    synpop = BinaryPopulation(**ini_kw)";
  "    path_to_batch = ini_kw[""temp_directory""]";
  "    tmp_files = [os.path.join(path_to_batch, f) for f in os.listdir(path_to_batch)";
  "                 if os.path.isfile(os.path.join(path_to_batch, f))]";
  "    tmp_files = sorted(tmp_files, key=lambda x: int(x.split("".h5"")[0].split(""."")[-1]))";
  "    synpop.combine_saved_files(str_met + ""_Zsun_population.h5"", tmp_files)";
  "    print(""done"")";
  "    if len(os.listdir(path_to_batch)) == 0:";
  "        os.rmdir(path_to_batch)"].

(** What is read from a file of parameters: the options of step_SN (simprop_kwargs_from_ini) and those of the population (binarypop_kwargs_from_ini);
    None for those that are missing.  Reading it is modelled elsewhere (IniModel). *)
Record ini := Ini { step_SN : option dict; secondary_mass_scheme : option string; secondary_mass_min : option Q; primary_mass_max : option Q;
                    metallicities : option (list Z); number_of_binaries : option Z }.
Definition key {A} (o : option A) : result A := match o with Some a => Ok a | None => Raise KeyError end.
Inductive effect := MkDir (name : string) | Wrote (name text : string).
(** Arguments of the command line: the time for merging is apart *)
Record arguments := Arguments { ini_file : string; job_array : Z; common : settings; merge_walltime : option string; path : string; data : string }.

(** validate_ini_file, setup.py:51-71 *)
Definition validate_ini_file (f : option ini) : result ini :=
  match f with
  | None => Raise FileNotFoundError
  | Some i => rbind (key (step_SN i)) (fun m => rbind (check_SN_MODEL_validity m) (fun b => if b then Ok i else Raise ValueError))
  end.
(** lines 86-110: everything that is checked before files are written.  Floating-point division by numbers is taken as exact. *)
Definition checks (f : option ini) (job_array : Z) : result (list Z * Z) :=
  rbind (validate_ini_file f) (fun i =>
  rbind (key (secondary_mass_scheme i)) (fun s =>
  rbind (if String.eqb s "flat_mass_ratio" then
           rbind (key (secondary_mass_min i)) (fun a => rbind (key (primary_mass_max i)) (fun b => if Qeq_bool b 0 then Raise (OtherError "ZeroDivisionError") else Ok tt))
         else Ok tt) (fun _ =>
  rbind (key (metallicities i)) (fun l =>
  rbind (key (number_of_binaries i)) (fun n =>
  if (job_array =? 0)%Z then Raise (OtherError "ZeroDivisionError")
  else if Qle_bool 1 (inject_Z n / inject_Z job_array)%Q then Ok (l, n) else Raise ValueError))))).
Definition merge_settings (a : arguments) : settings :=
  let s := common a in Settings (merge_walltime a) (s_mem s) (s_partition s) (s_account s) (s_email s) (s_exclude s) (s_limit s).
(** lines 115-121 and create_slurm_scripts, io.py:432-453 *)
Fixpoint scripts (a : arguments) (l : list Z) : result unit * list effect :=
  match l with
  | [] => (Ok tt, [])
  | z :: r =>
      match zstring (SimPropModel.VNum z) with
      | Raise e => (Raise e, [])
      | Ok met =>
          match create_slurm_array z (job_array a) (common a) (path a) (data a), create_slurm_merge z (merge_settings a) (path a) (data a) with
          | Ok (n1, t1), Ok (n2, t2) => let (x, es) := scripts a r in (x, MkDir (met ++ "_logs") :: Wrote n1 t1 :: Wrote n2 t2 :: es)
          | Ok (n1, t1), Raise e => (Raise e, [MkDir (met ++ "_logs"); Wrote n1 t1])
          | Raise e, _ => (Raise e, [MkDir (met ++ "_logs")])
          end
      end
  end.
(** setup_popsyn_function, setup.py:77-124 *)
Definition setup_popsyn_function (f : option ini) (a : arguments) : result unit * list effect :=
  match checks f (job_array a) with
  | Raise e => (Raise e, [])
  | Ok (l, _) =>
      let python := [Wrote "run_metallicity.py" (create_run_script_text (ini_file a)); Wrote "merge_metallicity.py" (create_merge_script_text (ini_file a))] in
      match scripts a l with
      | (Raise e, es) => (Raise e, (python ++ es)%list)
      | (Ok _, es) =>
          match create_bash_submit_script l with
          | Ok t => (Ok tt, (python ++ es ++ [Wrote "slurm_submit.sh" t])%list)
          | Raise e => (Raise e, (python ++ es ++ [Wrote "slurm_submit.sh" ""])%list)
          end
      end
  end.
