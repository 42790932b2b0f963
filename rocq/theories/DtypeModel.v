(** Data types of the columns: clean_binary_history_df and clean_binary_oneline_df,
    posydon/popsyn/io.py:168-344. *)
From Coq Require Import String List Bool.
From Verif Require Import PyBase PyReplace.
Import ListNotations.
Open Scope string_scope.
Open Scope list_scope.

(** BINARYPROPERTIES_DTYPES, io.py:21-52 *)
Definition binary_dtypes : list (string * string) :=
  [("binary_index", "int64"); ("state", "string"); ("event", "string"); ("time", "float64"); ("separation",
   "float64"); ("orbital_period", "float64"); ("eccentricity", "float64"); ("V_sys", "object");
   ("rl_relative_overflow_1", "float64"); ("rl_relative_overflow_2", "float64"); ("lg_mtransfer_rate",
   "float64"); ("mass_transfer_case", "string"); ("trap_radius", "float64"); ("acc_radius", "float64");
   ("t_sync_rad_1", "float64"); ("t_sync_conv_1", "float64"); ("t_sync_rad_2", "float64"); ("t_sync_conv_2",
   "float64"); ("nearest_neighbour_distance", "object")].
(** STARPROPERTIES_DTYPES, io.py:60-131 *)
Definition star_dtypes : list (string * string) :=
  [("state", "string"); ("metallicity", "float64"); ("mass", "float64"); ("log_R", "float64"); ("log_L",
   "float64"); ("lg_mdot", "float64"); ("lg_system_mdot", "float64"); ("lg_wind_mdot", "float64");
   ("he_core_mass", "float64"); ("he_core_radius", "float64"); ("c_core_mass", "float64"); ("c_core_radius",
   "float64"); ("o_core_mass", "float64"); ("o_core_radius", "float64"); ("co_core_mass", "float64");
   ("co_core_radius", "float64"); ("center_h1", "float64"); ("center_he4", "float64"); ("center_c12",
   "float64"); ("center_n14", "float64"); ("center_o16", "float64"); ("surface_h1", "float64");
   ("surface_he4", "float64"); ("surface_c12", "float64"); ("surface_n14", "float64"); ("surface_o16",
   "float64"); ("log_LH", "float64"); ("log_LHe", "float64"); ("log_LZ", "float64"); ("log_Lnuc", "float64");
   ("c12_c12", "float64"); ("center_gamma", "float64"); ("avg_c_in_c_core", "float64"); ("surf_avg_omega",
   "float64"); ("surf_avg_omega_div_omega_crit", "float64"); ("total_moment_of_inertia", "float64");
   ("log_total_angular_momentum", "float64"); ("spin", "float64"); ("conv_env_top_mass", "float64");
   ("conv_env_bot_mass", "float64"); ("conv_env_top_radius", "float64"); ("conv_env_bot_radius", "float64");
   ("conv_env_turnover_time_g", "float64"); ("conv_env_turnover_time_l_b", "float64");
   ("conv_env_turnover_time_l_t", "float64"); ("envelope_binding_energy", "float64");
   ("mass_conv_reg_fortides", "float64"); ("thickness_conv_reg_fortides", "float64");
   ("radius_conv_reg_fortides", "float64"); ("lambda_CE_1cent", "float64"); ("lambda_CE_10cent", "float64");
   ("lambda_CE_30cent", "float64"); ("lambda_CE_pure_He_star_10cent", "float64"); ("profile", "object");
   ("total_mass_h1", "float64"); ("total_mass_he4", "float64")].
(** EXTRA_BINARY_COLUMNS_DTYPES, io.py:133-136 *)
Definition extra_binary_dtypes : list (string * string) :=
  [("step_names", "string"); ("step_times", "float64")].
(** EXTRA_STAR_COLUMNS_DTYPES, io.py:139-142 *)
Definition extra_star_dtypes : list (string * string) :=
  [("m_disk_radiated", "float64"); ("m_disk_accreted", "float64")].
(** SCALAR_NAMES_DTYPES, io.py:144-165 *)
Definition scalar_dtypes : list (string * string) :=
  [("natal_kick_velocity", "float64"); ("natal_kick_azimuthal_angle", "float64"); ("natal_kick_polar_angle",
   "float64"); ("natal_kick_mean_anomaly", "float64"); ("natal_kick_array_0", "float64");
   ("natal_kick_array_1", "float64"); ("natal_kick_array_2", "float64"); ("natal_kick_array_3", "float64");
   ("SN_type", "string"); ("f_fb", "float64"); ("spin_orbit_tilt_first_SN", "float64");
   ("spin_orbit_tilt_second_SN", "float64"); ("M4", "float64"); ("mu4", "float64");
   ("avg_c_in_c_core_at_He_depletion", "float64"); ("co_core_mass_at_He_depletion", "float64"); ("h1_mass_ej",
   "float64"); ("he4_mass_ej", "float64")].

(** {**a, **b} *)
Notation merge := (dset_all String.eqb).
Notation get := (dget String.eqb).
Notation mem := (inb String.eqb).

(** What astype does with a column: nothing for a column without a data type or with None; "string"
    columns are turned into "object" afterwards (io.py:237-243, 337-342). *)
Inductive stored := AsInferred | Stored (t : string).
Definition astype (d : option string) : stored :=
  match d with None => AsInferred | Some t => Stored (if String.eqb t "string" then "object" else t) end.

Section Clean.
  (** The types given by the user for extra columns. *)
  Variables (extra_binary extra_S1 extra_S2 : list (string * string)).
  Definition binary_all := merge (merge binary_dtypes extra_binary_dtypes) extra_binary.

  (** io.py:168-244: the data type of one column of a history table. *)
  Definition history_star (extra : list (string * string)) := merge (merge star_dtypes extra_star_dtypes) extra.
  Definition history_dtype (column : string) : option string :=
    if mem column (dkeys binary_all) then get binary_all column
    else if mem column (map (append "S1_") (dkeys (history_star extra_S1)))
         then get (history_star extra_S1) (py_replace "S1_" "" column)
    else if mem column (map (append "S2_") (dkeys (history_star extra_S2)))
         then get (history_star extra_S2) (py_replace "S2_" "" column)
    else None.
  Definition history_column (column : string) : stored := astype (history_dtype column).

  (** io.py:247-344: the data type of one column of a one-line table. *)
  Definition oneline_star (extra : list (string * string)) :=
    merge (merge (merge star_dtypes extra_star_dtypes) scalar_dtypes) extra.
  Definition strip (column : string) : string :=
    py_replace "S2_" "" (py_replace "S1_" "" (py_replace "_f" "" (py_replace "_i" "" column))).
  Definition ends (p : string) (l : list string) : list string :=
    map (fun k => p ++ k ++ "_i")%string l ++ map (fun k => p ++ k ++ "_f")%string l.
  Definition oneline_dtype (column : string) : option string :=
    if mem column (map (append "S1_") (dkeys scalar_dtypes) ++ map (append "S2_") (dkeys scalar_dtypes))
    then get scalar_dtypes (py_replace "S2_" "" (py_replace "S1_" "" column))
    else if mem column (ends "" (dkeys binary_all)) then get binary_all (strip column)
    else if mem column (ends "S1_" (dkeys (oneline_star extra_S1))) then get (oneline_star extra_S1) (strip column)
    else if mem column (ends "S2_" (dkeys (oneline_star extra_S2))) then get (oneline_star extra_S2) (strip column)
    else None.
  Definition oneline_column (column : string) : stored := astype (oneline_dtype column).
End Clean.
