(** Model of what the detached step stores: posydon/binary_evol/DT/step_detached.py:569-769 (update_after_evo), the columns of the single star tracks
    in posydon/binary_evol/track_match.py:1552-1590, the names in posydon/utils/key_library.py.  Real numbers. *)
From Coq Require Import String Bool List ZArith PeanoNat Reals.
From Verif Require Import PyBase OrbitModel InspiralModel DetStepModel.
Import ListNotations.
Open Scope string_scope.
Open Scope R_scope.
Open Scope list_scope.

(** singlestar.py:40-111 *)
Definition STARPROPERTIES : list string := [
   "state"; "metallicity"; "mass"; "log_R"; "log_L"; "lg_mdot"; "lg_system_mdot"; "lg_wind_mdot"; "he_core_mass"; "he_core_radius"; "c_core_mass";
   "c_core_radius"; "o_core_mass"; "o_core_radius"; "co_core_mass"; "co_core_radius"; "center_h1"; "center_he4"; "center_c12"; "center_n14";
   "center_o16"; "surface_h1"; "surface_he4"; "surface_c12"; "surface_n14"; "surface_o16"; "log_LH"; "log_LHe"; "log_LZ"; "log_Lnuc"; "c12_c12";
   "center_gamma"; "avg_c_in_c_core"; "surf_avg_omega"; "surf_avg_omega_div_omega_crit"; "total_moment_of_inertia"; "log_total_angular_momentum";
   "spin"; "conv_env_top_mass"; "conv_env_bot_mass"; "conv_env_top_radius"; "conv_env_bot_radius"; "conv_env_turnover_time_g";
   "conv_env_turnover_time_l_b"; "conv_env_turnover_time_l_t"; "envelope_binding_energy"; "mass_conv_reg_fortides"; "thickness_conv_reg_fortides";
   "radius_conv_reg_fortides"; "lambda_CE_1cent"; "lambda_CE_10cent"; "lambda_CE_30cent"; "lambda_CE_pure_He_star_10cent"; "profile";
   "total_mass_h1"; "total_mass_he4"].
(** binarystar.py:88-118 *)
Definition BINARYPROPERTIES : list string := [
   "state"; "event"; "time"; "separation"; "orbital_period"; "eccentricity"; "V_sys"; "rl_relative_overflow_1"; "rl_relative_overflow_2";
   "lg_mtransfer_rate"; "mass_transfer_case"; "trap_radius"; "acc_radius"; "t_sync_rad_1"; "t_sync_conv_1"; "t_sync_rad_2"; "t_sync_conv_2";
   "nearest_neighbour_distance"].
(** key_library.py:13-89 *)
Definition DEFAULT_TRANSLATION : list (string * option string) := [
   ("time", Some "time"); ("orbital_period", Some "porb"); ("eccentricity", Some "ecc"); ("separation", Some "sep"); ("state", None);
   ("event", None); ("rl_relative_overflow_1", Some "rl_relative_overflow_1"); ("rl_relative_overflow_2", Some "rl_relative_overflow_2");
   ("lg_mtransfer_rate", Some "lg_mtransfer_rate"); ("V_sys", None); ("mass", Some "mass"); ("log_R", Some "log_R"); ("R", Some "R");
   ("lg_mdot", Some "mdot"); ("log_L", Some "log_L"); ("lg_wind_mdot", Some "mdot"); ("lg_system_mdot", Some "lg_mdot");
   ("he_core_mass", Some "he_core_mass"); ("he_core_radius", Some "he_core_radius"); ("c_core_mass", Some "c_core_mass");
   ("c_core_radius", Some "c_core_radius"); ("o_core_mass", Some "o_core_mass"); ("o_core_radius", Some "o_core_radius");
   ("center_h1", Some "center_h1"); ("center_he4", Some "center_he4"); ("center_c12", Some "center_c12"); ("center_o16", Some "center_o16");
   ("center_n14", Some "center_n14"); ("surface_h1", Some "surface_h1"); ("surface_he4", Some "surface_he4"); ("surface_c12", Some "surface_c12");
   ("surface_n14", Some "surface_n14"); ("surface_o16", Some "surface_o16"); ("center_gamma", Some "center_gamma"); ("log_LH", Some "log_LH");
   ("log_LHe", Some "log_LHe"); ("log_LZ", Some "log_LZ"); ("log_Lnuc", Some "log_Lnuc"); ("c12_c12", Some "c12_c12");
   ("avg_c_in_c_core", Some "avg_c_in_c_core"); ("surf_avg_omega_div_omega_crit", Some "surf_avg_omega_div_omega_crit");
   ("surf_avg_omega", Some "omega"); ("total_moment_of_inertia", Some "inertia"); ("log_total_angular_momentum", Some "log_total_angular_momentum");
   ("profile", None); ("metallicity", None); ("spin", Some "spin_parameter"); ("conv_env_top_mass", Some "conv_env_top_mass");
   ("conv_env_bot_mass", Some "conv_env_bot_mass"); ("conv_env_top_radius", Some "conv_env_top_radius");
   ("conv_env_bot_radius", Some "conv_env_bot_radius"); ("conv_env_turnover_time_g", Some "conv_env_turnover_time_g");
   ("conv_env_turnover_time_l_b", Some "conv_env_turnover_time_l_b"); ("conv_env_turnover_time_l_t", Some "conv_env_turnover_time_l_t");
   ("envelope_binding_energy", Some "envelope_binding_energy"); ("mass_conv_reg_fortides", Some "mass_conv_reg_fortides");
   ("thickness_conv_reg_fortides", Some "thickness_conv_reg_fortides"); ("radius_conv_reg_fortides", Some "radius_conv_reg_fortides");
   ("lambda_CE_1cent", Some "lambda_CE_1cent"); ("lambda_CE_10cent", Some "lambda_CE_10cent"); ("lambda_CE_30cent", Some "lambda_CE_30cent");
   ("co_core_mass", Some "co_core_mass"); ("co_core_radius", Some "co_core_radius");
   ("lambda_CE_pure_He_star_10cent", Some "lambda_CE_pure_He_star_10cent"); ("trap_radius", Some "trap_radius"); ("acc_radius", Some "acc_radius");
   ("t_sync_rad_1", Some "t_sync_rad_1"); ("t_sync_conv_1", Some "t_sync_conv_1"); ("t_sync_rad_2", Some "t_sync_rad_2");
   ("t_sync_conv_2", Some "t_sync_conv_2"); ("mass_transfer_case", None); ("nearest_neighbour_distance", None);
   ("total_mass_h1", Some "total_mass_h1"); ("total_mass_he4", Some "total_mass_he4")].
(** key_library.py:92-145 *)
Definition DEFAULT_TRANSLATED_KEYS : list string := [
   "age"; "mass"; "mdot"; "inertia"; "conv_mx1_top_r"; "conv_mx1_bot_r"; "surface_h1"; "center_h1"; "mass_conv_reg_fortides";
   "thickness_conv_reg_fortides"; "radius_conv_reg_fortides"; "log_Teff"; "surface_he3"; "surface_he4"; "center_he4"; "avg_c_in_c_core"; "log_LH";
   "log_LHe"; "log_LZ"; "log_Lnuc"; "c12_c12"; "center_c12"; "he_core_mass"; "log_L"; "log_R"; "c_core_mass"; "o_core_mass"; "co_core_mass";
   "c_core_radius"; "o_core_radius"; "co_core_radius"; "spin_parameter"; "log_total_angular_momentum"; "center_n14"; "center_o16"; "surface_n14";
   "surface_o16"; "conv_env_top_mass"; "conv_env_bot_mass"; "conv_env_top_radius"; "conv_env_bot_radius"; "conv_env_turnover_time_g";
   "conv_env_turnover_time_l_b"; "conv_env_turnover_time_l_t"; "envelope_binding_energy"; "lambda_CE_1cent"; "lambda_CE_10cent"; "lambda_CE_30cent";
   "lambda_CE_pure_He_star_10cent"; "center_gamma"; "total_mass_h1"; "total_mass_he4"].

Definition mem (k : string) (l : list string) : bool := existsb (String.eqb k) l.
(** The names the interpolation of a track returns, with what lines 620-636 add to them. *)
Definition interpolated : list string := tl DEFAULT_TRANSLATED_KEYS ++ ["L"; "R"; "Idot"; "sep"; "ecc"; "time"; "omega"; "porb"].
(** track_match.py:1565-1569: the values of the columns of the grid at an age ([raw], in the units of the grid) as they are interpolated.  The
    interpolation itself is not modelled: ages are those of points of the track. *)
Definition column (raw : string -> R) (k : string) : R :=
  if String.eqb k "inertia" then raw k / (Msun * Rsun ^ 2)
  else if String.eqb k "conv_env_turnover_time_l_b" then raw k / secyer
  else if String.eqb k "R" then pow10 (raw "log_R")
  else if String.eqb k "L" then pow10 (raw "log_L")
  else raw k.

Inductive stored := Kept | NaN | PyNone | Num (x : R) | Failed (e : exn).
(** common_functions.py:104-127 *)
Definition zero_negative_values (x : R) : R := if Rlt_dec x 0 then 0 else x.
(** Lines 687-694, 706-710: numbers that are not positive become -99, and so does their logarithm. *)
Definition log_or_99 (x : R) : R := if Rlt_dec 0 x then log10 x else -99.

(** Lines 638-716, for a star that is no compact object: [omega] is its spin in rad / yr. *)
Definition star_property (raw : string -> R) (omega : R) (key : string) : stored :=
  let col := column raw in
  if mem key ["event"; "mass_transfer_case"; "nearest_neighbour_distance"; "state"; "metallicity"; "V_sys"] then Kept
  else if String.eqb key "surf_avg_omega_div_omega_crit" then
    Num (zero_negative_values (omega / secyer / sqrt (standard_cgrav * col "mass" * Msun / (col "R" * Rsun) ^ 3)))
  else if String.eqb key "surf_avg_omega" then Num (zero_negative_values (omega / secyer))
  else if String.eqb key "total_moment_of_inertia" then Num (zero_negative_values (col "inertia" * (Msun * Rsun ^ 2)))
  else if String.eqb key "log_total_angular_momentum" then
    Num (log_or_99 (zero_negative_values (omega / secyer * (col "inertia" * (Msun * Rsun ^ 2)))))
  else if String.eqb key "spin" then
    Num (zero_negative_values (clight * (omega / secyer) * col "inertia" * (Msun * Rsun ^ 2) / (standard_cgrav * (col "mass" * Msun) ^ 2)))
  else if mem key ["lg_mdot"; "lg_wind_mdot"] then Num (log_or_99 (Rabs (col "mdot")))
  else match dget String.eqb DEFAULT_TRANSLATION key with
       | None => Failed KeyError
       | Some name =>
         match name with
         | Some n => if mem n interpolated then Num (col n) else NaN
         | None => if String.eqb key "profile" then PyNone else NaN
         end
       end.

(** The same lines for the binary: its orbit, its overflow and the time, which are numbers, the rest. *)
Inductive binary_source := BKept | BNaN | BOrbit (column : string) | BOverflow (star : nat) | BFailed.
Definition binary_property (key : string) : binary_source :=
  if mem key ["event"; "mass_transfer_case"; "nearest_neighbour_distance"; "state"; "metallicity"; "V_sys"] then BKept
  else if String.eqb key "rl_relative_overflow_1" then BOverflow 1
  else if String.eqb key "rl_relative_overflow_2" then BOverflow 2
  else match dget String.eqb DEFAULT_TRANSLATION key with
       | None => BFailed
       | Some name => if mem key ["separation"; "orbital_period"; "eccentricity"; "time"] then match name with Some n => BOrbit n | None => BFailed end else BNaN
       end.

(** ** Rows of the history *)
(** Lines 718-728: [vals] are the values at the stored times; a single one is left to BinaryStar.append_state. *)
Definition extended {A} (h vals : list A) : list A := if Nat.ltb 1 (length vals) then h ++ vals else h.
(** Python's l[i] = v for a negative index -k. *)
Definition set_from_end {A} (l : list A) (k : nat) (v : A) : list A := firstn (length l - k) l ++ v :: skipn (S (length l - k)) l.
(** Lines 336-339: the state of every stored time but the first is inferred anew, and that of the star itself; binarystar.py:302-314 then
    appends the star.  [infer i] is the state inferred from the i-th stored time. *)
Definition state_history_after {S : Type} (h : list S) (old : S) (infer : nat -> S) (n : nat) : list S :=
  let h1 := extended h (repeat old n) in
  fold_left (fun l k => set_from_end l k (infer (n - k)%nat)) (rev (seq 1 (n - 1))) h1 ++ [infer (n - 1)%nat].
(** The times, for comparison: extended and appended. *)
Definition time_history_after {T : Type} (h : list T) (t : list T) (d : T) : list T := extended h t ++ [last t d].
