(** Steps with a grid of MESA models, posydon/binary_evol/MESA/step_mesa.py: how they are set up ([MesaGridStep.__init__], 179-278), the time they
    take ([get_final_MESA_step_time], 333-356), and how the values of an interpolator are stored in a binary ([initial_final_interpolation], 879-1052).

    An object is a function from names of attributes to values; the values an interpolator gives are a dictionary.  Functions modelled elsewhere
    (states, mass-transfer cases, accretion) are inputs.  Warnings and printing are left out. *)
From Coq Require Import Reals String Bool List.
From Verif Require Import PyBase PyStr StarInitModel.
From Verif Require BinaryModel SNNameModel BHModel.
Import ListNotations.
Open Scope string_scope.
Open Scope R_scope.
Open Scope list_scope.

(** POSYDON_TO_MESA, lines 41-121 *)
Inductive mesa := Absent | Flag | Column (s : string).
Definition same (l : list string) : list (string * mesa) := map (fun k => (k, Column k)) l.
Definition POSYDON_TO_MESA_binary : list (string * mesa) :=
  [("state", Flag); ("event", Flag); ("time", Column "age"); ("separation", Column "binary_separation"); ("orbital_period", Column "period_days");
   ("eccentricity", Flag); ("V_sys", Flag)]
  ++ same ["rl_relative_overflow_1"; "rl_relative_overflow_2"; "lg_mtransfer_rate"; "trap_radius"; "acc_radius"; "t_sync_rad_1"; "t_sync_conv_1";
           "t_sync_rad_2"; "t_sync_conv_2"]
  ++ [("mass_transfer_case", Flag); ("nearest_neighbour_distance", Flag)].
Definition POSYDON_TO_MESA_star : list (string * mesa) :=
  [("state", Flag); ("metallicity", Flag)]
  ++ same ["mass"; "log_R"; "log_L"] ++ [("lg_mdot", Column "lg_mstar_dot")]
  ++ same ["lg_system_mdot"; "lg_wind_mdot"; "he_core_mass"; "he_core_radius"; "c_core_mass"; "c_core_radius"; "o_core_mass"; "o_core_radius";
           "co_core_mass"; "co_core_radius"; "center_h1"; "center_he4"; "center_c12"; "center_n14"; "center_o16"; "surface_h1"; "surface_he4";
           "surface_c12"; "surface_n14"; "surface_o16"; "log_LH"; "log_LHe"; "log_LZ"; "log_Lnuc"; "c12_c12"; "center_gamma"]
  ++ [("avg_c_in_c_core", Absent)]
  ++ same ["surf_avg_omega"; "surf_avg_omega_div_omega_crit"; "total_moment_of_inertia"; "log_total_angular_momentum"]
  ++ [("spin", Column "spin_parameter")]
  ++ same ["conv_env_top_mass"; "conv_env_bot_mass"; "conv_env_top_radius"; "conv_env_bot_radius"; "conv_env_turnover_time_g";
           "conv_env_turnover_time_l_b"; "conv_env_turnover_time_l_t"; "envelope_binding_energy"; "mass_conv_reg_fortides";
           "thickness_conv_reg_fortides"; "radius_conv_reg_fortides"; "lambda_CE_1cent"; "lambda_CE_10cent"; "lambda_CE_30cent";
           "lambda_CE_pure_He_star_10cent"]
  ++ [("profile", Flag)] ++ same ["total_mass_h1"; "total_mass_he4"].

(** Dictionaries; a number as text for a column *)
Definition values := string -> option val.
Definition col (d : values) (k : string) : result val := match d k with Some v => Ok v | None => Raise KeyError end.
Definition text (m : mesa) : string := match m with Column s => s | _ => "" end.
Definition mesa_of (t : list (string * mesa)) (k : string) : result mesa := match dget String.eqb t k with Some m => Ok m | None => Raise KeyError end.
Inductive which := One | Two.
Definition digit (k : which) : string := match k with One => "1" | Two => "2" end.
Definition star_mass (k : which) : string := "star_" ++ digit k ++ "_mass".
Definition get (o : attrs) (k : string) : result val := match o k with Some v => Ok v | None => Raise AttributeError end.
(** [h[-1]]; None is no list *)
Definition last_of (v : val) : result val :=
  match v with Lst l => match rev l with x :: _ => Ok x | [] => Raise IndexError end | _ => Raise TypeError end.
(** [a + b] of numbers *)
Definition plus (a b : val) : result val :=
  match a, b with
  | Num (Some x), Num (Some y) => Ok (num (x + y))
  | Num _, Num _ => Ok nan
  | _, _ => Raise TypeError
  end.
Definition among (k : string) (l : list string) : bool := existsb (String.eqb k) l.

(** Lines 888-904: one property of the binary *)
Definition set_binary (fv : values) (o : attrs) (key : string) : result attrs :=
  rbind (mesa_of POSYDON_TO_MESA_binary key) (fun m =>
  match m with
  | Absent => Ok (setattr o key Nil)
  | _ =>
    if String.eqb key "time" then rbind (get o key) (fun now => rbind (col fv (text m)) (fun dt => rbind (plus now dt) (fun t => Ok (setattr o key t))))
    else if String.eqb key "nearest_neighbour_distance" then Ok (setattr o key (Lst [nan; nan; nan]))
    else if among key ["eccentricity"; "V_sys"] then rbind (get o (hist key)) (fun h => rbind (last_of h) (fun v => Ok (setattr o key v)))
    else if among key ["state"; "event"; "mass_transfer_case"] then Ok o
    else rbind (col fv (text m)) (fun v => Ok (setattr o key v))
  end).
(** Lines 907-926: one property of a star which is no compact object *)
Definition set_normal (fv : values) (k : which) (o : attrs) (key : string) : result attrs :=
  rbind (mesa_of POSYDON_TO_MESA_star key) (fun m =>
  match m with
  | Absent => Ok (setattr o key Nil)
  | _ =>
    if String.eqb key "mass" then rbind (col fv (star_mass k)) (fun v => Ok (setattr o key v))
    else if String.eqb key "metallicity" then rbind (get o key) (fun v => Ok (setattr o key v))
    else if String.eqb key "profile" then Ok (setattr o key Nil)
    else if among key ["lg_mdot"; "lg_system_mdot"; "lg_wind_mdot"] then rbind (col fv (text m ++ "_" ++ digit k)) (fun v => Ok (setattr o key v))
    else if String.eqb key "state" then Ok o
    else rbind (col fv ("S" ++ digit k ++ "_" ++ text m)) (fun v => Ok (setattr o key v))
  end).
(** spin_stable_mass_transfer (common_functions.py:1025-1049) on values: None is refused, NaN passes all comparisons and makes the outcome NaN *)
Definition refused (bad : R -> bool) (v : val) : result bool :=
  match v with Nil => Ok true | Num None => Ok false | Num (Some x) => Ok (bad x) | _ => Raise TypeError end.
Definition spin_val (s : BHModel.spin_value) : val :=
  match s with BHModel.NoSpin => Nil | BHModel.NaNSpin => nan | BHModel.Spin a => num a end.
Definition new_spin (spin pre post : val) : result val :=
  rbind (refused (fun m => BHModel.le m 0) pre) (fun r1 => if r1 then Ok Nil else
  rbind (refused (fun m => BHModel.le m 0) post) (fun r2 => if r2 then Ok Nil else
  rbind (refused (fun a => BHModel.lt a 0) spin) (fun r3 => if r3 then Ok Nil else
  match spin, pre, post with
  | Num (Some a), Num (Some m), Num (Some m') => Ok (spin_val (BHModel.spin_stable_mass_transfer (Some a) (Some m) (Some m')))
  | _, _, _ => Ok nan
  end))).
(** Lines 927-955: one property of a compact object; [prev] is its mass before the step *)
Definition set_compact (fv : values) (k : which) (prev : val) (o : attrs) (key : string) : result attrs :=
  rbind (mesa_of POSYDON_TO_MESA_star key) (fun m =>
  match m with
  | Absent => Ok (setattr o key Nil)
  | _ =>
    if String.eqb key "mass" then rbind (col fv (star_mass k)) (fun v => Ok (setattr o key v))
    else if String.eqb key "spin" then
      rbind (get o "spin") (fun s => rbind (col fv (star_mass k)) (fun v => rbind (new_spin s prev v) (fun a => Ok (setattr o key a))))
    else if String.eqb key "log_R" then
      rbind (col fv (star_mass k)) (fun v => rbind (infer_CO v []) (fun st => rbind (CO_log_R v st) (fun r => Ok (setattr o key r))))
    else if String.eqb key "metallicity" then rbind (get o key) (fun v => Ok (setattr o key v))
    else if String.eqb key "profile" then Ok (setattr o key Nil)
    else if among key ["lg_mdot"; "lg_system_mdot"; "lg_wind_mdot"] then rbind (col fv (text m ++ "_" ++ digit k)) (fun v => Ok (setattr o key v))
    else Ok o
  end).
Fixpoint each (f : attrs -> string -> result attrs) (l : list string) (o : attrs) : result attrs :=
  match l with [] => Ok o | k :: r => rbind (f o k) (each f r) end.
Definition set_star (fv : values) (k : which) (co : bool) (o : attrs) : result attrs :=
  rbind (get o "mass") (fun prev => each (if co then set_compact fv k prev else set_normal fv k) BinaryModel.STARPROPERTIES o).

(** What is computed by functions modelled elsewhere: the state of a star, (state, event, mass-transfer case) of a binary, and the accretion rate and its
    limit (binary, accretor, donor) *)
Record physics := Physics {
  star_state : attrs -> bool -> result string;
  case_of : attrs -> attrs -> attrs -> string -> result (val * val * val);
  captured : attrs -> attrs -> attrs -> result R;
  limit : attrs -> attrs -> attrs -> result R }.
Definition class := string -> option string.
Definition class_of (c : class) (k : string) : result string := match c k with Some v => Ok v | None => Raise KeyError end.

(** Lines 999-1018 *)
Definition POST_PROCESSED : list string :=
  ["avg_c_in_c_core_at_He_depletion"; "co_core_mass_at_He_depletion"; "m_core_CE_1cent"; "m_core_CE_10cent"; "m_core_CE_30cent";
   "m_core_CE_pure_He_star_10cent"; "r_core_CE_1cent"; "r_core_CE_10cent"; "r_core_CE_30cent"; "r_core_CE_pure_He_star_10cent"].
Definition set_post (fv : values) (k : which) (unstable : bool) (o : attrs) (key : string) : result attrs :=
  if unstable && among key ["avg_c_in_c_core_at_He_depletion"; "co_core_mass_at_He_depletion"] then Ok (setattr o key Nil)
  else rbind (col fv ("S" ++ digit k ++ "_" ++ key)) (fun v => Ok (setattr o key v)).
(** Lines 1021-1050: the core collapse of one star in one model *)
Definition SN_KEYS : list string := ["state"; "SN_type"; "f_fb"; "mass"; "spin"; "m_disk_accreted"; "m_disk_radiated"; "M4"; "mu4"; "h1_mass_ej"; "he4_mass_ej"].
Definition sn_column (k : which) (model key : string) : string := "S" ++ digit k ++ "_" ++ model ++ "_" ++ key.
Definition Dict (d : list (string * val)) : val := Lst (map (fun kv => Lst [Txt (fst kv); snd kv]) d).
Fixpoint collect (fv : values) (c : class) (k : which) (model co_type : string) (keys : list string) (d : list (string * val)) : result (option (list (string * val))) :=
  match keys with
  | [] => Ok (Some d)
  | key :: r =>
    if String.eqb key "state" then collect fv c k model co_type r (d ++ [(key, Txt co_type)])
    else if String.eqb key "SN_type" then rbind (class_of c (sn_column k model key)) (fun v => collect fv c k model co_type r (d ++ [(key, Txt v)]))
    else match fv (sn_column k model key) with
         | Some v => collect fv c k model co_type r (d ++ [(key, v)])
         | None => Ok None
         end
  end.
Definition set_sn (fv : values) (c : class) (k : which) (co : bool) (o : attrs) (model : string) : result attrs :=
  if co then Ok (setattr o model Nil)
  else rbind (class_of c (sn_column k model "CO_type")) (fun t =>
    if String.eqb t "None" then Ok (setattr o model Nil)
    else rbind (collect fv c k model t SN_KEYS []) (fun d => Ok (setattr o model (match d with Some d => Dict d | None => Nil end)))).
Definition MODELS : list string := map fst SNNameModel.SN_MODELS.

(** Lines 982-997: [10**x] of a number; the rate of the compact object (of the second star if both are) *)
Definition log_rate (v : val) (c e : R) : val :=
  match v with Num (Some lg) => num (BHModel.recorded_rate lg c e) | _ => nan end.
Definition rate_arg (v : val) : result unit := match v with Num _ => Ok tt | _ => Raise TypeError end.
Definition accretion (p : physics) (fv : values) (b acc don : attrs) (k : which) : result attrs :=
  rbind (col fv ("lg_mstar_dot_" ++ digit k)) (fun lg =>
  rbind (rate_arg lg) (fun _ =>
  rbind (captured p b acc don) (fun c => rbind (limit p b acc don) (fun e => Ok (setattr acc "lg_mdot" (log_rate lg c e)))))).

Definition is_txt (v : val) (t : string) : bool := match v with Txt u => String.eqb u t | _ => false end.
(** initial_final_interpolation, lines 879-1052; two compact objects never come here *)
Definition initial_final_interpolation (p : physics) (grid : string) (fv : values) (c : class) (co1 co2 : bool) (x : StarInitModel.binary)
  : result StarInitModel.binary :=
  rbind (get (b_star1 x) "mass") (fun _ => rbind (get (b_star2 x) "mass") (fun _ =>
  rbind (each (set_binary fv) BinaryModel.BINARYPROPERTIES (b_attrs x)) (fun b =>
  rbind (set_star fv One co1 (b_star1 x)) (fun s1 =>
  rbind (set_star fv Two co2 (b_star2 x)) (fun s2 =>
  rbind (class_of c "interpolation_class") (fun ic =>
  let b := setattr b ("interp_class_" ++ grid) (Txt ic) in
  rbind (class_of c "mt_history") (fun mt =>
  let b := setattr b ("mt_history_" ++ grid) (Txt mt) in
  rbind (star_state p s1 co1) (fun st1 => rbind (star_state p s2 co2) (fun st2 =>
  let keep := String.eqb ic "initial_MT" in
  let s1 := if keep then s1 else setattr s1 "state" (Txt st1) in
  let s2 := if keep then s2 else setattr s2 "state" (Txt st2) in
  rbind (case_of p b s1 s2 ic) (fun sem =>
  let '(bs, ev, mc) := sem in
  let b := setattr (setattr (setattr b "state" bs) "event" ev) "mass_transfer_case" mc in
  if is_txt bs "initial_RLOF" then Ok (Bin b s1 s2)
  else
    rbind (if co2 then rbind (accretion p fv b s2 s1 Two) (fun s => Ok (s1, s))
           else if co1 then rbind (accretion p fv b s1 s2 One) (fun s => Ok (s, s2))
           else Ok (s1, s2)) (fun ss =>
    let unstable := String.eqb ic "unstable_MT" in
    rbind (if co1 then Ok (fst ss) else each (set_post fv One unstable) POST_PROCESSED (fst ss)) (fun s1 =>
    rbind (if co2 then Ok (snd ss) else each (set_post fv Two unstable) POST_PROCESSED (snd ss)) (fun s2 =>
    if unstable then Ok (Bin b s1 s2)
    else rbind (each (set_sn fv c One co1) MODELS s1) (fun s1 => rbind (each (set_sn fv c Two co2) MODELS s2) (fun s2 => Ok (Bin b s1 s2)))))))))))))))).

(** ** Setting up a step, lines 160-278 *)
Definition DEFAULT_KWARGS : list string :=
  ["metallicity"; "grid_path"; "interpolation_path"; "interpolation_filename"; "interpolation_method"; "save_initial_conditions"; "track_interpolation";
   "stop_method"; "stop_star"; "stop_var_name"; "stop_value"; "stop_interpolate"; "RNG"; "verbose"].
Definition SUPPORTED : list string := ["linear_kNN"; "linear3c_kNN"; "1NN_1NN"].
Record options := Options { method : string; tracking : bool; stop : string }.
(** What the constructor loads: the nearest neighbours of the grid, the interpolator *)
Record step := Step { opts : options; neighbours : bool; interpolator : bool }.
Definition new_step (keys : list string) (o : options) : result step :=
  if existsb (fun k => negb (among k DEFAULT_KWARGS)) keys then Raise ValueError
  else if tracking o && negb (String.eqb (method o) "nearest_neighbour") then Raise ValueError
  else
    let nn := String.eqb (stop o) "stop_at_max_time" || String.eqb (method o) "nearest_neighbour" in
    let it := among (method o) SUPPORTED in
    (* _find_boundaries, 280-295: the grid of the neighbours *)
    if nn then Ok (Step o nn it) else Raise AttributeError.
(** get_final_MESA_step_time, lines 333-356: [None] is returned for a run without history.  [near] is the last age of the nearest run, [fv] the
    interpolated values. *)
Definition step_time (s : step) (near : option val) (fv : values) : result (option val) :=
  if String.eqb (method (opts s)) "nearest_neighbour" then Ok near
  else if among (method (opts s)) SUPPORTED then rbind (col fv "age") (fun v => Ok (Some v))
  else Raise ValueError.
