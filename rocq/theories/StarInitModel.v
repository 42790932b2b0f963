(** The constructors of SingleStar and BinaryStar, posydon/binary_evol/singlestar.py:141-381 and binarystar.py:136-237.

    An object is a function from names of attributes to values.  Numbers are real numbers or NaN. *)
From Coq Require Import Reals String Bool List.
From Verif Require Import PyBase PyStr OrbitModel InspiralModel.
From Verif Require BinaryModel SNNameModel.
Import ListNotations.
Open Scope string_scope.
Open Scope R_scope.
Open Scope list_scope.

Inductive val := Txt (s : string) | Num (x : option R) | Nil | Lst (l : list val) | Obj (n : nat).
Definition nan : val := Num None.
Definition num (x : R) : val := Num (Some x).
Definition attrs := string -> option val.
Definition setattr (o : attrs) (k : string) (v : val) : attrs := fun k' => if String.eqb k' k then Some v else o k'.
Definition hasattr (o : attrs) (k : string) : bool := match o k with Some _ => true | None => false end.
Definition hist (k : string) : string := (k ++ "_history")%string.

(** Keyword arguments *)
Definition kwargs := list (string * val).
Definition kget (kw : kwargs) (k : string) : option val := dget String.eqb kw k.
Definition kdel (kw : kwargs) (k : string) : kwargs := filter (fun p => negb (String.eqb (fst p) k)) kw.
Definition kpop (kw : kwargs) (k : string) (d : val) : val := match kget kw k with Some v => v | None => d end.

(** posydon/utils/constants.py:62-71 *)
Definition Zsun : R := 0.0142.
Definition zams_table : list (R * R) :=
  [(2, 0.2915); (1, 0.2703); (0.45, 0.2586); (0.2, 0.2533); (0.1, 0.2511); (0.01, 0.2492); (0.001, 0.249); (0.0001, 0.249)].
Fixpoint table_get (t : list (R * R)) (z : R) : option R :=
  match t with [] => None | (k, y) :: t' => if Req_EM_T z k then Some y else table_get t' z end.
(** singlestar.py:185-190: the metallicity relative to the Sun and the helium abundance; a list is not hashable *)
Definition lookup_Z (v : val) : result (R * R) :=
  match v with
  | Num (Some z) => match table_get zams_table z with Some y => Ok (z, y) | None => Raise KeyError end
  | Lst _ => Raise TypeError
  | _ => Raise KeyError
  end.
Definition CO_states : list string := ["massless_remnant"; "WD"; "NS"; "BH"].
Definition THRESHOLD_CENTRAL_ABUNDANCE : R := 0.01.
Definition LOW_ABUNDANCE : R := 1e-6.

(** singlestar.py:164-170; only lists can be subscripted *)
Definition expand_kick (kw : kwargs) : result kwargs :=
  match kget kw "natal_kick_array" with
  | None => Ok kw
  | Some (Lst (a :: b :: c :: d :: _)) =>
      Ok (kdel (dset_all String.eqb kw [("natal_kick_velocity", a); ("natal_kick_azimuthal_angle", b); ("natal_kick_polar_angle", c); ("natal_kick_mean_anomaly", d)]) "natal_kick_array")
  | Some (Lst _) => Raise IndexError
  | Some _ => Raise TypeError
  end.

(** common_functions.py:1481-1494, infer_star_state with star_CO; the abundances are H at the surface, H, He and C in the centre.  A text is
    neither NaN nor comparable with a number. *)
Definition positive (v : val) : result bool :=
  match v with Num (Some x) => Ok (if Rlt_dec 0 x then true else false) | Num None | Nil => Ok false | _ => Raise TypeError end.
Fixpoint any_positive (l : list val) : result bool :=
  match l with [] => Ok false | v :: l' => rbind (positive v) (fun b => if b then Ok true else any_positive l') end.
Definition infer_CO (mass : val) (abundances : list val) : result string :=
  match mass with
  | Num None | Nil => Ok "massless_remnant"
  | Num (Some m) =>
      if Rle_dec m 0 then Ok "massless_remnant"
      else rbind (any_positive abundances) (fun p =>
        if (p || if Rlt_dec m 1.1 then true else false) && (if Rle_dec m 1.46 then true else false) then Ok "WD"
        else if Rle_dec m 2.5 then Ok "NS" else Ok "BH")
  | _ => Raise TypeError
  end.
(** np.log10(CO_radius(mass, state)) for WD, NS and BH; a mass of NaN is not refused *)
Definition log10 (x : R) : R := ln x / ln 10.
Definition CO_log_R (mass : val) (state : string) : result val :=
  match mass with
  | Num (Some m) => rbind (CO_radius m state) (fun r => Ok (num (log10 r)))
  | Num None => if String.eqb state "NS" then Ok (num (log10 (12.5e5 / Rsun))) else Ok nan
  | _ => Raise TypeError
  end.

(** What lines 172-272 find: the defaults for log_R, center_h1, center_he4 and he_core_mass, and the keywords *)
Record found := Found { d_log_R : val; d_X : val; d_Y : val; d_He_core : val; f_kw : kwargs }.
Definition mass_of (kw : kwargs) : val := kpop kw "mass" Nil.
(** A state that is no text raises TypeError at the first test for a part of it (line 207); lists, in which texts may be looked for, are not told
    apart from other values. *)
Definition find_defaults (metallicity : val) (state : val) (kw : kwargs) : result found :=
  match state with
  | Txt st =>
      if existsb (String.eqb st) CO_states then
        if String.eqb st "massless_remnant" then Ok (Found nan nan nan nan kw)
        else rbind (CO_log_R (mass_of kw) st) (fun r =>
             rbind (infer_CO (mass_of kw) [kpop kw "surface_h1" nan; kpop kw "center_h1" nan; kpop kw "center_he4" nan; kpop kw "center_c12" nan]) (fun st' =>
             Ok (Found r nan nan nan (if String.eqb st st' then kw else dset String.eqb kw "state" (Txt st')))))
      else rbind (lookup_Z metallicity) (fun zy =>
        let '(z, Y) := zy in
        let Z := z * Zsun in
        let X := 1 - Y - Z in
        if py_in "Core_H_burning" st then Ok (Found (num 0) (num X) (num Y) (num 0) kw)
        else if py_in "burning" st && (py_in "_Shell_" st || py_in "_non_" st) then
          if py_in "stripped_He" st then Ok (Found (num 0) (num LOW_ABUNDANCE) (num LOW_ABUNDANCE) (mass_of kw) kw)
          else Ok (Found (num 0) (num THRESHOLD_CENTRAL_ABUNDANCE) (num (1 - THRESHOLD_CENTRAL_ABUNDANCE - Z)) (num 0) kw)
        else if py_in "Core_He_burning" st then
          Ok (Found (num (if py_in "stripped_He" st then 0 else 4)) (num LOW_ABUNDANCE) (num (1 - LOW_ABUNDANCE - Z)) (mass_of kw) kw)
        else if py_in "Core_C_burning" st then Ok (Found (num 4) (num LOW_ABUNDANCE) (num LOW_ABUNDANCE) (mass_of kw) kw)
        else if py_in "Core_" st && py_in "_depleted" st then Ok (Found (num 0) (num LOW_ABUNDANCE) (num LOW_ABUNDANCE) (mass_of kw) kw)
        else Ok (Found (num 0) (num X) (num Y) (num 0) kw))
  | _ => rbind (lookup_Z metallicity) (fun _ => Raise TypeError)
  end.

(** Lines 277-313: the default for each property.  Of the data types (popsyn/io.py:60-130) that of the state is string, of the profile object and
    float64 of all others. *)
Definition default_of (f : found) (compact : bool) (item : string) : val :=
  if String.eqb item "log_R" then d_log_R f
  else if String.eqb item "center_h1" then d_X f
  else if String.eqb item "center_he4" then d_Y f
  else if py_in "core_mass" item then
    if String.eqb item "he_core_mass" then d_He_core f else if compact then num 0 else nan
  else if String.eqb item "state" then Txt ""
  else if String.eqb item "profile" then Nil
  else nan.
(** One pass of the loop; the metallicity has been set before *)
Definition set_property (f : found) (compact : bool) (acc : attrs * kwargs) (item : string) : attrs * kwargs :=
  let '(o, kw) := acc in
  if String.eqb item "metallicity" then (setattr o (hist item) (match o item with Some v => Lst [v] | None => Lst [] end), kw)
  else let v := kpop kw item (default_of f compact item) in (setattr (setattr o item v) (hist item) (Lst [v]), kdel kw item).
(** popsyn/io.py:137-165 *)
Definition NO_HISTORY : list string :=
  ["natal_kick_velocity"; "natal_kick_azimuthal_angle"; "natal_kick_polar_angle"; "natal_kick_mean_anomaly"; "natal_kick_array_0";
   "natal_kick_array_1"; "natal_kick_array_2"; "natal_kick_array_3"; "SN_type"; "f_fb"; "spin_orbit_tilt_first_SN"; "spin_orbit_tilt_second_SN"; "M4";
   "mu4"; "avg_c_in_c_core_at_He_depletion"; "co_core_mass_at_He_depletion"; "h1_mass_ej"; "he4_mass_ej"; "m_disk_radiated"; "m_disk_accreted"].
(** Lines 315-320 *)
Definition set_extra (o : attrs) (kv : string * val) : attrs :=
  let o' := setattr o (fst kv) (snd kv) in
  if existsb (String.eqb (fst kv)) NO_HISTORY then o' else setattr o' (hist (fst kv)) (Lst [snd kv]).
(** Lines 325-381: attributes which are None if they do not exist *)
Definition LATER : list string :=
  ["natal_kick_velocity"; "natal_kick_azimuthal_angle"; "natal_kick_polar_angle"; "natal_kick_mean_anomaly"; "spin_orbit_tilt_first_SN";
   "spin_orbit_tilt_second_SN"; "f_fb"; "SN_type"; "m_disk_accreted"; "m_disk_radiated"; "h1_mass_ej"; "he4_mass_ej"; "M4"; "mu4"; "Xi"; "sc"; "interp1d";
   "m_core_CE_1cent"; "m_core_CE_10cent"; "m_core_CE_30cent"; "m_core_CE_pure_He_star_10cent"; "r_core_CE_1cent"; "r_core_CE_10cent"; "r_core_CE_30cent";
   "r_core_CE_pure_He_star_10cent"; "avg_c_in_c_core_at_He_depletion"; "co_core_mass_at_He_depletion"] ++ map fst SNNameModel.SN_MODELS.
Definition set_missing (v : val) (o : attrs) (k : string) : attrs := if hasattr o k then o else setattr o k v.
Definition no_attrs : attrs := fun _ => None.
Definition is_compact (state : val) : bool := match state with Txt s => existsb (String.eqb s) CO_states | _ => false end.
Definition SingleStar (kw0 : kwargs) : result attrs :=
  let Z := kpop kw0 "metallicity" (num 1) in
  let kw1 := kdel kw0 "metallicity" in
  let state := kpop kw1 "state" (Txt "H-rich_Core_H_burning") in
  rbind (expand_kick kw1) (fun kw2 =>
  rbind (find_defaults Z state kw2) (fun f =>
  let '(o, kw3) := fold_left (set_property f (is_compact state)) BinaryModel.STARPROPERTIES (setattr no_attrs "metallicity" Z, f_kw f) in
  Ok (fold_left (set_missing Nil) LATER (fold_left set_extra kw3 o)))).

(** ** BinaryStar *)
Definition notna (v : val) : bool := match v with Num None | Nil => false | _ => true end.
Record binary := Bin { b_attrs : attrs; b_star1 : attrs; b_star2 : attrs }.
(** binarystar.py:171-187 *)
Definition b_default (item : string) : val :=
  if String.eqb item "V_sys" then Lst [num 0; num 0; num 0]
  else if String.eqb item "mass_transfer_case" then Txt "None"
  else if String.eqb item "nearest_neighbour_distance" then Lst [num 0; num 0; num 0]
  else if String.eqb item "eccentricity" then num 0
  else Nil.
Definition set_b_property (acc : attrs * kwargs) (item : string) : attrs * kwargs :=
  let '(o, kw) := acc in
  let v := kpop kw item (b_default item) in (setattr (setattr o item v) (hist item) (Lst [v]), kdel kw item).
Definition set_b_extra (o : attrs) (kv : string * val) : attrs := setattr (setattr o (fst kv) (snd kv)) (hist (fst kv)) (Lst [snd kv]).
(** Attributes that exist *)
Definition attr (o : attrs) (k : string) : val := match o k with Some v => v | None => Nil end.
(** Lines 193-203; values which are neither numbers nor missing cannot be used *)
Definition complete_orbit (o s1 s2 : attrs) : result attrs :=
  if notna (attr s1 "mass") && notna (attr s2 "mass") then
    if negb (notna (attr o "separation")) && notna (attr o "orbital_period") then
      match attr o "orbital_period", attr s1 "mass", attr s2 "mass" with
      | Num (Some p), Num (Some m1), Num (Some m2) =>
          let a := num (orbital_separation_from_period p m1 m2) in Ok (setattr (setattr o "separation" a) (hist "separation") (Lst [a]))
      | _, _, _ => Raise TypeError
      end
    else if negb (notna (attr o "orbital_period")) && notna (attr o "separation") then
      match attr o "separation", attr s1 "mass", attr s2 "mass" with
      | Num (Some a), Num (Some m1), Num (Some m2) =>
          let p := num (orbital_period_from_separation a m1 m2) in Ok (setattr (setattr o "orbital_period" p) (hist "orbital_period") (Lst [p]))
      | _, _, _ => Raise TypeError
      end
    else Ok o
  else Ok o.
(** Lines 205-231: (tested name, name set, value); of two of them the names differ *)
Definition B_LATER : list (string * string * val) :=
  [("inspiral_time", "inspiral_time", Nil); ("mass_transfer_case", "mass_transfer_case", Txt "None"); ("true_anomaly_first_SN", "true_anomaly_SN1", Nil);
   ("true_anomaly_second_SN", "true_anomaly_SN2", Nil); ("first_SN_already_occurred", "first_SN_already_occurred", Txt "False"); ("history_verbose", "history_verbose", Txt "False")] ++
  flat_map (fun g => map (fun p => (String.append p g, String.append p g, Nil)) ["interp_class_"; "mt_history_"; "cumulative_mt_case_"]) ["HMS_HMS"; "CO_HMS_RLO"; "CO_HeMS"; "CO_HeMS_RLO"].
Definition set_b_missing (o : attrs) (t : string * string * val) : attrs :=
  let '(test, name, v) := t in if hasattr o test then o else setattr o name v.
(** Lines 136-237; stars that are given are copied, those not given are made by SingleStar().  The properties and the flags about companions are
    left out. *)
Definition BinaryStar (star_1 star_2 : option attrs) (kw : kwargs) : result binary :=
  let make s := match s with Some o => Ok o | None => SingleStar [] end in
  rbind (make star_1) (fun s1 =>
  rbind (make star_2) (fun s2 =>
  let '(o, kw') := fold_left set_b_property BinaryModel.BINARYPROPERTIES (no_attrs, kw) in
  rbind (complete_orbit (fold_left set_b_extra kw' o) s1 s2) (fun o' => Ok (Bin (fold_left set_b_missing B_LATER o') s1 s2)))).
