(** Model of the constraints on interpolated quantities: posydon/interpolation/constraints.py.

    Real arithmetic; None is NaN, and infinities are treated as NaN (a quotient by zero is NaN).  A dictionary is the list of its items in the order
    of insertion.  Not modelled: printing, the switch INTERPOLATION_CONSTRAINTS_ON (True), and check_order_of_constraints (360-389), which uses
    attributes of dictionaries and fails at its first line. *)
From Coq Require Import Reals String List Bool Ascii.
From Verif Require Import PyBase OrbitModel AccretionModel.
Import ListNotations.
Open Scope string_scope.
Open Scope R_scope.
Open Scope list_scope.

Definition AssertionError : exn := OtherError "AssertionError".
Definition LinAlgError : exn := OtherError "LinAlgError".
Definition log10 (x : R) : R := ln x / ln 10.
Definition EPS : R := 1e-9.

(** ** Dictionaries *)
Definition dict := list (string * fl).
Definition has (k : string) (d : dict) : bool := existsb (fun p => String.eqb (fst p) k) d.
Fixpoint get (k : string) (d : dict) : result fl :=
  match d with [] => Raise KeyError | (k', v) :: d' => if String.eqb k' k then Ok v else get k d' end.
Fixpoint set (k : string) (v : fl) (d : dict) : dict :=
  match d with [] => [(k, v)] | (k', v') :: d' => if String.eqb k' k then (k', v) :: d' else (k', v') :: set k v d' end.
Fixpoint get_all (ks : list string) (d : dict) : result (list fl) :=
  match ks with [] => Ok [] | k :: ks' => rbind (get k d) (fun v => rbind (get_all ks' d) (fun vs => Ok (v :: vs))) end.
Fixpoint all_finite (l : list fl) : option (list R) :=
  match l with [] => Some [] | Some x :: l' => option_map (cons x) (all_finite l') | None :: _ => None end.

(** s.format(star), for the names of this file *)
Fixpoint format (s : string) (star : string) : string :=
  match s with
  | String "{"%char (String "}"%char r) => append star (format r star)
  | String c r => String c (format r star)
  | EmptyString => EmptyString
  end.
Fixpoint braces (s : string) : bool :=
  match s with String "{"%char (String "}"%char _) => true | String _ r => braces r | EmptyString => false end.

(** ** The functions of the constraints of type 1, lines 67-94 *)
Inductive law := Boltzmann | Kepler | Nuclear | SystemMdot | Transfer.
Definition law_function (l : law) (x : list R) : result fl :=
  match l, x with
  | Boltzmann, [log_L; log_R] => Ok (Some (log10 (stefan_boltzmann_law (Rpower 10 log_L) (Rpower 10 log_R))))
  | Kepler, [P; m1; m2] => Ok (Some (orbital_separation_from_period P m1 m2))
  | Nuclear, [lh; lhe; lz] => Ok (Some (log10 (Rpower 10 lh + Rpower 10 lhe + Rpower 10 lz)))
  | SystemMdot, [s; r] => Ok (Some (Rmin s r))
  | Transfer, [s; r] =>
      if Rlt_dec s (-98) then Ok (Some 1) else if Rlt_dec r (-98) then Ok (Some 1)
      else if Rle_dec s r then Ok (Some (1 - Rpower 10 (s - r))) else Raise AssertionError
  | _, _ => Raise TypeError
  end.

(** ** correct_inequality, lines 97-134.  The comparison with the sorted list (128) only spares the loop when it would change nothing; it is left out. *)
Fixpoint descend (prev : fl) (vals : list fl) (keys : list string) (d : dict) : dict :=
  match vals, keys with
  | v :: vals', k :: keys' =>
      match prev, v with
      | Some p, Some x => if Rlt_dec p x then descend prev vals' keys' (set k prev d) else descend v vals' keys' d
      | _, _ => descend v vals' keys' d
      end
  | _, _ => d
  end.
Definition correct_one (log : bool) (keys : list string) (d : dict) : result dict :=
  rbind (get_all keys d) (fun vals =>
  match vals, keys with
  | v :: vals', _ :: keys' => Ok (descend (if log then lift1 (Rpower 10) v else v) vals' keys' d)
  | _, _ => if log then Raise IndexError else Ok d
  end).
Fixpoint correct_inequality (key_sets : list (list string)) (log : bool) (d : dict) : result dict :=
  match key_sets with [] => Ok d | ks :: rest => rbind (correct_one log ks d) (correct_inequality rest log) end.

(** ** correct_sum, lines 137-164 *)
Inductive target := Number (x : R) | Field (k : string).
Definition fsum (l : list fl) : fl := fold_left (lift2 Rplus) l (Some 0).
Definition fdiv (x y : fl) : fl := match x, y with Some a, Some b => if Req_EM_T b 0 then None else Some (a / b) | _, _ => None end.
Fixpoint rescale (c s : fl) (keys : list string) (d : dict) : result dict :=
  match keys with
  | [] => Ok d
  | k :: keys' => rbind (get k d) (fun v => rescale c s keys' (set k (lift2 Rmult c (fdiv v s)) d))
  end.
Definition correct_sum (keys : list string) (constraint : target) (d : dict) : result dict :=
  rbind (get_all keys d) (fun vals =>
  let s := fsum vals in
  rbind (match constraint with Field k => get k d | Number x => Ok (Some x) end) (fun t =>
  if match s, t with Some a, Some b => if Rlt_dec EPS (Rabs (a - b)) then true else false | _, _ => false end
  then match constraint with
       | Number x => rescale (Some x) s keys d
       | Field _ => Raise TypeError                                   (* a string times a float *)
       end
  else Ok d)).

(** ** get_thickness_n_radius, lines 167-227 *)
(** np.linalg.solve of [[a, b], [c, d]] x = [e, f] *)
Definition solve (a b c d e f : R) : result (R * R) :=
  let det := a * d - b * c in
  if Req_EM_T det 0 then Raise LinAlgError else Ok ((e * d - b * f) / det, (a * f - c * e) / det).
Definition valid (big : R) (p : R * R) : bool :=
  let '(r, t) := p in
  (if Rlt_dec 0 t then true else false) && (if Rle_dec (0.5 * t - EPS) r then true else false) && (if Rle_dec (r + 0.5 * t) (big + EPS) then true else false).
Definition distance (p : R * R) (r t : R) : R := sqrt ((fst p - r) ^ 2 + (snd p - t) ^ 2).
(** The new radius and thickness; with [t] at the centroid the slope is infinite and no point valid. *)
Definition project (r t big : R) : result (R * R) :=
  if Req_EM_T (big / 2) r then Ok (0.5 * big, big)
  else if Req_EM_T t (big / 3) then Raise AssertionError
  else
    let slope := (r - big / 2) / (t - big / 3) in
    let e := - (big / 2) + slope * (big / 3) in
    rbind (solve (-1) slope 1 (-0.5) e 0) (fun one =>
    rbind (solve (-1) slope 1 0.5 e big) (fun two =>
    match filter (valid big) [one; two] with
    | [] => Raise AssertionError
    | [p] => Ok p
    | p :: q :: _ => if Rlt_dec (distance q r t) (distance p r t) then Ok q else Ok p
    end)).
Definition get_thickness_n_radius (keys : list string) (d : dict) : result dict :=
  match keys with
  | [k0; k1; k2] =>
      rbind (get k2 d) (fun r => rbind (get k1 d) (fun t => rbind (get k0 d) (fun lR =>
      match r, t, lR with
      | Some r, Some t, Some lR =>
          let big := Rpower 10 lR in
          if (if Rlt_dec 0 t then true else false) && (if Rle_dec (0.5 * t) r then true else false) && (if Rle_dec (r + 0.5 * t) big then true else false) then Ok d
          else rbind (project r t big) (fun '(r', t') => Ok (set k2 (Some r') (set k1 (Some t') d)))
      | _, _, _ => Ok d
      end)))
  | _ => Raise IndexError
  end.

(** ** CONSTRAINTS, lines 230-357 *)
Inductive constraint :=
| Law (l : law) (dependent : string) (independent : list string)
| Inequality (fields : list (list string)) (log : bool)
| Thickness (fields : list (list string))
| Total (sum_fields : list string) (c : target).
Definition CONSTRAINTS : list constraint :=
  [ Law Boltzmann "S{}_log_Teff" ["S{}_log_L"; "S{}_log_R"];
    Law Kepler "binary_separation" ["period_days"; "star_1_mass"; "star_2_mass"];
    Law Nuclear "S{}_log_Lnuc" ["S{}_log_LH"; "S{}_log_LHe"; "S{}_log_LZ"];
    Law SystemMdot "lg_system_mdot_{}" ["lg_system_mdot_{}"; "lg_mtransfer_rate"];
    Law Transfer "xfer_fraction" ["lg_system_mdot_2"; "lg_mtransfer_rate"];
    Inequality [["star_{}_mass"; "S{}_he_core_mass"; "S{}_co_core_mass"]] false;
    Inequality [["S{}_log_R"; "S{}_he_core_radius"; "S{}_co_core_radius"]] true;
    Inequality [["star_{}_mass"; "S{}_m_core_CE_1cent"]; ["star_{}_mass"; "S{}_m_core_CE_10cent"];
                ["star_{}_mass"; "S{}_m_core_CE_30cent"]; ["star_{}_mass"; "S{}_m_core_CE_pure_He_star_10cent"]] false;
    Inequality [["S{}_log_R"; "S{}_r_core_CE_1cent"]; ["S{}_log_R"; "S{}_r_core_CE_10cent"];
                ["S{}_log_R"; "S{}_r_core_CE_30cent"]; ["S{}_log_R"; "S{}_r_core_CE_pure_He_star_10cent"]] true;
    Inequality [["star_{}_mass"; "S{}_mass_conv_reg_fortides"]] false;
    Thickness [["S{}_log_R"; "S{}_thickness_conv_reg_fortides"; "S{}_radius_conv_reg_fortides"]];
    Inequality [["star_{}_mass"; "S{}_direct_mass"]; ["star_{}_mass"; "S{}_Fryer+12-rapid_mass"];
                ["star_{}_mass"; "S{}_Fryer+12-delayed_mass"]; ["star_{}_mass"; "S{}_Sukhbold+16-engineN20_mass"];
                ["star_{}_mass"; "S{}_Patton&Sukhbold20-engineN20_mass"]] false;
    Inequality [["lg_mtransfer_rate"; "lg_system_mdot_{}"]] false;
    Inequality [["star_{}_mass"; "S{}_total_mass_h1"]; ["star_{}_mass"; "S{}_total_mass_he4"]] false;
    Total ["S{}_center_h1"; "S{}_center_he4"; "S{}_center_c12"; "S{}_center_n14"; "S{}_center_o16"; "S{}_center_other"] (Number 1);
    Total ["S{}_surface_h1"; "S{}_surface_he4"; "S{}_surface_c12"; "S{}_surface_n14"; "S{}_surface_o16"; "S{}_surface_other"] (Number 1) ].

(** ** find_constraints_to_apply, lines 392-450: the constraints to apply, and those of the module afterwards.  The constraints returned are the objects of the
    module, so what a caller holds is narrowed by later calls too ([held_after]); here they are as at the return. *)
Definition available (out_keys : list string) (fields : list string) : bool :=
  forallb (fun f => existsb (String.eqb (format f "1")) out_keys) fields.
Definition examine (out_keys : list string) (c : constraint) : option constraint * constraint :=
  match c with
  | Law _ _ indep => (if available out_keys indep then Some c else None, c)
  | Inequality fields log =>
      match filter (available out_keys) fields with [] => (None, c) | fs => (Some (Inequality fs log), Inequality fs log) end
  | Thickness fields => match filter (available out_keys) fields with [] => (None, c) | fs => (Some (Thickness fs), Thickness fs) end
  | Total fields _ => (if available out_keys fields then Some c else None, c)
  end.
Definition find_constraints_to_apply (module_ : list constraint) (out_keys : list string) : list constraint * list constraint :=
  (flat_map (fun c => match fst (examine out_keys c) with Some x => [x] | None => [] end) module_, map (fun c => snd (examine out_keys c)) module_).
(** What an interpolator holds are the objects of the module (line 448 appends them), so that a later call narrows them (line 439). *)
Definition held_after (later_keys : list string) (cs : list constraint) : list constraint := map (fun c => snd (examine later_keys c)) cs.

(** ** sanitize_interpolated_quantities, lines 453-525 *)
Fixpoint over {A} (f : A -> dict -> result dict) (l : list A) (d : dict) : result dict :=
  match l with [] => Ok d | x :: l' => rbind (f x d) (over f l') end.
Definition apply_law (l : law) (dep : string) (indep : list string) (star : string) (d : dict) : result dict :=
  rbind (get_all (map (fun k => format k star) indep) d) (fun xs =>
  rbind (match all_finite xs with Some vs => law_function l vs | None => Ok None end) (fun y => Ok (set (format dep star) y d))).
Definition stars_present (d : dict) : list string := if has "S1_log_R" d && has "S2_log_R" d then ["1"; "2"] else ["1"].
Definition law_stars (dep : string) (d : dict) : list string := if braces dep && has (format dep "2") d then ["1"; "2"] else ["1"].
Definition formatted (fields : list (list string)) (star : string) : list (list string) := map (map (fun k => format k star)) fields.
Definition apply (present : list string) (c : constraint) (d : dict) : result dict :=
  match c with
  | Law l dep indep => over (apply_law l dep indep) (law_stars dep d) d
  | Inequality fields log => over (fun star => correct_inequality (formatted fields star) log) present d
  | Thickness fields => over (fun star => over get_thickness_n_radius (formatted fields star)) present d
  | Total fields c => over (fun star => correct_sum (map (fun k => format k star) fields) c) present d
  end.
Definition sanitize_interpolated_quantities (fvalues : dict) (constraints : list constraint) : result dict :=
  over (apply (stars_present fvalues)) constraints fvalues.
