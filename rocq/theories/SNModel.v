(** The collapse of a star in the supernova step, posydon/binary_evol/SN/step_SN.py.  Numbers are exact: the arithmetic of the remnant
    masses is rational arithmetic instead of float arithmetic. *)
From Coq Require Import String List Bool ZArith QArith Qround.
From Verif Require Import PyBase PyNum PyStr MTModel FlowChartModel MergeModel.
Import ListNotations.
Open Scope string_scope.
Open Scope list_scope.

Definition fin (q : Q) : pnum := Some (Fin q).
Definition qlt (a b : Q) : bool := negb (Qle_bool b a).
Definition qle (a b : Q) : bool := Qle_bool a b.
(** Local variables that are read before any assignment. *)
Definition UnboundLocalError := OtherError "UnboundLocalError".
(** Behaviour left out of the model: attributes that are not finite numbers where a formula needs one. *)
Definition NotModelled := OtherError "NotModelled".
Definition finite (x : pnum) : result Q := match x with Some (Fin q) => Ok q | _ => Raise NotModelled end.
Definition CC_STATES := names_of STAR_STATES_CC.

(** ** The type of a supernova *)
(** Lines 1137-1153, 1178-1194 and 1218-1234; the warnings are left out. *)
Definition wd_mass (m_core m_He_core m_star : pnum) : result pnum :=
  rbind (p_gt m_core (fin 0)) (fun c =>
  if c then Ok m_core else rbind (p_gt m_He_core (fin 0)) (fun h =>
  if h then Ok m_He_core else rbind (p_lt m_star (fin (1 # 2))) (fun s =>
  if s then rbind (r_or (p_lt m_core (fin 0)) (p_lt m_He_core (fin 0))) (fun _ => Ok m_star) else Raise ModelError))).
(** Lines 1124-1246: remnant mass, fallback fraction, state and type. *)
Definition sn_out := (pnum * pnum * option string * string)%type.
Definition white_dwarf (m_core m_He_core m_star : pnum) : result sn_out :=
  rbind (wd_mass m_core m_He_core m_star) (fun m => Ok (m, fin 1, Some "WD", "WD")).
Definition no_wd (t : string) : result sn_out := Ok (None, None, None, t).
Definition check_SN_type (ECSN : option string) (m_core m_He_core m_star : pnum) : result sn_out :=
  let between m lo hi :=
    rbind (p_lt m lo) (fun wd => if wd then white_dwarf m_core m_He_core m_star
    else rbind (r_and (p_ge m lo) (p_le m hi)) (fun ec => if ec then no_wd "ECSN"
    else rbind (p_gt m hi) (fun cc => if cc then no_wd "CCSN" else Raise ValueError))) in
  match ECSN with
  | Some e =>
    if String.eqb e "Tauris+15" then between m_core (fin (137 # 100)) (fin (143 # 100))
    else if String.eqb e "Podsiadlowski+04" then between m_He_core (fin (14 # 10)) (fin (25 # 10))
    else Raise ValueError
  | None => rbind (p_lt m_core (fin (137 # 100))) (fun wd => if wd then white_dwarf m_core m_He_core m_star else no_wd "CCSN")
  end.
(** Lines 2910-2941. *)
Definition check_SN_CO_match (SN_type state : string) : bool :=
  let state := if String.eqb state "PISN" then "massless_remnant" else state in
  if String.eqb state "WD" && negb (String.eqb SN_type "WD") then false
  else if String.eqb state "NS" && (negb (String.eqb SN_type "ECSN") && negb (String.eqb SN_type "CCSN")) then false
  else if String.eqb state "BH" && (negb (String.eqb SN_type "CCSN") && negb (String.eqb SN_type "PPISN")) then false
  else if String.eqb state "massless_remnant" && negb (String.eqb SN_type "PISN") then false
  else true.

(** ** Remnant masses *)
(** PISN may be None, a name or a number; names that Python's float() accepts are not modelled. *)
Inductive pisn := NoPISN | Named (s : string) | Limit (q : Q).
(** The parameters of a StepSN, lines 247-263, after __init__ (max_neutrino_mass_loss is a number). *)
Record config := Config {
  mechanism : string; PISN : pisn; PISN_CO_shift : option Q; PPI_extra_mass_loss : option Q; ECSN : option string;
  conserve_hydrogen_envelope : bool; conserve_hydrogen_PPI : bool; max_neutrino_mass_loss : Q; max_NS_mass : Q;
  use_interp_values : bool; use_profiles : bool; use_core_masses : bool; allow_spin_None : bool }.
Definition FRYER := [ "Fryer+12-rapid"; "Fryer+12-delayed"; "direct"; "direct_he_core" ].
Definition ENGINES := [ "Sukhbold+16-engine"; "Patton&Sukhbold20-engine"; "Couch+20-engine"; "Maltsev+25-engine" ].

(** Division by zero: Python floats raise, numpy floats give an infinity; neither is modelled. *)
Definition qdiv (a b : Q) : result Q := if Qeq_bool b 0 then Raise NotModelled else Ok (a / b).
(** Proto-remnant and fallback mass and the fallback fraction; lines 1312-1318 and 1351-1357. *)
Definition ecsn_proto (e : option string) (m_core : Q) : Q :=
  match e with Some s => if String.eqb s "Podsiadlowski+04" then 138 # 100 else m_core | None => m_core end.
(** Lines 1308-1337. *)
Definition rapid (e : option string) (SN_type : string) (m_core m_collapsing : Q) : result (Q * Q) :=
  let m_proto := 11 # 10 in
  if String.eqb SN_type "ECSN" then Ok (ecsn_proto e m_core + 0, 0)
  else if qlt m_core (25 # 10) then rbind (qdiv (2 # 10) (m_collapsing - m_proto)) (fun f => Ok (m_proto + (2 # 10), f))
  else if qle (25 # 10) m_core && qlt m_core 6 then
    let m_fb := (286 # 1000) * m_core - (514 # 1000) in rbind (qdiv m_fb (m_collapsing - m_proto)) (fun f => Ok (m_proto + m_fb, f))
  else if qle 6 m_core && qlt m_core 7 then Ok (m_proto + 1 * (m_collapsing - m_proto), 1)
  else if qle 7 m_core && qlt m_core 11 then
    rbind (qdiv (1275 # 1000) (m_collapsing - m_proto)) (fun d =>
    let a := (25 # 100) - d in let b := - 11 * a + 1 in let f := a * m_core + b in
    Ok (m_proto + f * (m_collapsing - m_proto), f))
  else if qle 11 m_core then Ok (m_proto + 1 * (m_collapsing - m_proto), 1)
  else Raise UnboundLocalError.
(** Lines 1341-1373. *)
Definition delayed_proto (m_core : Q) : option Q :=
  if qlt m_core (35 # 10) then Some (12 # 10)
  else if qle (35 # 10) m_core && qlt m_core 6 then Some (13 # 10)
  else if qle 6 m_core && qlt m_core 11 then Some (14 # 10)
  else if qle 11 m_core then Some (16 # 10) else None.
Definition delayed (e : option string) (SN_type : string) (m_core m_collapsing : Q) : result (Q * Q) :=
  match delayed_proto m_core with
  | None => Raise UnboundLocalError
  | Some m_proto =>
    if String.eqb SN_type "ECSN" then Ok (ecsn_proto e m_core + 0, 0)
    else if qlt m_core (25 # 10) then rbind (qdiv (2 # 10) (m_collapsing - m_proto)) (fun f => Ok (m_proto + (2 # 10), f))
    else if qle (25 # 10) m_core && qlt m_core (35 # 10) then
      let m_fb := (5 # 10) * m_core - (105 # 100) in rbind (qdiv m_fb (m_collapsing - m_proto)) (fun f => Ok (m_proto + m_fb, f))
    else if qle (35 # 10) m_core && qlt m_core 11 then
      rbind (qdiv (93 # 1000) (m_collapsing - m_proto)) (fun d =>
      let a := (133 # 1000) - d in let b := - 11 * a + 1 in let f := a * m_core + b in
      Ok (m_proto + f * (m_collapsing - m_proto), f))
    else if qlt 11 m_core then Ok (m_proto + 1 * (m_collapsing - m_proto), 1)
    else Raise UnboundLocalError
  end.

(** What compute_m_rembar reads of a star: the current values and the last entries of the histories. *)
Record row := Row { r_state : string; r_mass : pnum; r_co : pnum; r_he : pnum }.
Section Collapse.
  (** numpy.log10, the mass after the emission of neutrinos (20/3 (sqrt(1 + 0.3 m) - 1), see `GravModel`), the engines of Sukhbold, Couch,
      Patton and Maltsev (see `EngineModel`) and const.Zsun. *)
  Variables (log10 : Q -> Q) (lattimer : Q -> Q) (engine : row -> result (pnum * pnum * option string)) (Zsun : Q).
  Variable cfg : config.
  (** Lines 1303-1445: the mechanisms, for a star that does not become a white dwarf. *)
  Definition mechanism_rembar (r : row) (SN_type : string) (m_core m_collapsing : Q) : result (pnum * pnum * option string) :=
    if String.eqb (mechanism cfg) "Fryer+12-rapid" then rbind (rapid (ECSN cfg) SN_type m_core m_collapsing) (fun mf => Ok (fin (fst mf), fin (snd mf), None))
    else if String.eqb (mechanism cfg) "Fryer+12-delayed" then rbind (delayed (ECSN cfg) SN_type m_core m_collapsing) (fun mf => Ok (fin (fst mf), fin (snd mf), None))
    else if String.eqb (mechanism cfg) "direct" then Ok (fin m_collapsing, fin 1, None)
    else if mem (mechanism cfg) ENGINES then
      if String.eqb SN_type "ECSN" then Ok (fin (ecsn_proto (ECSN cfg) m_core + 0), fin 0, Some "NS") else engine r
    else Raise ValueError.
  (** Lines 1447-1454. *)
  Definition limit_by_PISN (m_PISN : pnum) (SN_type : string) (m_rembar : pnum) : result (pnum * string) :=
    match m_PISN with
    | None => Ok (m_rembar, SN_type)
    | Some NaN => Ok (Some NaN, "PISN")
    | Some _ => rbind (p_gt m_rembar m_PISN) (fun g => Ok (if g then (m_PISN, "PPISN") else (m_rembar, SN_type)))
    end.
  (** Lines 1248-1456: remnant mass, fallback fraction, state, and the attribute SN_type given to the star. *)
  Definition compute_m_rembar (now last : row) (m_PISN : pnum) : result sn_out :=
    rbind (if mem (r_state now) CC_STATES then Ok now else if mem (r_state last) CC_STATES then Ok last else Raise ValueError) (fun r =>
    if isna (r_co r) then Raise ValueError else
    rbind (check_SN_type (ECSN cfg) (r_co r) (r_he r) (r_mass r)) (fun o =>
    let '(m, f, st, t) := o in
    if String.eqb t "WD" then Ok (m, f, st, t) else
    rbind (finite (r_co r)) (fun m_core =>
    rbind (finite (if conserve_hydrogen_envelope cfg then r_mass r else r_he r)) (fun m_collapsing =>
    rbind (mechanism_rembar now t m_core m_collapsing) (fun x =>
    let '(m, f, st) := x in
    rbind (limit_by_PISN m_PISN t m) (fun mt => Ok (fst mt, f, st, snd mt))))))).

  (** ** Pair instability *)
  (** Lines 1004-1014. *)
  Definition marchant (h : Q) : Q :=
    - (629429263 # 1000) + (115957797 # 1000) * h - (928332577 # 100000) * h ^ 2 + (421856189 # 1000000) * h ^ 3
    - (119019565 # 10000000) * h ^ 4 + (213499267 # 1000000000) * h ^ 5 - (237814255 # 100000000000) * h ^ 6
    + (150408118 # 10000000000000) * h ^ 7 - (413587235 # 10000000000000000) * h ^ 8.
  (** Lines 1039-1066. *)
  Definition hendriks_loss (Z m_CO_core : Q) : Q :=
    let shift := match PISN_CO_shift cfg with Some q => q | None => 0 end in
    let extra := match PPI_extra_mass_loss cfg with Some q => q | None => 0 end in
    if qle (38 + shift) m_CO_core && qle m_CO_core (114 + shift) then
      let Z := if qlt Z (1 # 10000) then 1 # 10000 else Z in
      ((6 # 10000) * log10 (Z * Zsun) + (54 # 10000)) * (m_CO_core - shift - (348 # 10)) ^ 3
      - (13 # 10000) * (m_CO_core - shift - (348 # 10)) ^ 2 + extra
    else 0.
  (** Lines 977-1122, the masses and the metallicity of the star being finite numbers; [now] and [last] as above. *)
  Definition PISN_prescription (now last : row) (Z : pnum) : result pnum :=
    match PISN cfg with
    | NoPISN => Ok None
    | Named s =>
      rbind (finite (r_he now)) (fun h => rbind (finite (r_co now)) (fun c => rbind (finite (r_mass now)) (fun m => rbind (finite Z) (fun z =>
      let whole := if conserve_hydrogen_envelope cfg then fin m else fin h in
      if String.eqb s "Marchant+19" then
        Ok (if qle (3199 # 100) h && qle h (6110 # 100) then fin (marchant h)
            else if qlt (6110 # 100) h && qlt h (12412 # 100) then Some NaN else whole)
      else if String.eqb s "Hendriks+23" then
        let d := hendriks_loss z c in
        if qle d 0 then Ok whole
        else
          let m_PISN := (if conserve_hydrogen_PPI cfg then m else h) - d in
          if qlt m_PISN 0 then Ok (Some NaN)
          else
            let lower x := if qlt m_PISN x then m_PISN else x in
            rbind (compute_m_rembar (Row (r_state now) (fin m_PISN) (fin (lower c)) (fin (lower h))) last (fin m_PISN)) (fun o =>
            let '(m_rembar, _, _, _) := o in
            rbind (p_lt m_rembar (fin 10)) (fun small => Ok (if small then Some NaN else m_rembar)))
      else Raise ValueError))))
    | Limit q =>
      rbind (finite (r_he now)) (fun h =>
      if qlt q h then Ok (fin q) else if qlt 0 h && qle h q then Ok None else Raise ValueError)
    end.

  (** ** The compact object *)
  (** A star in this step: MergeModel's star (its attributes include f_fb, m_disk_accreted, m_disk_radiated, h1_mass_ej and he4_mass_ej),
      its SN_type, whether it has a profile, the outcomes stored under the name of the selected SN model, and what the step reads of its
      histories: the row of compute_m_rembar and metallicity_history[-1]. *)
  Record sn_model := SNProps { p_type : string; p_state : string; p_values : list (string * pnum) }.
  Record sstar := SStar { body : star; SN_type : option string; has_profile : bool; stored : option sn_model; last_row : row; last_Z : pnum }.
  Definition with_body (s : sstar) (b : star) (t : option string) : sstar := SStar b t (has_profile s) (stored s) (last_row s) (last_Z s).
  Definition row_of (b : star) : row := Row (sstate b) (attr b "mass") (attr b "co_core_mass") (attr b "he_core_mass").
  Definition set_state (b : star) (st : string) : star := Star st (attr b).
  Definition set_all (b : star) (l : list (string * pnum)) : star := fold_left (fun b kv => setattr b (fst kv) (snd kv)) l b.
  (** log10(CO_radius(M, type)), common_functions.py:1302-1337; the radius itself is a parameter. *)
  Variable log_R_of : num -> string -> num.
  Definition co_log_R (b : star) : result pnum :=
    match attr b "mass" with
    | None => Raise TypeError
    | Some m => if nle m (Fin 0) then Raise ValueError
                else if mem (sstate b) [ "BH"; "NS"; "WD" ] then Ok (Some (log_R_of m (sstate b))) else Raise ValueError
    end.
  (** The loops over STARPROPERTIES that keep some attributes. *)
  Definition reset_except (kept : list string) (b : star) : star :=
    fold_left (fun b k => if mem k kept then b else setattr b k None) STARPROPERTIES b.
  (** Lines 640-654, 704-717 and 840-853: he_core_mass, co_core_mass and the kept attributes of a white dwarf; properties in the order of the list. *)
  Definition WD_KEPT := [ "mass"; "spin"; "m_disk_accreted"; "m_disk_radiated"; "center_h1"; "center_he4"; "center_c12"; "center_n14"; "center_o16" ].
  Definition wd_reset (b : star) : result star :=
    rbind (p_lt (attr b "center_he4") (fin (1 # 100))) (fun no_he =>
    Ok (fold_left (fun b k => if String.eqb k "he_core_mass" then setattr b k (attr b "mass")
                              else if String.eqb k "co_core_mass" then setattr b k (if no_he then attr b "mass" else fin 0)
                              else if mem k WD_KEPT then b else setattr b k None) STARPROPERTIES b)).
  Inductive outcome := Done (s : sstar) | Failed (msg : string).
  (** Lines 573-674: the stored outcome, if it is used.  [model] is the result of get_SN_MODEL_NAME (None if there is none), `selected`
      the stored outcome after "overwrite ECSN in SN MODEL".  The result also says which SN_type was found (the empty text otherwise).
      That the stored dictionary itself is changed is left out. *)
  Definition selected (t : string) (p : sn_model) : sn_model := if String.eqb (p_type p) "ECSN" then SNProps t (p_state p) (p_values p) else p.
  Definition interpolated (s : sstar) (t : string) (p : sn_model) : result (option sstar) :=
    let p := selected t p in
    if String.eqb t "ECSN" then Ok None
    else if negb (String.eqb t (p_type p)) then Ok None
    else if negb (check_SN_CO_match (p_type p) (p_state p)) then Ok None
    else match dget String.eqb (p_values p) "mass" with
    | None => Raise KeyError
    | Some m =>
      if isna m then Ok None
      else
        let b := set_state (set_all (body s) (p_values p)) (p_state p) in
        rbind (if String.eqb (sstate b) "WD" then wd_reset b else Ok (reset_except [ "mass"; "spin"; "m_disk_accreted"; "m_disk_radiated" ] b)) (fun b =>
        if String.eqb (p_type p) "PISN" then Ok (Some (with_body s (convert_star_to_massless_remnant b) (Some (p_type p))))
        else rbind (co_log_R b) (fun r => Ok (Some (with_body s (setattr b "log_R" r) (Some (p_type p))))))
    end.
  Definition use_interpolation (model : bool) (s : sstar) : result (option sstar * string) :=
    if use_interp_values cfg then
      if negb model then Raise ValueError
      else match stored s with
      | None => Ok (None, "")
      | Some p =>
        rbind (check_SN_type (ECSN cfg) (attr (body s) "co_core_mass") (attr (body s) "he_core_mass") (attr (body s) "mass")) (fun o =>
        let '(_, _, _, t) := o in rbind (interpolated s t p) (fun r => Ok (r, t)))
      end
    else Ok (None, "").
  (** Lines 725-729 and 861-865. *)
  Definition m_grav (m_rembar : Q) : Q :=
    let g := lattimer m_rembar in if qlt (max_neutrino_mass_loss cfg) (m_rembar - g) then m_rembar - max_neutrino_mass_loss cfg else g.
  (** do_core_collapse_BH and get_ejecta_element_mass_at_collapse of profile_collapse.py, and the dimensionless spin of lines 783 and 924,
      c J / (G M^2), as functions. *)
  Record bh := BH { M_BH_total : pnum; a_BH_total : pnum; m_disk_acc : pnum; m_disk_rad : pnum; others : list (string * pnum) }.
  Variables (core_collapse_BH : sstar -> Q -> Q -> Q -> result bh) (ejecta : sstar -> pnum -> result (pnum * pnum)) (spin_of : num -> Q -> num).
  Definition no_disk (b : star) : star := setattr (setattr b "m_disk_accreted" (fin 0)) "m_disk_radiated" (fin 0).
  Definition eject (b : star) (h he : pnum) : star := setattr (setattr b "h1_mass_ej" h) "he4_mass_ej" he.
  (** Lines 734-764 and 870-907; [engine_state] is the state given by an engine, None for the mechanisms of FRYER. *)
  Definition by_profile (s : sstar) (engine_state : option (option string)) (m_rembar g : Q) : result (sstar + string) :=
    let d := let d := m_rembar - g in if qlt (max_neutrino_mass_loss cfg) d then max_neutrino_mass_loss cfg else d in
    let is st := match engine_state with None => true | Some None => false | Some (Some x) => String.eqb x st end in
    rbind (if qle (max_NS_mass cfg) g && is "BH" then
             rbind (core_collapse_BH s m_rembar (max_NS_mass cfg + d) d) (fun r =>
             let b := set_all (body s) (("M_BH_total", M_BH_total r) :: ("a_BH_total", a_BH_total r) :: ("m_disk_accreted", m_disk_acc r)
                                        :: ("m_disk_radiated", m_disk_rad r) :: others r) in
             Ok (inl (set_state (setattr (setattr b "mass" (M_BH_total r)) "spin" (a_BH_total r)) "BH")))
           else match engine_state with
                | None => Ok (inl (set_state (no_disk (setattr (setattr (body s) "mass" (fin g)) "spin" (fin 0))) "NS"))
                | Some st => if is "NS" then Ok (inl (no_disk (setattr (setattr (body s) "mass" (fin g)) "spin" (fin 0))))
                             else Ok (inr ("FAILED core collapse! (Invalid core state: " ++ match st with Some x => x | None => "None" end ++ ")")%string)
                end) (fun r =>
    match r with
    | inl b => let s := with_body s b (SN_type s) in
               rbind (ejecta s (attr b "mass")) (fun e => Ok (inl (with_body s (eject b (fst e) (snd e)) (SN_type s))))
    | inr msg => Ok (inr msg)
    end).
  (** Lines 766-798 and 909-939: log_total_angular_momentum None cannot be raised to a power. *)
  Definition by_core_mass (s : sstar) (g : Q) : result sstar :=
    let b := setattr (body s) "mass" (fin g) in
    rbind (if qle (max_NS_mass cfg) g then
             match attr b "log_total_angular_momentum" with
             | None => Raise TypeError
             | Some j => let a := spin_of j g in Ok (set_state (no_disk (setattr b "spin" (Some (if ngt a (Fin 1) then Fin 1 else a)))) "BH")
             end
           else Ok (set_state (no_disk (setattr b "spin" (fin 0))) "NS")) (fun b =>
    Ok (with_body s (eject b (Some NaN) (Some NaN)) (SN_type s))).
  (** Lines 800-812 and 941-953. *)
  Definition without_spin (s : sstar) (g : Q) : sstar :=
    let b := no_disk (setattr (setattr (body s) "mass" (fin g)) "spin" None) in
    with_body s (eject (set_state b (if qle (max_NS_mass cfg) g then "BH" else "NS")) (Some NaN) (Some NaN)) (SN_type s).
  (** Lines 965-975. *)
  Definition finish (s : sstar) : result sstar :=
    let b := setattr (body s) "metallicity" (last_Z s) in
    rbind (co_log_R b) (fun r =>
    Ok (with_body s (reset_except [ "mass"; "spin"; "log_R"; "metallicity"; "m_disk_accreted"; "m_disk_radiated"; "co_core_mass" ] (setattr b "log_R" r)) (SN_type s))).
  (** Lines 563-567. *)
  Definition none_to_nan (b : star) : star :=
    fold_left (fun b k => match attr b k with None => setattr b k (Some NaN) | _ => b end) [ "m_disk_accreted"; "m_disk_radiated" ] b.
  (** Lines 676-963 after the interpolation; [found] is the SN_type of use_interpolation. *)
  Definition collapse_by_mechanism (s : sstar) (found : string) : result outcome :=
    if negb (mem (mechanism cfg) (FRYER ++ ENGINES)) then rbind (finish s) (fun s => Ok (Done s)) else
    rbind (PISN_prescription (row_of (body s)) (last_row s) (attr (body s) "metallicity")) (fun m_PISN =>
    rbind (compute_m_rembar (row_of (body s)) (last_row s) m_PISN) (fun o =>
    let '(m, f, st, t) := o in
    let engine_state := if mem (mechanism cfg) FRYER then None else Some st in
    let b := setattr (body s) "f_fb" f in
    if String.eqb t "WD" then
      let b := set_state (setattr (setattr b "mass" m) "spin" (fin 0)) "WD" in
      rbind (co_log_R b) (fun r => rbind (wd_reset (setattr b "log_R" r)) (fun b => Ok (Done (with_body s b (Some t)))))
    else
    let b := match engine_state with Some (Some x) => set_state b x | _ => b end in
    let s := with_body s b (Some t) in
    if isna m then Ok (Done (with_body s (convert_star_to_massless_remnant b) (Some t)))
    else rbind (finite m) (fun m_rembar =>
    let g := m_grav m_rembar in
    if use_profiles cfg && has_profile s then
      rbind (by_profile s engine_state m_rembar g) (fun r => match r with inl s => rbind (finish s) (fun s => Ok (Done s)) | inr msg => Ok (Failed msg) end)
    else if use_core_masses cfg || String.eqb found "ECSN" then rbind (by_core_mass s g) (fun s => rbind (finish s) (fun s => Ok (Done s)))
    else if allow_spin_None cfg then rbind (finish (without_spin s g)) (fun s => Ok (Done s))
    else Ok (Failed "FAILED core collapse!")))).
  (** collapse_star, lines 527-975. *)
  Definition collapse_star (model : bool) (s : sstar) : result outcome :=
    let s := with_body s (none_to_nan (body s)) (SN_type s) in
    if mem (sstate (body s)) CC_STATES then
      rbind (use_interpolation model s) (fun r =>
      match fst r with Some s => Ok (Done s) | None => collapse_by_mechanism s (snd r) end)
    else Ok (Failed ("The star cannot collapse: star state " ++ sstate (body s) ++ ".")%string).
End Collapse.
