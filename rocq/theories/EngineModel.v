(** The explosion engines (posydon/binary_evol/SN/step_SN.py:2249-2906 and utils/common_functions.py:1787-1830).  Numbers are rationals; rounding is
    not modelled. *)
From Coq Require Import String Bool List QArith.
From Verif Require Import PyBase SNModel SNNameModel.
Import ListNotations.
Open Scope string_scope.
Open Scope Q_scope.
Open Scope list_scope.

(** What the engines read of a star; the history has state, co_core_mass and avg_c_in_c_core of each step, e_last the state, mass and he_core_mass of
    the last one (None: empty). *)
Record star := Star { e_state : string; e_mass : Q; e_he : Q; e_co : Q; e_last : option (string * Q * Q);
  e_co_depl : option Q; e_c_depl : option Q; e_hist : option (list (string * option Q * option Q)) }.
(** Remnant mass, fallback fraction, state. *)
Record outcome := Out { o_mass : Q; o_fb : Q; o_state : string }.

(** ** Values at helium depletion *)
(** common_functions.py:1787-1830; all histories have the same length. *)
Definition first_in (st : string) (h : list (string * option Q * option Q)) : option (string * option Q * option Q) :=
  find (fun r => String.eqb (fst (fst r)) st) h.
Definition values_at_He_depl (s : star) : option Q * option Q :=
  match e_hist s with
  | None => (None, None)
  | Some h =>
    match first_in "H-rich_Core_He_depleted" h with
    | Some r => (snd (fst r), snd r)
    | None => match first_in "stripped_He_Core_He_depleted" h with Some r => (snd (fst r), snd r) | None => (None, None) end
    end
  end.

Section Engines.
  (** np.log; the four nearest-neighbour regressions of (C abundance, CO core mass); a draw of RNG.uniform(0, 1). *)
  Variable log : Q -> Q.
  Variable predict_M4 predict_mu4 predict_Xi predict_sc : Q -> Q -> Q.
  Variable draw : Q.

  (** Lines 2249-2255. *)
  Definition C_abundance_for_H_stars (m : Q) : result Q := if Qeq_bool m 0 then Raise (OtherError "ZeroDivisionError") else Ok ((2 # 10) / m + (15 # 100)).
  Definition C_abundance_for_He_stars (m : Q) : Q := - (84 # 1000) * log m + (4 # 10).
  (** Lines 2257-2306: CO core mass, C abundance.  The test for a text in the last state of an empty history is an IndexError. *)
  Definition in_states (t : string) (s : star) : result bool :=
    if contains t (e_state s) then Ok true else match e_last s with Some (st, _, _) => Ok (contains t st) | None => Raise IndexError end.
  Definition get_CO_core_params (approximation : bool) (s : star) : result (Q * Q) :=
    if approximation then
      rbind (in_states "H-rich" s) (fun h =>
      if h then rbind (C_abundance_for_H_stars (e_co s)) (fun c => Ok (e_co s, c)) else
      rbind (in_states "stripped_He" s) (fun h =>
      if h then Ok (e_co s, C_abundance_for_He_stars (e_co s)) else Raise ValueError))
    else match e_co_depl s, e_c_depl s with
         | Some m, Some c => Ok (m, c)
         | _, _ => match values_at_He_depl s with (Some m, Some c) => Ok (m, c) | _ => Raise (OtherError "ModelError") end
         end.

  Definition collapsed (conserve : bool) (s : star) (f : Q) : outcome := Out (if conserve then e_mass s else e_he s) f "BH".

  (** Lines 2345-2352. *)
  Definition Ertl16_k_parameters : list (string * (Q * Q)) := [
    ("N20", (194 # 1000, 580 # 10000)); ("S19.8", (274 # 1000, 470 # 10000)); ("W15", (225 # 1000, 495 # 10000));
    ("W20", (284 # 1000, 393 # 10000)); ("W18", (283 # 1000, 430 # 10000)); ("Ertl2020", (182 # 1000, 608 # 10000))].
  (** Lines 2318-2402: the outcome and the values stored at the star. *)
  Definition Patton20_corecollapse (approx : bool) (s : star) (engine : string) (conserve : bool) : result (outcome * list (string * Q)) :=
    match dget String.eqb Ertl16_k_parameters engine with
    | None => Raise ValueError
    | Some (k1, k2) =>
      rbind (get_CO_core_params approx s) (fun '(co, c) =>
      let M4 := predict_M4 c co in let mu4 := predict_mu4 c co in
      Ok (if qle co (25 # 10) then Out (125 # 100) 0 "NS"
          else if qle 10 co then collapsed conserve s 1
          else if qlt (k1 * (mu4 * M4) + k2) mu4 then collapsed conserve s 1
          else Out M4 0 "NS", [("M4", M4); ("mu4", mu4)]))
    end.

  (** Lines 2529-2561. *)
  Definition explod_crit (comp sc mu4M4 mu4 k1 k2 : Q) : bool :=
    let failed := qlt (544 # 1000) comp || qlt (1169 # 1000) sc in
    let success := qlt comp (314 # 1000) || qlt sc (988 # 1000) in
    if (success && failed) || (negb success && negb failed) then
      if qlt (421 # 1000) mu4M4 then false
      else if qlt mu4M4 (247 # 1000) then true
      else if qlt 0 (k1 + k2 * mu4M4 - mu4) then false
      else true
    else success.
  (** Lines 2514-2526. *)
  Definition NS_vs_fallbackBH (comp mco M4 mu4M4 : Q) : string :=
    if qle comp (4 # 100) || (qlt comp ((175 # 100) * mu4M4 + - (44 # 1000)) && qle comp (4 # 10)) || qlt (6 # 10) (M4 / mco) then "NS"
    else if qle draw (15 # 100) then "fallback_BH" else "NS".
  (** Lines 2404-2512. *)
  Definition Maltsev25_corecollapse (approx : bool) (s : star) (engine : string) (conserve : bool) : result (outcome * list (string * Q)) :=
    match dget String.eqb [("M16", (5 # 1000, 420 # 1000))] engine with
    | None => Raise ValueError
    | Some (k1, k2) =>
      rbind (get_CO_core_params approx s) (fun '(co, c) =>
      let M4 := predict_M4 c co in let mu4 := predict_mu4 c co in let Xi := predict_Xi c co in let sc := predict_sc c co in
      let mu4M4 := mu4 * M4 in
      Ok (if qle co (25 # 10) then Out (125 # 100) 0 "NS"
          else if qle 10 co then collapsed conserve s 1
          else if explod_crit Xi sc mu4M4 mu4 k1 k2 then
            if String.eqb (NS_vs_fallbackBH Xi co M4 mu4M4) "NS" then Out M4 0 "NS" else collapsed conserve s (99 # 100)
          else collapsed conserve s 1, [("M4", M4); ("mu4", mu4); ("Xi", Xi); ("sc", sc)]))
    end.
End Engines.

(** ** Tables *)
(** A row: He_c_mass, Rem_mass, stellar_state, fallback_mass. *)
Record row := Row { r_he : Q; r_rem : Q; r_kind : nat; r_fallback : Q }.
(** Lines 2623-2629. *)
Definition selected (r : row) : bool := Nat.eqb (r_kind r) 13 || (Nat.eqb (r_kind r) 14 && Qeq_bool (r_fallback r) 0).
(** The classifier of lines 2637-2646: the class of a row whose core mass is nearest (of several, here the first one). *)
Definition dist (x : Q) (r : row) : Q := let d := r_he r - x in if qlt d 0 then - d else d.
Fixpoint nearest (x : Q) (l : list row) : option row :=
  match l with
  | [] => None
  | r :: l' => match nearest x l' with None => Some r | Some b => if qle (dist x r) (dist x b) then Some r else Some b end
  end.
(** scipy's interp1d of points: sorts them by abscissa (stable) and interpolates linearly in their range, as numpy's interp does. *)
Fixpoint insert (p : Q * Q) (l : list (Q * Q)) : list (Q * Q) :=
  match l with [] => [p] | q :: l' => if qle (fst p) (fst q) then p :: l else q :: insert p l' end.
Definition sorted (l : list (Q * Q)) : list (Q * Q) := fold_right insert [] l.
Fixpoint interp (l : list (Q * Q)) (x : Q) : Q :=
  match l with
  | [] => 0
  | p :: l' =>
    match l' with
    | [] => snd p
    | q :: _ => if qle (fst q) x then interp l' x else snd p + (snd q - snd p) / (fst q - fst p) * (x - fst p)
    end
  end.
Definition lowest (l : list (Q * Q)) : Q := fst (hd (0, 0) l).
Definition highest (l : list (Q * Q)) : Q := fst (last l (0, 0)).
Definition points (kind : nat) (t : list row) : list (Q * Q) :=
  sorted (map (fun r => (r_he r, r_rem r)) (filter (fun r => Nat.eqb (r_kind r) kind) (filter selected t))).
(** Lines 2675-2699. *)
Definition extrapolate1d_NS (v : Q) (l : list (Q * Q)) : Q :=
  if qle (lowest l) v && qle v (highest l) then interp l v else if qlt v (lowest l) then interp l (lowest l) else interp l (highest l).
Definition extrapolate1d_BH (v : Q) (l : list (Q * Q)) : Q :=
  if qle (lowest l) v && qle v (highest l) then interp l v else if qlt v (lowest l) then interp l (lowest l) else v.

(** STAR_STATES_CC, binary_evol/flow_chart.py. *)
Definition in_CC (st : string) : bool := existsb (String.eqb st) CC_STATES.
(** Lines 2714-2724: total mass and helium core mass. *)
Definition masses (s : star) : result (Q * Q) :=
  if in_CC (e_state s) then Ok (e_mass s, e_he s)
  else match e_last s with
       | None => Raise IndexError
       | Some (st, m, h) => if in_CC st then Ok (m, h) else Raise ValueError
       end.
(** Lines 2600-2710: the engines.  Lines 2712-2747: the collapse. *)
Definition Sukhbold16 (t : list row) (engine : string) (s : star) (conserve : bool) : result outcome :=
  if existsb (String.eqb engine) ["N20"; "S19.8"; "W15"; "W20"; "W18"] then
    rbind (masses s) (fun '(m_star, m_he) =>
    match nearest m_he (filter selected t) with
    | None => Raise ValueError
    | Some r =>
      if Nat.eqb (r_kind r) 13 then Ok (Out (extrapolate1d_NS m_he (points 13 t)) 0 "NS")
      else if Nat.eqb (r_kind r) 14 then Ok (Out (extrapolate1d_BH (if conserve then m_star else m_he) (points 14 t)) 1 "BH")
      else Raise ValueError
    end)
  else Raise ValueError.

(** Lines 2792-2861: the table (He core mass, explosion energy); the message of line 2804 reads an attribute that no line sets. *)
Definition Couch20_init (strength : string) (verbose : bool) (t : list (Q * Q)) : result (list row) :=
  if existsb (String.eqb strength) ["1.0"; "1.2"; "1.23"; "1.25"; "1.27"; "1.3"; "1.4"] then
    if verbose then Raise AttributeError
    else Ok (map (fun p => Row (fst p) 0 (if Qeq_bool (snd p) 0 then 14 else 13)%nat 0) t)
  else Raise ValueError.
(** Lines 2863-2906. *)
Definition Couch20 (t : list row) (s : star) (conserve : bool) : result outcome :=
  rbind (masses s) (fun '(m_star, m_he) =>
  match nearest m_he t with
  | None => Raise ValueError
  | Some r => if Nat.eqb (r_kind r) 13 then Ok (Out (14 # 10) 0 "NS")
              else if Nat.eqb (r_kind r) 14 then Ok (Out (if conserve then m_star else m_he) 1 "BH")
              else Raise ValueError
  end).
