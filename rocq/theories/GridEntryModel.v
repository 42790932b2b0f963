(** Model of the decisions at the beginning of the steps that use a grid of MESA models:
    posydon/binary_evol/MESA/step_mesa.py, [MS_MS_step.__call__] (1305-1385), [CO_HMS_RLO_step.__call__] (1402-1500),
    [CO_HeMS_RLO_step.__call__] (1517-1615), [CO_HeMS_step.__call__] (1632-1711) and [HMS_HMS_RLO_step.__call__] (1746-1861).

    Masses, periods and eccentricities are rational numbers (floats are); NaN is not modelled.  Comparisons of floats are exact; the
    quotients [m2/m1] and [0.5/m1] are exact here and rounded in the code.  Error messages are not modelled.  What happens to a binary that
    is accepted ([super().__call__]) is in [GridStepModel]. *)
From Coq Require Import String List Bool QArith.
From Verif Require Import PyBase FlowChartModel.
Import ListNotations.
Open Scope string_scope.
Open Scope Q_scope.
Open Scope list_scope.

(** What a step reads of a binary (e.g. step_mesa.py:1408-1416). *)
Record system := System { st1 : star_state; st2 : star_state; ev : event; bst : bin_state; mass1 : Q; mass2 : Q; period : Q; eccen : Q }.
(** The boundaries of a grid: _find_boundaries (293-295), 1302-1303 and 1734-1744; [q_min], [q_max] and [min_mass] are only used by steps
    sampled in the mass ratio. *)
Record grid := Grid { m1_min : Q; m1_max : Q; m2_min : Q; m2_max : Q; p_min : Q; p_max : Q; q_min : Q; q_max : Q; min_mass : Q }.

(** What the step decides: to evolve the binary with the grid (after exchanging the stars if [flip]); to return with another binary state and
    event; or to mark the binary as failed and raise. *)
Inductive decision := Evolve (flip : bool) | Return (b : bin_state) (e : event) | Fails (x : exn).
Definition GridError := OtherError "GridError".

Definition le (x y : Q) : bool := Qle_bool x y.
Definition lt (x y : Q) : bool := negb (Qle_bool y x).
(** [lo <= x <= hi] *)
Definition within (lo x hi : Q) : bool := le lo x && le x hi.
(** [x < lo or x > hi] *)
Definition outside (lo x hi : Q) : bool := lt x lo || lt hi x.
(** [np.max([x, y])] *)
Definition qmax (x y : Q) : Q := if le x y then y else x.
Definition period_in (g : grid) (x : system) : bool := within (p_min g) (period x) (p_max g).

(** step_mesa.py:1419-1427 (and 1764-1772) *)
Definition FOR_RLO_STATES : list star_state :=
  [ HR_Core_H_burning; HR_Shell_H_burning; HR_Core_He_burning; HR_Core_He_depleted; HR_Core_C_burning; acc_Core_H_burning;
    HR_Core_C_depleted; HR_non_burning; acc_non_burning ].
(** step_mesa.py:1534-1545 (and 1648-1659) *)
Definition CO_He_STATES : list star_state :=
  [ acc_Core_He_burning; str_Core_He_burning; SOther "stripped_He_Shell_He_burning"; str_Core_He_depleted; str_Core_C_depleted;
    str_non_burning; HR_non_burning; acc_non_burning ].
Definition COMPACT : list star_state := [ WD; NS; BH ].

(** step_mesa.py:1305-1385.  0.5 is the least mass of a star of the grid. *)
Definition ms_ms (g : grid) (x : system) : decision :=
  let zams := star_eqb (st1 x) HR_Core_H_burning && star_eqb (st2 x) HR_Core_H_burning && event_eqb (ev x) ZAMS in
  let mass_ratio := mass2 x / mass1 x in
  let least := qmax (q_min g) ((1 # 2) / mass1 x) in
  if zams && within (m1_min g) (mass1 x) (m1_max g) && within least mass_ratio (q_max g) && period_in g x then Evolve false
  else if zams && within (m1_min g) (mass2 x) (m1_max g) && within least (1 / mass_ratio) (q_max g) && period_in g x then Evolve true
  else if zams && lt (p_max g) (period x) then Return (bst x) redirect_from_ZAMS
  else if zams && lt (period x) (p_min g) then Return (bst x) redirect_from_ZAMS
  else if zams && period_in g x && outside (m1_min g) (mass1 x) (m1_max g) then Fails GridError
  else if zams && period_in g x && outside least mass_ratio (q_max g) then Fails GridError
  else if star_eqb (st1 x) HR_Core_C_depleted then Return (bst x) CC1
  else if star_eqb (st2 x) HR_Core_C_depleted then Return (bst x) CC2
  else Fails FlowError.

(** The first half of the three steps with a compact object (1431-1451, 1549-1569, 1661-1680): is the binary to be flipped? *)
Definition roles (donors : list star_state) (depleted : star_state) (e1 e2 : event) (x : system) : bool + decision :=
  if star_in (st2 x) COMPACT && star_in (st1 x) donors && event_eqb (ev x) e1 then
    if star_eqb (st1 x) depleted then inr (Return (bst x) CC1) else inl false
  else if star_in (st1 x) COMPACT && star_in (st2 x) donors && event_eqb (ev x) e2 then
    if star_eqb (st2 x) depleted then inr (Return (bst x) CC2) else inl true
  else inr (Fails FlowError).
(** The condition to evolve of these steps (1453-1462, 1572-1580, 1684-1693). *)
Definition in_grid (g : grid) (flip : bool) (x : system) : bool :=
  (negb flip && within (m1_min g) (mass1 x) (m1_max g) && within (m2_min g) (mass2 x) (m2_max g) && period_in g x && Qeq_bool (eccen x) 0)
  || (flip && within (m1_min g) (mass2 x) (m1_max g) && within (m2_min g) (mass1 x) (m2_max g) && period_in g x && Qeq_bool (eccen x) 0).

(** step_mesa.py:1402-1500 *)
Definition co_hms_rlo (g : grid) (x : system) : decision :=
  match roles FOR_RLO_STATES HR_Core_C_depleted oRLO1 oRLO2 x with
  | inr d => d
  | inl flip =>
      if in_grid g flip x then Evolve flip
      else if negb flip && period_in g x && outside (m1_min g) (mass1 x) (m1_max g) then Fails GridError
      else if negb flip && period_in g x && outside (m2_min g) (mass2 x) (m2_max g) then Fails GridError
      else if flip && period_in g x && outside (m1_min g) (mass2 x) (m1_max g) then Fails GridError
      else if flip && period_in g x && outside (m2_min g) (mass1 x) (m2_max g) then Fails GridError
      else Return detached redirect_from_CO_HMS_RLO
  end.

(** step_mesa.py:1517-1615; in 1598-1600 and 1605-1607 [and] binds more strongly than [or]. *)
Definition co_hems_rlo (g : grid) (x : system) : decision :=
  match roles CO_He_STATES str_Core_C_depleted oRLO1 oRLO2 x with
  | inr d => d
  | inl flip =>
      if in_grid g flip x then Evolve flip
      else if negb flip && period_in g x && outside (m1_min g) (mass1 x) (m1_max g) then Fails GridError
      else if negb flip && period_in g x && outside (m2_min g) (mass2 x) (m2_max g) then Fails GridError
      else if (flip && period_in g x && lt (mass1 x) (m2_min g)) || lt (m2_max g) (mass1 x) then Fails GridError
      else if (flip && period_in g x && lt (mass2 x) (m1_min g)) || lt (m1_max g) (mass2 x) then Fails GridError
      else Return detached redirect_from_CO_HeMS_RLO
  end.

(** step_mesa.py:1632-1711; 1697 and 1703 do not look at the flip. *)
Definition co_hems (g : grid) (x : system) : decision :=
  match roles CO_He_STATES str_Core_C_depleted EvNone EvNone x with
  | inr d => d
  | inl flip =>
      if in_grid g flip x then Evolve flip
      else if period_in g x && outside (m1_min g) (mass1 x) (m1_max g) then Fails GridError
      else if period_in g x && outside (m2_min g) (mass2 x) (m2_max g) then Fails GridError
      else Return detached redirect_from_CO_HeMS
  end.

(** step_mesa.py:1746-1861.  [flip_stars_before_step] is False in both cases (1778, 1786). *)
Definition hms_hms_rlo (g : grid) (x : system) : decision :=
  let go (flip : bool) : decision :=
    let mass_ratio := mass2 x / mass1 x in
    let least1 := qmax (q_min g) (min_mass g / mass1 x) in
    let least2 := qmax (q_min g) (min_mass g / mass2 x) in
    if (negb flip && within (m1_min g) (mass1 x) (m1_max g) && within least1 mass_ratio (q_max g) && period_in g x && Qeq_bool (eccen x) 0)
       || (flip && within (m1_min g) (mass2 x) (m1_max g) && within least2 (1 / mass_ratio) (q_max g) && period_in g x && Qeq_bool (eccen x) 0)
    then Evolve flip
    else if negb flip && period_in g x && outside (m1_min g) (mass1 x) (m1_max g) then Fails GridError
    else if negb flip && period_in g x && outside (m2_min g) (mass2 x) (m2_max g) then Fails GridError
    else if negb flip && period_in g x && (lt mass_ratio least1 || lt (q_max g) mass_ratio) then Fails GridError
    else if flip && period_in g x && outside (m1_min g) (mass2 x) (m1_max g) then Fails GridError
    else if flip && period_in g x && outside (m2_min g) (mass1 x) (m2_max g) then Fails GridError
    else if flip && period_in g x && (lt (1 / mass_ratio) least2 || lt (q_max g) (1 / mass_ratio)) then Fails GridError
    else Return detached (EOther "redirect_from_HMS_HMS_RLO") in
  if star_in (st2 x) FOR_RLO_STATES && star_in (st1 x) FOR_RLO_STATES && event_eqb (ev x) oRLO1 then
    if star_eqb (st1 x) HR_Core_C_depleted then Return (bst x) CC1 else go false
  else if star_in (st1 x) FOR_RLO_STATES && star_in (st2 x) FOR_RLO_STATES && event_eqb (ev x) oRLO2 then
    if star_eqb (st2 x) HR_Core_C_depleted then Return (bst x) CC2 else go false
  else Fails FlowError.

(** step_mesa.py:280-295, [_find_boundaries]: the least and greatest initial value of the runs with finite initial and final values; [None] is
    a value that is not finite.  numpy's [min] of nothing raises ValueError. *)
Definition usable (runs : list (option Q * option Q)) : list Q :=
  flat_map (fun r => match r with (Some i, Some _) => [i] | _ => [] end) runs.
Definition least_of (l : list Q) : option Q :=
  match l with [] => None | x :: l' => Some (fold_left (fun a y => if lt y a then y else a) l' x) end.
Definition greatest_of (l : list Q) : option Q :=
  match l with [] => None | x :: l' => Some (fold_left (fun a y => if lt a y then y else a) l' x) end.
Definition boundaries (runs : list (option Q * option Q)) : result (Q * Q) :=
  match least_of (usable runs), greatest_of (usable runs) with
  | Some a, Some b => Ok (a, b)
  | _, _ => Raise ValueError
  end.
