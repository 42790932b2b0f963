(** Independent specification of the evolution flow: a priority rule table written with
    per-state predicates (no use of the loops or lists of the model). *)
From Coq Require Import String List Bool.
From Verif Require Import PyBase FlowChartModel.

Definition known_star (s : star_state) : bool :=
  match s with SOther _ => false | _ => true end.
Definition known_bin (b : bin_state) : bool :=
  match b with BOther _ => false | _ => true end.
Definition known_event (e : event) : bool :=
  match e with EvEND | EvFAILED | EOther _ => false | _ => true end.

Definition compact (s : star_state) : bool :=
  match s with WD | NS | BH => true | _ => false end.
Definition massless (s : star_state) : bool :=
  match s with massless_remnant => true | _ => false end.
(** An ordinary star: neither compact nor massless. *)
Definition ordinary (s : star_state) : bool :=
  known_star s && negb (compact s) && negb (massless s).
(** Stars that belong to the helium-rich family; the two non-burning H-rich/accreted
    states are counted on both sides. *)
Definition he_rich (s : star_state) : bool :=
  match s with
  | str_Core_He_burning | str_Core_He_depleted | str_Core_C_depleted | str_non_burning
  | acc_Core_He_burning | acc_non_burning | HR_non_burning => true
  | _ => false
  end.
Definition h_rich (s : star_state) : bool :=
  ordinary s &&
  match s with
  | str_Core_He_burning | str_Core_He_depleted | str_Core_C_depleted | str_non_burning
  | acc_Core_He_burning => false
  | _ => true
  end.
Definition c_depleted (s : star_state) : bool :=
  match s with HR_Core_C_depleted | str_Core_C_depleted => true | _ => false end.
(** Stars allowed to collapse. *)
Definition collapsible (s : star_state) : bool :=
  match s with
  | HR_Core_C_depleted | HR_Core_He_depleted | str_Core_He_depleted | str_Core_C_depleted
  | str_non_burning | HR_non_burning | HR_Shell_H_burning | acc_Shell_H_burning
  | acc_non_burning => true
  | _ => false
  end.
Definition zams_star (s : star_state) : bool :=
  match s with HR_Core_H_burning => true | _ => false end.

Definition ce_event (e : event) : bool :=
  match e with oCE1 | oCE2 | oDoubleCE1 | oDoubleCE2 => true | _ => false end.

(** One star matches [p] and its companion matches [q], in either order. *)
Definition pair_of (p q : star_state -> bool) (s1 s2 : star_state) : bool :=
  (p s1 && q s2) || (q s1 && p s2).

(** Onset of Roche-lobe overflow from [donor] onto [acc]. *)
Definition rlo_rule (donor acc : star_state) : option step_name :=
  if he_rich donor && he_rich acc then Some step_merged
  else if compact acc then
    if he_rich donor && negb (c_depleted donor) then Some step_CO_HeMS_RLO
    else if h_rich donor && negb (c_depleted donor) then Some step_CO_HMS_RLO
    else None
  else None.

Definition bin_is (b b' : bin_state) : bool := if bin_eq_dec b b' then true else false.
Definition event_is (e e' : event) : bool := if event_eq_dec e e' then true else false.

Definition detached_rule (s1 s2 : star_state) (e : event) : option step_name :=
  if event_is e ZAMS then
    if zams_star s1 && zams_star s2 then Some step_HMS_HMS else None
  else if event_is e redirect_from_ZAMS then
    if zams_star s1 && zams_star s2 then Some step_detached else None
  else if event_is e EvNone then
    if compact s1 && compact s2 then Some step_dco
    else if pair_of compact (fun s => he_rich s && negb (c_depleted s)) s1 s2
         then Some step_CO_HeMS
    else if pair_of compact h_rich s1 s2 then Some step_detached
    else if ordinary s1 && ordinary s2 then Some step_detached
    else None
  else if event_is e redirect_from_CO_HMS_RLO then
    if pair_of compact h_rich s1 s2 then Some step_detached else None
  else if event_is e redirect_from_CO_HeMS || event_is e redirect_from_CO_HeMS_RLO then
    if pair_of compact he_rich s1 s2 then Some step_detached else None
  else None.

Definition when (c : bool) (st : step_name) : option step_name := if c then Some st else None.

(** Events after which nothing can happen. *)
Definition terminal_event (e : event) : bool :=
  event_is e maxtime || event_is e MaxTime_exceeded || event_is e CO_contact.

(** The rule table, highest priority first. *)
Definition spec_step (s1 s2 : star_state) (b : bin_state) (e : event) : option step_name :=
  if negb (known_star s1 && known_star s2 && known_bin b && known_event e) then None
  (* 1. nothing left to evolve *)
  else if massless s1 && massless s2 then Some step_end
  else if pair_of compact massless s1 s2 then Some step_end
  (* 2. the clock or a compact-object contact stops the evolution *)
  else if terminal_event e then Some step_end
  (* 3. binary states with their own rule *)
  else if bin_is b initial_RLOF then Some step_end
  else if bin_is b merged && (event_is e oMerging1 || event_is e oMerging2) then Some step_merged
  else if bin_is b initially_single_star && event_is e ZAMS then Some step_initially_single
  else if bin_is b disrupted && compact s1 && compact s2 then Some step_end
  (* 4. core collapse of an eligible star *)
  else if event_is e CC1 then when (collapsible s1) step_SN
  else if event_is e CC2 then when (collapsible s2) step_SN
  else if bin_is b disrupted then Some step_disrupted
  (* 5. common envelope *)
  else if bin_is b RLO1 && (event_is e oCE1 || event_is e oDoubleCE1)
       then when (ordinary s1) step_CE
  else if bin_is b RLO2 && (event_is e oCE2 || event_is e oDoubleCE2)
       then when (ordinary s2) step_CE
  else if bin_is b contact && ce_event e then when (ordinary s2) step_CE
  (* 6. onset of Roche-lobe overflow *)
  else if bin_is b RLO1 && event_is e oRLO1 then rlo_rule s1 s2
  else if bin_is b RLO2 && event_is e oRLO2 then rlo_rule s2 s1
  (* 7. detached binaries *)
  else if bin_is b detached then detached_rule s1 s2 e
  else None.

(** Relabelling the two stars. *)
Definition mirror_bin (b : bin_state) : bin_state :=
  match b with RLO1 => RLO2 | RLO2 => RLO1 | _ => b end.
Definition mirror_event (e : event) : event :=
  match e with
  | CC1 => CC2 | CC2 => CC1 | oRLO1 => oRLO2 | oRLO2 => oRLO1 | oCE1 => oCE2 | oCE2 => oCE1
  | oDoubleCE1 => oDoubleCE2 | oDoubleCE2 => oDoubleCE1
  | oMerging1 => oMerging2 | oMerging2 => oMerging1 | Match1 => Match2 | Match2 => Match1
  | _ => e
  end.

Definition documented_step (st : step_name) : bool :=
  match st with StOther _ | step_HMS_HMS_RLO => false | _ => true end.

(** Requested value of a changed key: what the caller's dictionary says, else the base. *)
Definition requested (base chg : key -> option step_name) (k : key) : option step_name :=
  match base k with
  | None => None
  | Some old => match chg k with Some new => Some new | None => Some old end
  end.

(** Pairs of stars the HMS-HMS RLO grid accepts: ordinary and not carbon-depleted. *)
Definition evolvable (s : star_state) : bool := ordinary s && negb (c_depleted s).

(** What the eccentric chart should contain, given the (customised) base. *)
Definition ecc_expected (base : key -> option step_name) (k : key) : option step_name :=
  if evolvable (k1 k) && evolvable (k2 k) &&
     match kb k, ke k with RLO1, oRLO1 | RLO2, oRLO2 => true | _, _ => false end
  then Some step_HMS_HMS_RLO
  else match base k with
  | None => None
  | Some old => match kb k, ke k with detached, ZAMS => Some step_detached | _, _ => Some old end
  end.

(** Situations in which nothing is left to do. *)
Definition finished (s1 s2 : star_state) (b : bin_state) (e : event) : Prop :=
  terminal_event e = true
  \/ b = initial_RLOF
  \/ (massless s1 = true /\ massless s2 = true)
  \/ (massless s1 = true /\ compact s2 = true)
  \/ (compact s1 = true /\ massless s2 = true)
  \/ (b = disrupted /\ compact s1 = true /\ compact s2 = true).

Definition known_key (k : key) : bool :=
  known_star (k1 k) && known_star (k2 k) && known_bin (kb k) && known_event (ke k).

Definition mirror_key (k : key) : key :=
  Key (k2 k) (k1 k) (mirror_bin (kb k)) (mirror_event (ke k)).

(** The only total states whose step depends on the labelling: contact binaries entering
    a common envelope in which exactly one component is an ordinary star. *)
Definition label_dependent (k : key) : bool :=
  known_key k && match kb k with contact => true | _ => false end && ce_event (ke k)
  && xorb (ordinary (k1 k)) (ordinary (k2 k)).

(** Vocabulary for the statements about flow_chart() calls: the chart a call starts from,
    the requested changes, and sequences of calls on the heap of dictionaries. *)
Definition base_of (h : heap) (fc : option loc) : chart :=
  match fc with None => hget h default_loc | Some l => hget h l end.
Definition chg_get (chg : option chart) (k : key) : option step_name :=
  match chg with None => None | Some d => chart_get d k end.

Definition valid_fc (h : heap) (fc : option loc) : Prop :=
  match fc with None => True | Some l => l < length h end.

Inductive call :=
| CFlow (fc : option loc) (chg : option chart)
| CEcc (fc : option loc) (chg : option chart).
Definition call_fc (c : call) := match c with CFlow f _ => f | CEcc f _ => f end.
Definition do_call (h : heap) (c : call) : heap :=
  match c with
  | CFlow f g => fst (flow_chart h f g)
  | CEcc f g => fst (initial_eccentricity_flow_chart h f g)
  end.
Definition do_calls (h : heap) (cs : list call) : heap := fold_left do_call cs h.
