(** Model of posydon/binary_evol/flow_chart.py.

    Python strings naming states/events/steps become constructors; any other string is
    [SOther]/[BOther]/[EOther]/[StOther], so unknown names remain representable. *)
From Coq Require Import String List Bool ZArith Lia.
From Verif Require Import PyBase.
Import ListNotations.
Set Implicit Arguments.

(** flow_chart.py:19-40, STAR_STATES_ALL (plus arbitrary other strings). *)
Inductive star_state :=
| WD | NS | BH | massless_remnant
| HR_Core_H_burning | HR_Core_He_burning | HR_Shell_H_burning | HR_Core_He_depleted
| HR_Shell_He_burning | HR_Core_C_burning | HR_Core_C_depleted | HR_non_burning
| acc_Core_H_burning | acc_Shell_H_burning | acc_non_burning | acc_Core_He_burning
| str_Core_He_burning | str_Core_He_depleted | str_Core_C_depleted | str_non_burning
| SOther (name : string).

(** flow_chart.py:137-146, BINARY_STATES_ALL. *)
Inductive bin_state :=
| initially_single_star | detached | RLO1 | RLO2 | contact | disrupted | merged | initial_RLOF
| BOther (name : string).

(** flow_chart.py:150-173, BINARY_EVENTS_ALL ([EvNone] is Python's None); END and FAILED
    (binarystar.py:250) are ordinary other strings for the chart and get their own names. *)
Inductive event :=
| EvNone | CC1 | CC2 | ZAMS | oRLO1 | oRLO2 | oCE1 | oCE2 | oDoubleCE1 | oDoubleCE2
| CO_contact | redirect_from_ZAMS | redirect_from_CO_HMS_RLO | redirect_from_CO_HeMS
| redirect_from_CO_HeMS_RLO | MaxTime_exceeded | maxtime | oMerging1 | oMerging2
| Match1 | Match2 | Match12
| EvEND | EvFAILED
| EOther (name : string).

(** The step names used as values. *)
Inductive step_name :=
| step_HMS_HMS | step_detached | step_CO_HMS_RLO | step_CO_HeMS | step_CO_HeMS_RLO
| step_merged | step_CE | step_SN | step_dco | step_end | step_initially_single
| step_disrupted | step_HMS_HMS_RLO
| StOther (name : string).

Definition star_eq_dec (x y : star_state) : {x = y} + {x <> y}.
Proof. decide equality; apply string_dec. Defined.
Definition bin_eq_dec (x y : bin_state) : {x = y} + {x <> y}.
Proof. decide equality; apply string_dec. Defined.
Definition event_eq_dec (x y : event) : {x = y} + {x <> y}.
Proof. decide equality; apply string_dec. Defined.
Definition step_eq_dec (x y : step_name) : {x = y} + {x <> y}.
Proof. decide equality; apply string_dec. Defined.

Definition star_eqb x y := if star_eq_dec x y then true else false.
Definition bin_eqb x y := if bin_eq_dec x y then true else false.
Definition event_eqb x y := if event_eq_dec x y then true else false.

Lemma star_eqb_spec : forall x y, reflect (x = y) (star_eqb x y).
Proof. intros. unfold star_eqb. destruct (star_eq_dec x y); constructor; assumption. Qed.
Lemma bin_eqb_spec : forall x y, reflect (x = y) (bin_eqb x y).
Proof. intros. unfold bin_eqb. destruct (bin_eq_dec x y); constructor; assumption. Qed.
Lemma event_eqb_spec : forall x y, reflect (x = y) (event_eqb x y).
Proof. intros. unfold event_eqb. destruct (event_eq_dec x y); constructor; assumption. Qed.

(** A total state (star 1 state, star 2 state, binary state, event), the key type. *)
Record key := Key { k1 : star_state; k2 : star_state; kb : bin_state; ke : event }.

Definition key_eqb (x y : key) : bool :=
  star_eqb (k1 x) (k1 y) && star_eqb (k2 x) (k2 y) && bin_eqb (kb x) (kb y)
  && event_eqb (ke x) (ke y).

Lemma key_eqb_spec : forall x y, reflect (x = y) (key_eqb x y).
Proof.
  intros [a b c d] [a' b' c' d']. unfold key_eqb. cbn [k1 k2 kb ke].
  destruct (star_eqb_spec a a'), (star_eqb_spec b b'), (bin_eqb_spec c c'),
    (event_eqb_spec d d'); simpl; constructor; congruence.
Qed.

Definition star_in := inb star_eqb.
Definition bin_in := inb bin_eqb.
Definition event_in := inb event_eqb.

(** Removing the elements of [xs] (each occurs at most once in the base lists, so
    [list.remove] for each of them is a filter). *)
Definition star_minus (l xs : list star_state) : list star_state :=
  filter (fun s => negb (star_in s xs)) l.
Definition event_minus (l xs : list event) : list event :=
  filter (fun s => negb (event_in s xs)) l.

(** flow_chart.py:19-40 *)
Definition STAR_STATES_ALL : list star_state :=
  [ WD; NS; BH; massless_remnant;
    HR_Core_H_burning; HR_Core_He_burning; HR_Shell_H_burning; HR_Core_He_depleted;
    HR_Shell_He_burning; HR_Core_C_burning; HR_Core_C_depleted; HR_non_burning;
    acc_Core_H_burning; acc_Shell_H_burning; acc_non_burning; acc_Core_He_burning;
    str_Core_He_burning; str_Core_He_depleted; str_Core_C_depleted; str_non_burning ].

(** flow_chart.py:42-44 *)
Definition STAR_STATES_CO := [ BH; NS; WD ].
Definition STAR_STATES_NOT_NORMALSTAR := STAR_STATES_CO ++ [ massless_remnant ].

(** flow_chart.py:49-50 *)
Definition STAR_STATES_NORMALSTAR := star_minus STAR_STATES_ALL STAR_STATES_NOT_NORMALSTAR.

(** flow_chart.py:52-57 *)
Definition STAR_STATES_H_RICH := star_minus STAR_STATES_NORMALSTAR
  [ str_Core_He_burning; str_Core_He_depleted; str_Core_C_depleted; str_non_burning;
    acc_Core_He_burning ].

(** flow_chart.py:59-68 *)
Definition STAR_STATES_HE_RICH := star_minus STAR_STATES_NORMALSTAR
  [ HR_Core_H_burning; HR_Core_He_burning; HR_Shell_H_burning; HR_Core_He_depleted;
    HR_Shell_He_burning; HR_Core_C_burning; HR_Core_C_depleted; acc_Core_H_burning;
    acc_Shell_H_burning ].

(** flow_chart.py:70: the states whose name contains "C_depleted" (listed explicitly). *)
Definition STAR_STATES_C_DEPLETED := [ HR_Core_C_depleted; str_Core_C_depleted ].

(** flow_chart.py:92-96, 102: set differences; their iteration order is irrelevant because
    every loop over them writes the same value to distinct keys. *)
Definition STAR_STATES_H_RICH_EVOLVABLE := star_minus STAR_STATES_H_RICH STAR_STATES_C_DEPLETED.
Definition STAR_STATES_HE_RICH_EVOLVABLE :=
  star_minus STAR_STATES_HE_RICH STAR_STATES_C_DEPLETED ++ [ HR_non_burning ].

(** flow_chart.py:105-116 *)
Definition STAR_STATES_CC :=
  [ HR_Core_C_depleted; HR_Core_He_depleted; str_Core_He_depleted; str_Core_C_depleted;
    str_non_burning; HR_non_burning; HR_Shell_H_burning; acc_Shell_H_burning;
    acc_non_burning ].

(** flow_chart.py:137-148 *)
Definition BINARY_STATES_ALL :=
  [ initially_single_star; detached; RLO1; RLO2; contact; disrupted; merged; initial_RLOF ].
Definition BINARY_STATES_CC := BINARY_STATES_ALL.

(** flow_chart.py:150-173 *)
Definition BINARY_EVENTS_ALL :=
  [ EvNone; CC1; CC2; ZAMS; oRLO1; oRLO2; oCE1; oCE2; oDoubleCE1; oDoubleCE2; CO_contact;
    redirect_from_ZAMS; redirect_from_CO_HMS_RLO; redirect_from_CO_HeMS;
    redirect_from_CO_HeMS_RLO; MaxTime_exceeded; maxtime; oMerging1; oMerging2;
    Match1; Match2; Match12 ].

(** flow_chart.py:175-176 *)
Definition BINARY_EVENTS_OF_SN_OR_AFTER_DETACHED :=
  event_minus BINARY_EVENTS_ALL [ CC1; CC2; MaxTime_exceeded; maxtime ].

(** flow_chart.py:180-183 *)
Definition UNDEFINED_STATES : list key :=
  flat_map (fun s1 => map (fun b => Key s1 HR_Core_H_burning b CC2) [ disrupted; detached ])
    STAR_STATES_CO.

(** flow_chart.py:189-190 *)
Definition STAR_STATES_ZAMS := [ HR_Core_H_burning ].
Definition BINARY_STATES_ZAMS := [ detached ].

(** Nested [for] loops producing assignments, in execution order. *)
Definition for_ {A B} (l : list A) (body : A -> list B) : list B := flat_map body l.

(** flow_chart.py:185-359: the assignments [POSYDON_FLOW_CHART[key] = step], in order,
    one definition per loop nest. *)
Definition assigns_ZAMS :=                                         (* 192-195 *)
  for_ BINARY_STATES_ZAMS (fun b => for_ STAR_STATES_ZAMS (fun s1 => for_ STAR_STATES_ZAMS (fun s2 =>
    [ (Key s1 s2 b ZAMS, step_HMS_HMS) ]))).
Definition assigns_redirect_ZAMS :=                                (* 199-202 *)
  for_ BINARY_STATES_ZAMS (fun b => for_ STAR_STATES_ZAMS (fun s1 => for_ STAR_STATES_ZAMS (fun s2 =>
    [ (Key s1 s2 b redirect_from_ZAMS, step_detached) ]))).
Definition assigns_detached_normal :=                              (* 207-210 *)
  for_ STAR_STATES_NORMALSTAR (fun s1 => for_ STAR_STATES_NORMALSTAR (fun s2 =>
    [ (Key s1 s2 detached EvNone, step_detached);
      (Key s2 s1 detached EvNone, step_detached) ])).
Definition assigns_detached_H_CO :=                                (* 214-217 *)
  for_ STAR_STATES_H_RICH (fun s1 => for_ STAR_STATES_CO (fun s2 =>
    [ (Key s1 s2 detached EvNone, step_detached);
      (Key s2 s1 detached EvNone, step_detached) ])).
Definition assigns_H_RLO_CO :=                                     (* 221-224 *)
  for_ STAR_STATES_H_RICH_EVOLVABLE (fun s1 => for_ STAR_STATES_CO (fun s2 =>
    [ (Key s1 s2 RLO1 oRLO1, step_CO_HMS_RLO);
      (Key s2 s1 RLO2 oRLO2, step_CO_HMS_RLO) ])).
Definition assigns_redirect_CO_HMS_RLO :=                          (* 228-231 *)
  for_ STAR_STATES_H_RICH (fun s1 => for_ STAR_STATES_CO (fun s2 =>
    [ (Key s1 s2 detached redirect_from_CO_HMS_RLO, step_detached);
      (Key s2 s1 detached redirect_from_CO_HMS_RLO, step_detached) ])).
Definition assigns_detached_He_CO :=                               (* 234-237 *)
  for_ STAR_STATES_HE_RICH_EVOLVABLE (fun s1 => for_ STAR_STATES_CO (fun s2 =>
    [ (Key s1 s2 detached EvNone, step_CO_HeMS);
      (Key s2 s1 detached EvNone, step_CO_HeMS) ])).
Definition assigns_redirect_CO_HeMS :=                             (* 241-244 *)
  for_ STAR_STATES_HE_RICH (fun s1 => for_ STAR_STATES_CO (fun s2 =>
    [ (Key s1 s2 detached redirect_from_CO_HeMS, step_detached);
      (Key s2 s1 detached redirect_from_CO_HeMS, step_detached) ])).
Definition assigns_He_RLO_CO :=                                    (* 247-250 *)
  for_ STAR_STATES_HE_RICH_EVOLVABLE (fun s1 => for_ STAR_STATES_CO (fun s2 =>
    [ (Key s1 s2 RLO1 oRLO1, step_CO_HeMS_RLO);
      (Key s2 s1 RLO2 oRLO2, step_CO_HeMS_RLO) ])).
Definition assigns_redirect_CO_HeMS_RLO :=                         (* 254-257 *)
  for_ STAR_STATES_HE_RICH (fun s1 => for_ STAR_STATES_CO (fun s2 =>
    [ (Key s1 s2 detached redirect_from_CO_HeMS_RLO, step_detached);
      (Key s2 s1 detached redirect_from_CO_HeMS_RLO, step_detached) ])).
Definition assigns_He_He_merge :=                                  (* 261-264 *)
  for_ STAR_STATES_HE_RICH (fun s1 => for_ STAR_STATES_HE_RICH (fun s2 =>
    [ (Key s1 s2 RLO1 oRLO1, step_merged);
      (Key s2 s1 RLO2 oRLO2, step_merged) ])).
Definition assigns_CE :=                                           (* 267-276 *)
  for_ STAR_STATES_NORMALSTAR (fun s1 => for_ STAR_STATES_ALL (fun s2 =>
    [ (Key s1 s2 RLO1 oCE1, step_CE);
      (Key s1 s2 RLO1 oDoubleCE1, step_CE);
      (Key s2 s1 RLO2 oCE2, step_CE);
      (Key s2 s1 RLO2 oDoubleCE2, step_CE);
      (Key s2 s1 contact oCE1, step_CE);
      (Key s2 s1 contact oCE2, step_CE);
      (Key s2 s1 contact oDoubleCE1, step_CE);
      (Key s2 s1 contact oDoubleCE2, step_CE) ])).
Definition assigns_CC :=                                           (* 279-283 *)
  for_ BINARY_STATES_CC (fun b => for_ STAR_STATES_CC (fun s1 => for_ STAR_STATES_ALL (fun s2 =>
    [ (Key s1 s2 b CC1, step_SN);
      (Key s2 s1 b CC2, step_SN) ]))).
Definition assigns_DCO :=                                          (* 287-290 *)
  for_ STAR_STATES_CO (fun s1 => for_ STAR_STATES_CO (fun s2 =>
    [ (Key s1 s2 detached EvNone, step_dco);
      (Key s2 s1 detached EvNone, step_dco) ])).
Definition assigns_initial_RLOF :=                                 (* 294-299 *)
  for_ [ initial_RLOF ] (fun b => for_ STAR_STATES_ALL (fun s1 => for_ STAR_STATES_ALL (fun s2 =>
    for_ BINARY_EVENTS_ALL (fun e =>
    [ (Key s1 s2 b e, step_end);
      (Key s1 s2 b e, step_end) ])))).
Definition assigns_single :=                                       (* 302-307 *)
  for_ [ initially_single_star ] (fun b => for_ STAR_STATES_ALL (fun s1 => for_ STAR_STATES_ALL (fun s2 =>
    for_ [ ZAMS ] (fun e =>
    [ (Key s1 s2 b e, step_initially_single);
      (Key s2 s1 b e, step_initially_single) ])))).
Definition assigns_disrupted :=                                    (* 310-315 *)
  for_ [ disrupted ] (fun b => for_ STAR_STATES_ALL (fun s1 => for_ STAR_STATES_ALL (fun s2 =>
    for_ BINARY_EVENTS_OF_SN_OR_AFTER_DETACHED (fun e =>
    [ (Key s1 s2 b e, step_disrupted);
      (Key s2 s1 b e, step_disrupted) ])))).
Definition assigns_disrupted_CO :=                                 (* 318-323 *)
  for_ [ disrupted ] (fun b => for_ STAR_STATES_CO (fun s1 => for_ STAR_STATES_CO (fun s2 =>
    for_ BINARY_EVENTS_ALL (fun e =>
    [ (Key s1 s2 b e, step_end);
      (Key s2 s1 b e, step_end) ])))).
Definition assigns_merged :=                                       (* 326-331 *)
  for_ [ merged ] (fun b => for_ STAR_STATES_ALL (fun s1 => for_ STAR_STATES_ALL (fun s2 =>
    for_ [ oMerging1; oMerging2 ] (fun e =>
    [ (Key s1 s2 b e, step_merged);
      (Key s2 s1 b e, step_merged) ])))).
Definition assigns_initial_RLOF_ZAMS :=                            (* 334-337 *)
  for_ STAR_STATES_ALL (fun s1 => for_ STAR_STATES_ALL (fun s2 =>
    [ (Key s1 s2 initial_RLOF ZAMS, step_end);
      (Key s2 s1 initial_RLOF ZAMS, step_end) ])).
Definition assigns_maxtime :=                                      (* 340-344 *)
  for_ BINARY_STATES_ALL (fun b => for_ STAR_STATES_ALL (fun s1 => for_ STAR_STATES_ALL (fun s2 =>
    for_ [ maxtime; MaxTime_exceeded; CO_contact ] (fun e =>
    [ (Key s1 s2 b e, step_end) ])))).
Definition assigns_massless_CO :=                                  (* 347-352 *)
  for_ BINARY_STATES_ALL (fun b => for_ STAR_STATES_CO (fun s1 => for_ [ massless_remnant ] (fun s2 =>
    for_ BINARY_EVENTS_ALL (fun e =>
    [ (Key s1 s2 b e, step_end);
      (Key s2 s1 b e, step_end) ])))).
Definition assigns_massless2 :=                                    (* 356-359 *)
  for_ BINARY_STATES_ALL (fun b => for_ [ massless_remnant ] (fun s =>
    for_ BINARY_EVENTS_ALL (fun e =>
    [ (Key s s b e, step_end) ]))).

Definition POSYDON_assigns : list (list (key * step_name)) :=
  [ assigns_ZAMS; assigns_redirect_ZAMS; assigns_detached_normal; assigns_detached_H_CO;
    assigns_H_RLO_CO; assigns_redirect_CO_HMS_RLO; assigns_detached_He_CO;
    assigns_redirect_CO_HeMS; assigns_He_RLO_CO; assigns_redirect_CO_HeMS_RLO;
    assigns_He_He_merge; assigns_CE; assigns_CC; assigns_DCO; assigns_initial_RLOF;
    assigns_single; assigns_disrupted; assigns_disrupted_CO; assigns_merged;
    assigns_initial_RLOF_ZAMS; assigns_maxtime; assigns_massless_CO; assigns_massless2 ].

Definition chart := @dict key step_name.

(** flow_chart.py:186-359: the module-level dictionary after import. *)
Definition POSYDON_FLOW_CHART : chart := dset_all key_eqb [] (concat POSYDON_assigns).

(** binarystar.py:292-294, [properties.flow.get(total_state)]. *)
Definition chart_get (c : chart) (k : key) : option step_name := dget key_eqb c k.

(** ** flow_chart() and initial_eccentricity_flow_chart()

    Dictionaries are mutable objects, so these functions work on a heap of
    dictionaries; location 0 is the module-level default chart. *)
Definition heap := list chart.
Definition loc := nat.
Definition hget (h : heap) (l : loc) : chart := nth l h [].
Fixpoint hset (h : heap) (l : loc) (c : chart) : heap :=
  match h, l with
  | [], _ => []
  | _ :: h', O => c :: h'
  | c0 :: h', S l' => c0 :: hset h' l' c
  end.
Definition default_loc : loc := 0.

(** flow_chart.py:394-398: the loop over CHANGE_FLOW_CHART. *)
Definition apply_changes (c : chart) (chg : chart) : chart :=
  fold_left (fun acc kv =>
    if dmem key_eqb acc (fst kv) then dset key_eqb acc (fst kv) (snd kv) else acc) chg c.

(** flow_chart.py:361-400.  [fc = None] copies the default into a fresh object. *)
Definition flow_chart (h : heap) (fc : option loc) (chg : option chart) : heap * loc :=
  let '(h1, l) := match fc with
                  | None => (h ++ [hget h default_loc], length h)
                  | Some l => (h, l)
                  end in
  match chg with
  | None => (h1, l)
  | Some d => (hset h1 l (apply_changes (hget h1 l) d), l)
  end.

(** flow_chart.py:433-437: rewriting the values of existing keys in place. *)
Definition to_detached_zams (c : chart) : chart :=
  map (fun kv => if event_eqb (ke (fst kv)) ZAMS && bin_in (kb (fst kv)) BINARY_STATES_ZAMS
                 then (fst kv, step_detached) else kv) c.

(** flow_chart.py:441-444 *)
Definition ecc_assigns : list (key * step_name) :=
  let L := STAR_STATES_H_RICH_EVOLVABLE ++ STAR_STATES_HE_RICH_EVOLVABLE in
  for_ L (fun s1 => for_ L (fun s2 =>
    [ (Key s1 s2 RLO1 oRLO1, step_HMS_HMS_RLO);
      (Key s1 s2 RLO2 oRLO2, step_HMS_HMS_RLO) ])).

(** flow_chart.py:403-446 *)
Definition initial_eccentricity_flow_chart (h : heap) (fc : option loc) (chg : option chart)
  : heap * loc :=
  let '(h1, l) := flow_chart h fc chg in
  (hset h1 l (dset_all key_eqb (to_detached_zams (hget h1 l)) ecc_assigns), l).
