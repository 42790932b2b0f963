(** Specifications for mass-transfer cases and star states (C13-C16). *)
From Coq Require Import String List Bool ZArith QArith.
From Verif Require Import PyBase PyNum.
From Verif Require FlowChartModel.
Import ListNotations.
Local Open Scope string_scope.

(** ** Compressing a history of cases (C13) *)

(** [long] arises from [short] by repeating every entry at least once. *)
Inductive stutters {A} : list A -> list A -> Prop :=
| stutters_nil : stutters [] []
| stutters_cons : forall x n short long,
    stutters short long -> stutters (x :: short) (repeat x (S n) ++ long).

(** Neighbouring entries differ. *)
Definition no_repeats {A} (l : list A) : Prop :=
  forall i x, nth_error l i = Some x -> nth_error l (S i) <> Some x.

(** [core] lists, once each, the stretches of [cases] that are neither "no RLO" (0) nor
    "undetermined" (9); a 9 anywhere is announced at the front; 0 is kept only when there is
    nothing else. *)
Definition is_summary {A} (nine zero : A) (cases out : list A) : Prop :=
  exists front core kept,
    out = (front ++ core)%list /\
    (In nine cases -> front = [ nine ]) /\ (~ In nine cases -> front = []) /\
    (** [kept] is the subsequence of the remaining entries *)
    (exists keep : A -> bool,
        (forall c, keep c = false <-> c = nine \/ c = zero) /\ kept = filter keep cases) /\
    (kept = [] -> (In zero cases -> core = [ zero ]) /\ (~ In zero cases -> core = [])) /\
    (kept <> [] -> stutters core kept /\ no_repeats core).

(** The documented names of the cases. *)
Definition case_names : list (Z * string) :=
  [ (1, "A"); (2, "B"); (3, "C"); (4, "BA"); (5, "BB"); (6, "BC"); (8, "nonburning") ]%Z.

(** Words in a cumulative flag: donor star 1 uses the code itself, star 2 the code plus ten. *)
Definition flag_words : list (Z * string) :=
  [ (1, "A1"); (2, "B1"); (3, "C1"); (4, "BA1"); (5, "BB1"); (6, "BC1"); (8, "nonburning1");
    (10, "no_RLO2"); (11, "A2"); (12, "B2"); (13, "C2"); (14, "BA2"); (15, "BB2"); (16, "BC2");
    (18, "nonburning2"); (19, "undetermined_MT2") ]%Z.

(** A summary the text form is meant for: optional 9, then either 0 or known codes. *)
Inductive wf_summary : list Z -> Prop :=
| wf_none : forall q, q = [] \/ q = [ 9%Z ] -> wf_summary (q ++ [ 0%Z ])
| wf_cases : forall q core, q = [] \/ q = [ 9%Z ] ->
    Forall (fun c => In c (map fst flag_words)) core -> wf_summary (q ++ core)%list.

(** Donor of a code: 1, 2 or unknown. *)
Definition donor (c : Z) : nat := (if (c <=? 9)%Z then 1 else if (c <=? 19)%Z then 2 else 3)%nat.
Definition base_case (d : nat) : Z := match d with 1%nat => 0%Z | _ => 10%Z end.
(** Largest code of this donor so far. *)
Definition latest_case (d : nat) (l : list Z) : Z :=
  fold_right Z.max (base_case d) (filter (fun c => donor c =? d)%nat l).
Definition shifted (l out : list Z) : Prop :=
  length out = length l /\
  forall i c, nth_error l i = Some c ->
    nth_error out i
    = Some (if (donor c =? 3)%nat then c else latest_case (donor c) (firstn (S i) l)).

(** ** Inference of one case (C14) *)

(** At most [t], with NaN excluded. *)
Definition at_most (x : num) (t : Q) : Prop :=
  x = MInf \/ exists q, x = Fin q /\ (q <= t)%Q.
(** Strictly above [t], with NaN excluded. *)
Definition above (x : num) (t : Q) : Prop :=
  x = PInf \/ exists q, x = Fin q /\ (t < q)%Q.

Definition quiet (overflow rate : pnum) (dominating : bool) : Prop :=
  overflow = None \/ rate = None \/
  exists o m, overflow = Some o /\ rate = Some m /\
    at_most o 0 /\ (at_most m (-10 # 1) \/ dominating = false).

Definition has (sub s : string) : Prop := exists a b, s = a ++ sub ++ b.

(** The case of every state name occurring in POSYDON (9 = undetermined). *)
Definition documented_cases : list (string * Z) :=
  [ ("H-rich_Core_H_burning", 1); ("H-rich_Core_He_burning", 2); ("H-rich_Shell_H_burning", 2);
    ("H-rich_Core_He_depleted", 3); ("H-rich_Core_C_depleted", 3); ("H-rich_non_burning", 8);
    ("H-rich_Shell_He_burning", 9); ("H-rich_Core_C_burning", 9);
    ("stripped_He_Core_H_burning", 9); ("stripped_He_Shell_H_burning", 9);
    ("stripped_He_Core_He_burning", 4); ("stripped_He_Core_He_depleted", 5);
    ("stripped_He_Core_C_depleted", 5); ("stripped_He_non_burning", 8);
    ("accreted_He_Core_H_burning", 9); ("accreted_He_Shell_H_burning", 9);
    ("accreted_He_Core_He_burning", 9); ("accreted_He_Core_He_depleted", 9);
    ("accreted_He_Core_C_depleted", 9); ("accreted_He_non_burning", 8);
    ("WD", 9); ("NS", 9); ("BH", 9); ("massless_remnant", 9);
    ("undetermined_evolutionary_state", 9) ]%Z.

(** ** Binary state and event (C15) *)

(** The state name belongs to a mass-transfer case. *)
Definition classified (s : string) : Prop :=
  has "non_burning" s
  \/ (has "H-rich" s /\ (has "Core_H_burning" s \/ has "Core_He_burning" s
        \/ has "Shell_H_burning" s \/ has "Core_He_depleted" s \/ has "Core_C_depleted" s))
  \/ (~ has "H-rich" s /\ has "stripped_He" s /\ (has "Core_He_burning" s
        \/ has "Core_He_depleted" s \/ has "Core_C_depleted" s)).

Definition is_donor (overflow rate : pnum) (state : option string) (dominating : bool) : Prop :=
  ~ quiet overflow rate dominating /\ exists s, state = Some s /\ classified s.

(** Star 1 dominates: its overflow is at least that of star 2, or star 2 has none. *)
Definition first_dominates (o1 o2 : pnum) : bool :=
  match o2 with
  | None => true
  | Some b => match o1 with Some a => nle b a | None => false end
  end.

(** The core is exhausted or degenerate (white dwarf formation). *)
Definition finished_core (state : option string) (gamma : pnum) : Prop :=
  (exists s, state = Some s /\ (has "Core_C_depleted" s \/ has "Core_He_depleted" s))
  \/ (exists g, gamma = Some g /\ (above g 10 \/ exists q, g = Fin q /\ (q == 10)%Q)).

(** The compact or main-sequence companions that do not make a common envelope double. *)
Definition no_double_ce : list string :=
  [ "H-rich_Core_H_burning"; "stripped_He_Core_He_burning"; "WD"; "NS"; "BH" ].

Definition simple_name (st : option string) : Prop := exists n, st = Some n /\ In n no_double_ce.

(** The case word carried by a state name. *)
Inductive state_word (s : string) : string -> Prop :=
| sw_non : has "non_burning" s -> state_word s "nonburning"
| sw_A : ~ has "non_burning" s -> has "H-rich" s -> has "Core_H_burning" s -> state_word s "A"
| sw_B : ~ has "non_burning" s -> has "H-rich" s -> ~ has "Core_H_burning" s ->
    has "Core_He_burning" s \/ has "Shell_H_burning" s -> state_word s "B"
| sw_C : ~ has "non_burning" s -> has "H-rich" s -> ~ has "Core_H_burning" s ->
    ~ has "Core_He_burning" s -> ~ has "Shell_H_burning" s ->
    has "Core_He_depleted" s \/ has "Core_C_depleted" s -> state_word s "C"
| sw_BA : ~ has "non_burning" s -> ~ has "H-rich" s -> has "stripped_He" s ->
    has "Core_He_burning" s -> state_word s "BA"
| sw_BB : ~ has "non_burning" s -> ~ has "H-rich" s -> has "stripped_He" s ->
    ~ has "Core_He_burning" s ->
    has "Core_He_depleted" s \/ has "Core_C_depleted" s -> state_word s "BB".

Definition case_label (st : option string) (digit mt : string) : Prop :=
  exists s w, st = Some s /\ state_word s w /\ mt = "case_" ++ w ++ digit.

(** What one evaluation means, for the values read. *)
Record bsem_meaning (cls : option string) (rate o1 o2 : pnum) (s1 s2 : option string)
    (g1 g2 : pnum) (now1 now2 : option string) (r : option string * option string * string) : Prop := {
  bm_state : exists st, fst (fst r) = Some st /\
    let d1 := is_donor o1 rate s1 (first_dominates o1 o2) in
    let d2 := is_donor o2 rate s2 (negb (first_dominates o1 o2)) in
    (st = "contact" <-> d1 /\ d2) /\
    (st = "RLO1" <-> d1 /\ ~ d2) /\
    (st = "RLO2" <-> ~ d1 /\ d2) /\
    (st = "detached" <-> quiet o1 rate (first_dominates o1 o2)
                      /\ quiet o2 rate (negb (first_dominates o1 o2))) /\
    In st [ "contact"; "RLO1"; "RLO2"; "detached"; "undefined" ];
  bm_unstable : let st := fst (fst r) in
    cls = Some "unstable_MT" -> st = Some "contact" \/ st = Some "RLO1" \/ st = Some "RLO2" ->
    (st = Some "RLO1" -> snd (fst r) = Some "oCE1") /\
    (st = Some "RLO2" -> snd (fst r) = Some "oCE2") /\
    (st = Some "contact" -> first_dominates o1 o2 = true ->
       snd (fst r) = Some "oCE1" /\ simple_name now2 \/ snd (fst r) = Some "oDoubleCE1" /\ ~ simple_name now2) /\
    (st = Some "contact" -> first_dominates o1 o2 = false ->
       snd (fst r) = Some "oCE2" /\ simple_name now1 \/ snd (fst r) = Some "oDoubleCE2" /\ ~ simple_name now1);
  bm_stable : let st := fst (fst r) in
    cls <> Some "unstable_MT" \/ st = Some "detached" \/ st = Some "undefined" ->
    (snd (fst r) = Some "CC1" <-> finished_core s1 g1) /\
    (snd (fst r) = Some "CC2" <-> ~ finished_core s1 g1 /\ finished_core s2 g2) /\
    (snd (fst r) = None <-> ~ finished_core s1 g1 /\ ~ finished_core s2 g2);
  bm_case : let st := fst (fst r) in
    (st = Some "RLO1" -> case_label s1 "1" (snd r)) /\
    (st = Some "RLO2" -> case_label s2 "2" (snd r)) /\
    (st <> Some "RLO1" -> st <> Some "RLO2" -> snd r = "None")
}.

(** Exchanging the stars exchanges the digits in all labels. *)
Definition mirror_table : list (string * string) :=
  flat_map (fun p => [ (fst p, snd p); (snd p, fst p) ])
  [ ("RLO1", "RLO2"); ("oCE1", "oCE2"); ("oDoubleCE1", "oDoubleCE2"); ("CC1", "CC2");
    ("case_A1", "case_A2"); ("case_B1", "case_B2"); ("case_C1", "case_C2");
    ("case_BA1", "case_BA2"); ("case_BB1", "case_BB2"); ("case_nonburning1", "case_nonburning2") ].
Definition mirror_label (s : string) : string :=
  match dget String.eqb mirror_table s with Some t => t | None => s end.

(** ** Star states (C16) *)

Definition abundance_seen (x : pnum) : Prop := exists v, x = Some v /\ above v 0.

(** Mass limits, as decimal constants rounded to double: within 1e-15 of 1.1 and 1.46. *)
Definition about (x y : Q) : Prop :=
  (y - (1 # 1000000000000000) <= x <= y + (1 # 1000000000000000))%Q.

Inductive compact_class (ns_min wd_max ns_max : Q) (surface : bool) : pnum -> string -> Prop :=
| cc_none : compact_class ns_min wd_max ns_max surface None "massless_remnant"
| cc_nan : compact_class ns_min wd_max ns_max surface (Some NaN) "massless_remnant"
| cc_minf : compact_class ns_min wd_max ns_max surface (Some MInf) "massless_remnant"
| cc_pinf : compact_class ns_min wd_max ns_max surface (Some PInf) "BH"
| cc_zero : forall m, (m <= 0)%Q ->
    compact_class ns_min wd_max ns_max surface (Some (Fin m)) "massless_remnant"
| cc_wd_bare : forall m, surface = false -> (0 < m < ns_min)%Q ->
    compact_class ns_min wd_max ns_max surface (Some (Fin m)) "WD"
| cc_wd : forall m, surface = true -> (0 < m <= wd_max)%Q ->
    compact_class ns_min wd_max ns_max surface (Some (Fin m)) "WD"
| cc_ns_bare : forall m, surface = false -> (ns_min <= m <= ns_max)%Q ->
    compact_class ns_min wd_max ns_max surface (Some (Fin m)) "NS"
| cc_ns : forall m, surface = true -> (wd_max < m <= ns_max)%Q ->
    compact_class ns_min wd_max ns_max surface (Some (Fin m)) "NS"
| cc_bh : forall m, (ns_max < m)%Q ->
    compact_class ns_min wd_max ns_max surface (Some (Fin m)) "BH".

(** The burning label in terms of the core composition and the burning flags. *)
Inductive burning_class (h he c bh bhe : Prop) : string -> Prop :=
| bc_c_depl : ~ h -> ~ he -> ~ c -> burning_class h he c bh bhe "Core_C_depleted"
| bc_he_depl : ~ h -> ~ he -> c -> burning_class h he c bh bhe "Core_He_depleted"
| bc_core_h : h -> bh -> burning_class h he c bh bhe "Core_H_burning"
| bc_non_h : h -> ~ bh -> burning_class h he c bh bhe "non_burning"
| bc_core_he : ~ h -> he -> bhe -> burning_class h he c bh bhe "Core_He_burning"
| bc_shell : ~ h -> he -> ~ bhe -> bh -> burning_class h he c bh bhe "Shell_H_burning"
| bc_non_he : ~ h -> he -> ~ bhe -> ~ bh -> burning_class h he c bh bhe "non_burning".

(** Names of the normal-star states that can be inferred. *)
Definition inferred_names : list string :=
  [ "H-rich_Core_H_burning"; "H-rich_Core_He_burning"; "H-rich_Shell_H_burning";
    "H-rich_Core_He_depleted"; "H-rich_Core_C_depleted"; "H-rich_non_burning";
    "stripped_He_Core_H_burning"; "stripped_He_Core_He_burning"; "stripped_He_Shell_H_burning";
    "stripped_He_Core_He_depleted"; "stripped_He_Core_C_depleted"; "stripped_He_non_burning";
    "accreted_He_Core_H_burning"; "accreted_He_Core_He_burning"; "accreted_He_Shell_H_burning";
    "accreted_He_Core_He_depleted"; "accreted_He_Core_C_depleted"; "accreted_He_non_burning" ].

(** The star-state names of the evolution flow chart (flow_chart.py:19-40). *)
Definition flow_names : list string :=
  [ "WD"; "NS"; "BH"; "massless_remnant";
    "H-rich_Core_H_burning"; "H-rich_Core_He_burning"; "H-rich_Shell_H_burning";
    "H-rich_Core_He_depleted"; "H-rich_Shell_He_burning"; "H-rich_Core_C_burning";
    "H-rich_Core_C_depleted"; "H-rich_non_burning";
    "accreted_He_Core_H_burning"; "accreted_He_Shell_H_burning"; "accreted_He_non_burning";
    "accreted_He_Core_He_burning";
    "stripped_He_Core_He_burning"; "stripped_He_Core_He_depleted";
    "stripped_He_Core_C_depleted"; "stripped_He_non_burning" ].
(** Inferred names without any entry in the flow chart. *)
Definition names_without_flow : list string :=
  [ "stripped_He_Core_H_burning"; "stripped_He_Shell_H_burning";
    "accreted_He_Core_He_depleted"; "accreted_He_Core_C_depleted" ].

(** The flow chart's key component for a name: the names of [flow_names] in the order of
    STAR_STATES_ALL, every other name is [SOther]. *)
Definition star_of_name (n : string) : FlowChartModel.star_state :=
  match dget String.eqb (combine flow_names FlowChartModel.STAR_STATES_ALL) n with
  | Some s => s
  | None => FlowChartModel.SOther n
  end.

(** ** Reading one moment of a binary *)

(** Exchanged labels of a result. *)
Definition mirror_result (r : option string * option string * string)
  : option string * option string * string :=
  (option_map mirror_label (fst (fst r)), option_map mirror_label (snd (fst r)),
   mirror_label (snd r)).

(** Neither star is ahead of the other: both overflows are defined and they are equal or one
    of them is NaN. *)
Definition tied (o1 o2 : pnum) : Prop :=
  exists a b, o1 = Some a /\ o2 = Some b /\ nle a b = nle b a.

(** Substance is present in the core: above the threshold of about one per cent. *)
Definition present (x : pnum) (t : Q) : Prop := exists v, x = Some v /\ above v t.
(** Burning: luminosity above 1e-10 Lsun and a large enough share of the nuclear luminosity;
    [sub] is float subtraction and [rel] the share threshold. *)
Definition burns (sub : num -> num -> num) (rel : num) (lum nuc : pnum) : Prop :=
  exists l n, lum = Some l /\ nuc = Some n /\ above l (-10 # 1) /\ nlt rel (sub l n) = true.
Definition surface_class (rnd : num -> num) (t : Q) (surface center : pnum) (rich : string) : Prop :=
  exists s, surface = Some s /\ s <> NaN /\
  ((rich = "H-rich" /\ above s t)
   \/ (rich = "accreted_He" /\ ~ above s t /\ exists c, center = Some c /\ nlt (rnd s) (rnd c) = true)
   \/ (rich = "stripped_He" /\ ~ above s t /\ exists c, center = Some c /\ nlt (rnd s) (rnd c) = false)).
