(** Properties C13-C16: mass-transfer cases, binary states and star states. *)
From Coq Require Import String List Bool ZArith QArith Qround Lia Lqa.
From Verif Require Import PyBase PyNum PyStr MTModel MTSpec MTProofs StarProofs.
From Verif Require FlowChartModel FlowChartProofs.
Import ListNotations.
Local Open Scope string_scope.

(** * C13 *)
Theorem mt_summary : forall z l, exists out,
  cumulative_mass_transfer_numeric (CI z :: l) = Ok out
  /\ is_summary (CI 9) (CI 0) (CI z :: l) out.
Proof. exact numeric_spec. Qed.

(** The specification leaves no choice. *)
Theorem mt_summary_determined : forall A (nine zero : A) cases a b,
  (forall x y : A, {x = y} + {x <> y}) ->
  is_summary nine zero cases a -> is_summary nine zero cases b -> a = b.
Proof. exact is_summary_unique. Qed.

Theorem mt_summary_empty : cumulative_mass_transfer_numeric [] = Ok [ CI 9 ].
Proof. reflexivity. Qed.

(** String input: same as the integers named; an unknown name raises. *)
Theorem mt_summary_names : forall names codes,
  map code_of names = map Some codes -> names <> [] ->
  cumulative_mass_transfer_numeric (map CS names)
  = cumulative_mass_transfer_numeric (map CI codes).
Proof. exact numeric_strings_ok. Qed.
Theorem mt_summary_unknown_name : forall names n,
  In n names -> code_of n = None ->
  cumulative_mass_transfer_numeric (map CS names) = Raise KeyError.
Proof. exact numeric_strings_unknown. Qed.

Example mt_summary_case :
  cumulative_mass_transfer_numeric (map CI [0; 1; 1; 0; 1; 9; 2; 2; 11; 0; 2]%Z)
  = Ok (map CI [9; 1; 2; 11; 2]%Z)
  /\ cumulative_mass_transfer_numeric (map CI [0; 0]%Z) = Ok [ CI 0 ]
  /\ cumulative_mass_transfer_numeric (map CS [ "A"; "no_RLO"; "B" ]) = Ok [ CI 1; CI 2 ]
  /\ code_of "caseA" = None.
Proof. repeat split. Qed.

Theorem mt_text_of_cases : forall (unsure : bool) core, core <> [] ->
  Forall (fun c => In c (map fst flag_words)) core ->
  cumulative_mass_transfer_string ((if unsure then [ 9%Z ] else []) ++ core)
  = ((if unsure then "?" else "")
       ++ "case_" ++ String.concat "/"
            (map (fun c => match dget Z.eqb flag_words c with Some w => w | None => "" end) core), []).
Proof. exact string_cases. Qed.
Theorem mt_text_faithful : forall a b, wf_summary a -> wf_summary b -> a <> [] -> b <> [] ->
  fst (cumulative_mass_transfer_string a) = fst (cumulative_mass_transfer_string b) -> a = b.
Proof. exact string_injective. Qed.
Theorem mt_text_warnings : forall l,
  snd (cumulative_mass_transfer_string l) = filter nameless l.
Proof. exact string_warnings. Qed.
Example mt_text_case :
  wf_summary [ 9; 1; 12; 2 ]%Z
  /\ cumulative_mass_transfer_string [ 9; 1; 12; 2 ]%Z = ("?case_A1/B2/B1", [])
  /\ cumulative_mass_transfer_string [ 1; 7 ]%Z = ("case_A1", [ 7%Z ]).
Proof.
  split; [|split; reflexivity].
  apply (wf_cases [9%Z] [1; 12; 2]%Z); [auto|]. repeat constructor; cbn; tauto.
Qed.

Theorem mt_flag : forall l shift, l <> [] -> exists out s w,
  cumulative_mass_transfer_flag l shift = Ok (s, (snd (corrected_cases shift l) ++ w)%list)
  /\ is_summary 9%Z 0%Z (fst (corrected_cases shift l)) out
  /\ cumulative_mass_transfer_string out = (s, w).
Proof. exact flag_ok. Qed.
Theorem mt_shift : forall l, shifted l (fst (corrected_cases true l)).
Proof. exact corrected_shifted. Qed.
Theorem mt_shift_monotone : forall l out, shifted l out ->
  forall i j a b, (i <= j)%nat -> nth_error out i = Some a -> nth_error out j = Some b ->
  donor a = donor b -> donor a <> 3%nat -> (a <= b)%Z.
Proof. exact shifted_monotone. Qed.
Theorem mt_shift_ordered : forall l,
  (forall c, In c l -> (0 <= c)%Z) ->
  (forall i j a b, (i <= j)%nat -> nth_error l i = Some a -> nth_error l j = Some b ->
     donor a = donor b -> (a <= b)%Z) ->
  fst (corrected_cases true l) = l.
Proof. exact ordered_unchanged. Qed.
(** An undetermined entry swallows every later case of star 1. *)
Theorem mt_shift_after_undetermined : forall l out, shifted l out ->
  forall i j c, (i <= j)%nat -> nth_error l i = Some 9%Z -> nth_error l j = Some c ->
  donor c = 1%nat -> nth_error out j = Some 9%Z.
Proof. exact shift_after_nine. Qed.
(** So shifting is not a pure reordering repair: it loses case A here, and it invents a second
    case A when star 1 merely detaches while star 2 transfers. *)
Theorem mt_shift_harmless_refuted :
  cumulative_mass_transfer_flag [ 9; 1; 2 ]%Z false = Ok ("?case_A1/B1", [])
  /\ cumulative_mass_transfer_flag [ 9; 1; 2 ]%Z true = Ok ("?", [])
  /\ cumulative_mass_transfer_flag [ 1; 11; 0; 11 ]%Z false = Ok ("case_A1/A2", [])
  /\ cumulative_mass_transfer_flag [ 1; 11; 0; 11 ]%Z true = Ok ("case_A1/A2/A1/A2", []).
Proof. repeat split. Qed.
Example mt_shift_case : fst (corrected_cases true [ 1; 2; 1; 12; 11; 3; 25 ]%Z)
  = [ 1; 2; 2; 12; 12; 3; 25 ]%Z.
Proof. reflexivity. Qed.

(** * C14 *)
Theorem mt_case_no_rlo : forall o m st dom,
  infer_mass_transfer_case o m st dom = Ok 0%Z <-> quiet o m dom.
Proof. exact mt_no_rlo_iff. Qed.
Theorem mt_case_documented : forall o m dom s c, ~ quiet o m dom -> In (s, c) documented_cases ->
  infer_mass_transfer_case o m (Some s) dom = Ok c.
Proof. exact mt_documented. Qed.
Theorem mt_case_undetermined : forall o m s dom,
  infer_mass_transfer_case o m (Some s) dom = Ok 9%Z <-> ~ quiet o m dom /\ ~ classified s.
Proof. exact mt_undetermined_iff. Qed.
(** For arbitrary state names, the case is the one whose word the name carries. *)
Theorem mt_case_word : forall o m st dom c w, infer_mass_transfer_case o m st dom = Ok c ->
  inb Z.eqb c ALL_RLO_CASES = true -> In (c, w) case_names -> exists s, st = Some s /\ state_word s w.
Proof. exact donor_word. Qed.
Theorem mt_case_word_unique : forall s w w', state_word s w -> state_word s w' -> w = w'.
Proof. exact state_word_det. Qed.
Theorem mt_case_raises : forall o m st dom e,
  infer_mass_transfer_case o m st dom = Raise e
  <-> ~ quiet o m dom /\ st = None /\ e = TypeError.
Proof. exact mt_raises_iff. Qed.
(** Case BC (6) is never inferred. *)
Theorem mt_case_range : forall o m st dom c, infer_mass_transfer_case o m st dom = Ok c ->
  In c [0; 1; 2; 3; 4; 5; 8; 9]%Z.
Proof. exact mt_range. Qed.
Example mt_case_cases :
  infer_mass_transfer_case (Some (Fin (1 # 10))) (Some (Fin (-99 # 1))) (Some "H-rich_Core_He_burning") false = Ok 2%Z
  /\ infer_mass_transfer_case (Some (Fin 0)) (Some (Fin (-5 # 1))) (Some "stripped_He_Core_He_burning") true = Ok 4%Z
  /\ infer_mass_transfer_case (Some (Fin 0)) (Some (Fin (-10 # 1))) (Some "stripped_He_Core_He_burning") true = Ok 0%Z
  (** an undefined (NaN) overflow counts as mass transfer *)
  /\ infer_mass_transfer_case (Some NaN) (Some (Fin (-99 # 1))) (Some "H-rich_Core_H_burning") true = Ok 1%Z
  /\ ~ quiet (Some NaN) (Some (Fin (-99 # 1))) true.
Proof.
  repeat split. intros [H|[H|(o & m & E & _ & [->|(q & -> & _)] & _)]]; discriminate.
Qed.

(** * C15 *)
Theorem binary_state_now : forall b cls r, early cls = false ->
  get_binary_state_and_event_and_mt_case (Some b) cls None = Ok r ->
  bsem_meaning cls (mb_rate b) (mb_rl1 b) (mb_rl2 b) (ms_state (mb_star1 b)) (ms_state (mb_star2 b))
    (ms_gamma (mb_star1 b)) (ms_gamma (mb_star2 b)) (ms_state (mb_star1 b)) (ms_state (mb_star2 b)) r.
Proof. exact bsem_now. Qed.
(** At a history index the values of that row count — except the companion's state deciding
    between single and double common envelope, which is the current one. *)
Theorem binary_state_at : forall b cls k r, early cls = false ->
  get_binary_state_and_event_and_mt_case (Some b) cls (Some k) = Ok r ->
  exists rate o1 o2 s1 s2,
    py_nth (mb_rate_hist b) k = Some rate /\ py_nth (mb_rl1_hist b) k = Some o1 /\
    py_nth (mb_rl2_hist b) k = Some o2 /\ py_nth (ms_state_hist (mb_star1 b)) k = Some s1 /\
    py_nth (ms_state_hist (mb_star2 b)) k = Some s2 /\
    bsem_meaning cls rate o1 o2 s1 s2
      (match py_nth (ms_gamma_hist (mb_star1 b)) k with Some g => g | None => None end)
      (match py_nth (ms_gamma_hist (mb_star2 b)) k with Some g => g | None => None end)
      (ms_state (mb_star1 b)) (ms_state (mb_star2 b)) r.
Proof. exact bsem_at. Qed.
Theorem binary_state_early : forall b i,
  get_binary_state_and_event_and_mt_case None b i = Ok (None, None, "None")
  /\ (forall m, get_binary_state_and_event_and_mt_case (Some m) (Some "not_converged") i = Ok (None, None, "None"))
  /\ (forall m, get_binary_state_and_event_and_mt_case (Some m) (Some "initial_MT") i
                = Ok (Some "initial_RLOF", None, "None")).
Proof. repeat split. Qed.
(** Onset events oRLO1/oRLO2 are never produced here. *)
Theorem binary_state_events : forall b cls i r,
  get_binary_state_and_event_and_mt_case b cls i = Ok r ->
  In (snd (fst r)) [ None; Some "CC1"; Some "CC2"; Some "oCE1"; Some "oCE2";
                     Some "oDoubleCE1"; Some "oDoubleCE2" ].
Proof. exact bsem_events. Qed.
Theorem binary_state_mirror : forall b cls r n1 n2,
  ms_state (mb_star1 b) = Some n1 -> ms_state (mb_star2 b) = Some n2 ->
  ~ tied (mb_rl1 b) (mb_rl2 b) ->
  ~ (finished_core (Some n1) (ms_gamma (mb_star1 b)) /\ finished_core (Some n2) (ms_gamma (mb_star2 b))) ->
  get_binary_state_and_event_and_mt_case (Some b) cls None = Ok r ->
  get_binary_state_and_event_and_mt_case (Some (swap_bin b)) cls None = Ok (mirror_result r).
Proof. exact get_mirror. Qed.
Theorem binary_state_array : forall b N r, get_bsem_array b N = Ok r ->
  length r = Z.to_nat N /\
  forall k a, nth_error r k = Some a ->
    get_binary_state_and_event_and_mt_case b None (Some (Z.of_nat k - N)%Z) = Ok a.
Proof. intros b N r. exact (collect_range _ _ N r). Qed.

Definition ex_star (s : string) (h : list string) : mstar := MStar (Some s) None (map Some h) [].
Definition ex_bin o1 o2 m s1 s2 : mbin := MBin (Some (Fin m)) (Some (Fin o1)) (Some (Fin o2))
  [ Some (Fin m) ] [ Some (Fin o1) ] [ Some (Fin o2) ] s1 s2.
Definition HMS := "H-rich_Core_H_burning".
Definition HG := "H-rich_Shell_H_burning".

Example binary_state_cases :
  get_binary_state_and_event_and_mt_case (Some (ex_bin (1#10) (-1#10) (-4#1) (ex_star HG [HG]) (ex_star HMS [HMS]))) None None
  = Ok (Some "RLO1", None, "case_B1")
  /\ get_binary_state_and_event_and_mt_case (Some (ex_bin (1#10) (-1#10) (-4#1) (ex_star HG [HG]) (ex_star HMS [HMS]))) (Some "unstable_MT") None
  = Ok (Some "RLO1", Some "oCE1", "case_B1")
  /\ get_binary_state_and_event_and_mt_case (Some (ex_bin (1#10) (1#5) (-4#1) (ex_star HG [HG]) (ex_star HMS [HMS]))) (Some "unstable_MT") None
  = Ok (Some "contact", Some "oDoubleCE2", "None")
  /\ ~ tied (Some (Fin (1#10))) (Some (Fin (-1#10)))
  /\ ~ finished_core (Some HMS) None.
Proof.
  repeat split.
  - intros (a & b & Ea & Eb & E). injection Ea as <-. injection Eb as <-. discriminate.
  - unfold finished_core. intros [(s & E & [H|H])|(g & E & _)].
    + injection E as <-. apply has_iff in H. discriminate.
    + injection E as <-. apply has_iff in H. discriminate.
    + discriminate.
Qed.

(** Exchanging the stars does not exchange the labels when the overflows tie, or when both
    cores are exhausted. *)
Theorem binary_state_mirror_refuted :
  let b := ex_bin 0 0 (-4#1) (ex_star HMS [HMS]) (ex_star HMS [HMS]) in
  get_binary_state_and_event_and_mt_case (Some b) None None = Ok (Some "RLO1", None, "case_A1")
  /\ get_binary_state_and_event_and_mt_case (Some (swap_bin b)) None None = Ok (Some "RLO1", None, "case_A1")
  /\ let c := ex_bin (-1#1) (-2#1) (-99#1) (ex_star "H-rich_Core_C_depleted" []) (ex_star "H-rich_Core_C_depleted" []) in
     get_binary_state_and_event_and_mt_case (Some c) None None = Ok (Some "detached", Some "CC1", "None")
     /\ get_binary_state_and_event_and_mt_case (Some (swap_bin c)) None None = Ok (Some "detached", Some "CC1", "None").
Proof. repeat split. Qed.
(** The companion's state at the history index is ignored. *)
Theorem binary_state_history_refuted :
  let b s := ex_bin (1#5) (1#10) (-4#1) (ex_star HG [HG]) (ex_star s [HMS]) in
  get_binary_state_and_event_and_mt_case (Some (b HMS)) (Some "unstable_MT") (Some 0%Z)
  = Ok (Some "contact", Some "oCE1", "None")
  /\ get_binary_state_and_event_and_mt_case (Some (b HG)) (Some "unstable_MT") (Some 0%Z)
  = Ok (Some "contact", Some "oDoubleCE1", "None").
Proof. repeat split. Qed.

(** * C16 *)
Theorem compact_classes : exists ns_min wd_max,
  about ns_min (11 # 10) /\ about wd_max (146 # 100) /\
  forall fsub round10 rel surf m sh ch che cc lh lhe ln n,
  (surf = true <-> abundance_seen sh \/ abundance_seen ch \/ abundance_seen che \/ abundance_seen cc) ->
  (infer_star_state fsub round10 rel m sh ch che cc lh lhe ln true = Ok n
   <-> compact_class ns_min wd_max (5 # 2) surf m n).
Proof.
  exists NSQ, WDQ. split; [split; discriminate|]. split; [split; discriminate|].
  intros fsub round10 rel surf m sh ch che cc lh lhe ln n H.
  rewrite <- (compact_ok _ m _ _ _ _ n H). unfold infer_star_state. split; congruence.
Qed.
Theorem compact_state_of_star : exists ns_min wd_max,
  about ns_min (11 # 10) /\ about wd_max (146 # 100) /\
  forall fsub round10 rel star i r n,
  check_state_of_star fsub round10 rel star i true = Ok n ->
  match i with Some k => py_nth (s_hist star) k = Some r | None => r = s_now star end ->
  (exists st, py_nth (s_state_hist star) (-1) = Some st /\
    ((n = "WD" /\ (st = Some "WD" \/ s_state star = Some "WD"))
     \/ (st <> Some "WD" /\ s_state star <> Some "WD"
         /\ compact_class ns_min wd_max (5 # 2) false (r_mass r) n))).
Proof.
  exists NSQ, WDQ. split; [split; discriminate|]. split; [split; discriminate|]. exact check_compact.
Qed.
Theorem normal_star_state : exists t, about t (1 # 100) /\
  forall fsub round10 rel m sh ch che cc lh lhe ln n,
  infer_star_state fsub round10 rel m sh ch che cc lh lhe ln false = Ok n ->
  (isna sh = true /\ n = "undetermined_evolutionary_state")
  \/ exists rich burning, n = rich ++ "_" ++ burning
     /\ surface_class round10 t sh ch rich
     /\ burning_class (present ch t) (present che t) (present cc t)
          (burns fsub rel lh ln) (burns fsub rel lhe ln) burning.
Proof. exists TQ. split; [split; discriminate|]. exact normal_ok. Qed.
Theorem normal_star_total : forall fsub round10 rel m sh ch che cc lh lhe ln,
  exists n, infer_star_state fsub round10 rel m (Some sh) (Some ch) (Some che) (Some cc)
              (Some lh) (Some lhe) (Some ln) false = Ok n.
Proof. exact normal_total. Qed.
Theorem normal_star_names : forall fsub round10 rel m sh ch che cc lh lhe ln n,
  infer_star_state fsub round10 rel m sh ch che cc lh lhe ln false = Ok n ->
  In n ("undetermined_evolutionary_state" :: inferred_names).
Proof. exact normal_names. Qed.
Theorem names_known_to_flow : forall n, In n inferred_names ->
  (FlowChartModel.star_in (star_of_name n) FlowChartModel.STAR_STATES_ALL = false
   <-> In n names_without_flow).
Proof. exact flow_name_iff. Qed.
(** A star in one of those states, or undetermined, has no next step whatever else holds. *)
Theorem names_without_flow_stuck : forall n,
  In n ("undetermined_evolutionary_state" :: names_without_flow) ->
  forall s2 b e, FlowChartModel.chart_get FlowChartModel.POSYDON_FLOW_CHART
    (FlowChartModel.Key (star_of_name n) s2 b e) = None.
Proof.
  intros n H s2 b e. apply FlowChartProofs.chart_unknown.
  cbn in H. repeat (destruct H as [<-|H]; [reflexivity|]). destruct H.
Qed.
Theorem first_He_depletion : forall fsub round10 rel l k,
  get_i_He_depl fsub round10 rel true l = Ok k ->
  (k = -1 /\ forall r, In r l -> exists n, infer_row fsub round10 rel r = Ok n /\ ~ has "Core_He_depleted" n)%Z
  \/ exists j r n, k = Z.of_nat j /\ nth_error l j = Some r
       /\ infer_row fsub round10 rel r = Ok n /\ has "Core_He_depleted" n
       /\ forall j' r', (j' < j)%nat -> nth_error l j' = Some r' ->
            exists n', infer_row fsub round10 rel r' = Ok n' /\ ~ has "Core_He_depleted" n'.
Proof.
  intros fsub round10 rel l k H. destruct (first_depl_ok fsub round10 rel l 0 k H) as [L|R]; [lia|left; exact L|right].
  exact R.
Qed.
Theorem star_state_array : forall fsub round10 rel star N co r,
  check_state_of_star_history_array fsub round10 rel star N co = Ok r ->
  length r = Z.to_nat N /\
  forall k a, nth_error r k = Some a ->
    check_state_of_star fsub round10 rel star (Some (Z.of_nat k - N)%Z) co = Ok a.
Proof. intros fsub round10 rel star N co r. exact (collect_range _ _ N r). Qed.

(** Exact subtraction and rounding to ten decimals, for concrete cases. *)
Definition exact_sub (a b : num) : num := match a, b with Fin x, Fin y => Fin (x - y) | _, _ => NaN end.
Definition exact_round (a : num) : num := match a with
  | Fin x => Fin (inject_Z (Qround.Qfloor (x * inject_Z (10 ^ 10) + (1 # 2))) / inject_Z (10 ^ 10))
  | x => x end.
Definition infer (sh ch che cc lh lhe ln : Q) : result string :=
  infer_star_state exact_sub exact_round (Fin (-15 # 10)) (Some (Fin 10)) (Some (Fin sh)) (Some (Fin ch))
    (Some (Fin che)) (Some (Fin cc)) (Some (Fin lh)) (Some (Fin lhe)) (Some (Fin ln)) false.
Example star_state_cases :
  infer (7#10) (7#10) (28#100) 0 3 (-20#1) 3 = Ok "H-rich_Core_H_burning"
  /\ infer (7#10) 0 0 (1#2) (-20#1) (-20#1) 3 = Ok "H-rich_Core_He_depleted"
  /\ infer 0 0 (98#100) 0 (-20#1) 4 4 = Ok "stripped_He_Core_He_burning"
  /\ infer_star_state exact_sub exact_round (Fin 0) (Some (Fin (12#10))) None None None None None None None true = Ok "NS"
  /\ infer_star_state exact_sub exact_round (Fin 0) (Some (Fin (13#10))) None None (Some (Fin 1)) None None None None true = Ok "WD"
  /\ infer_star_state exact_sub exact_round (Fin 0) (Some NaN) None None None None None None None true = Ok "massless_remnant".
Proof. repeat split. Qed.
(** Every state without an entry in the flow chart can be inferred. *)
Theorem inferred_states_in_flow_refuted : forall n, In n names_without_flow ->
  exists sh ch che cc lh lhe ln, infer sh ch che cc lh lhe ln = Ok n.
Proof.
  intros n H. cbn in H. destruct H as [<-|[<-|[<-|[<-|[]]]]].
  - exists (1#100), (10000000001#1000000000000), 0, 0, 3, (-20#1), 3. reflexivity.
  - exists 0, 0, (98#100), 0, 3, (-20#1), 3. reflexivity.
  - exists 0, (1#1000), 0, (1#2), (-20#1), (-20#1), 3. reflexivity.
  - exists 0, (1#1000), 0, 0, (-20#1), (-20#1), 3. reflexivity.
Qed.
(** ALL_STAR_STATES lacks the non-burning states. *)
Theorem all_star_states_complete_refuted :
  infer (7#10) (7#10) (28#100) 0 (-20#1) (-20#1) 0 = Ok "H-rich_non_burning"
  /\ ~ In "H-rich_non_burning" ALL_STAR_STATES.
Proof.
  split; [reflexivity|]. intro H. cbn in H. intuition discriminate.
Qed.

Print Assumptions mt_summary.
Print Assumptions mt_summary_determined.
Print Assumptions mt_summary_names.
Print Assumptions mt_summary_unknown_name.
Print Assumptions mt_text_of_cases.
Print Assumptions mt_text_faithful.
Print Assumptions mt_text_warnings.
Print Assumptions mt_flag.
Print Assumptions mt_shift.
Print Assumptions mt_shift_monotone.
Print Assumptions mt_shift_ordered.
Print Assumptions mt_shift_after_undetermined.
Print Assumptions mt_case_no_rlo.
Print Assumptions mt_case_documented.
Print Assumptions mt_case_undetermined.
Print Assumptions mt_case_word.
Print Assumptions mt_case_raises.
Print Assumptions mt_case_range.
Print Assumptions binary_state_now.
Print Assumptions binary_state_at.
Print Assumptions binary_state_events.
Print Assumptions binary_state_mirror.
Print Assumptions binary_state_array.
Print Assumptions compact_classes.
Print Assumptions compact_state_of_star.
Print Assumptions normal_star_state.
Print Assumptions normal_star_total.
Print Assumptions normal_star_names.
Print Assumptions names_known_to_flow.
Print Assumptions names_without_flow_stuck.
Print Assumptions first_He_depletion.
Print Assumptions star_state_array.
Print Assumptions inferred_states_in_flow_refuted.
