(** Selection of transients (C148, C149) and their detectability (C150) *)
From Coq Require Import String List Bool Reals ZArith Lra Lia Permutation.
From Verif Require Import PyBase PyStr PySplit TransModel.
Import ListNotations.
Open Scope string_scope.
Open Scope R_scope.
Open Scope list_scope.

(** ** C148: gamma-ray bursts *)
(** The star becomes a black hole in the step of the supernova. *)
Definition becomes (second : bool) (a b : hrow) : Prop := h_star second b = "BH" /\ h_step b = "step_SN" /\ h_star second a <> "BH".
Definition once (second : bool) (rows : list hrow) (pre post : hrow) : Prop :=
  exists l1 l2, rows = l1 ++ pre :: post :: l2 /\ becomes second pre post /\ forall l1' a b l2', rows = l1' ++ a :: b :: l2' -> becomes second a b -> length l1' = length l1.
Definition never (second : bool) (rows : list hrow) : Prop := forall l1 a b l2, rows = l1 ++ a :: b :: l2 -> ~ becomes second a b.
(** Histories do not begin with the supernova making the star a black hole. *)
Definition starts_before (second : bool) (rows : list hrow) : Prop := match rows with [] => True | r :: _ => ~ (h_star second r = "BH" /\ h_step r = "step_SN") end.
Definition history_of (i : Z) (history : list hrow) (rows : list hrow) : Prop := rows = filter (fun r => Z.eqb (h_idx r) i) history.
Definition has_disk (second : bool) (o : orow) : Prop := exists v, o_val o (if second then "S2_m_disk_radiated" else "S1_m_disk_radiated") = Some v /\ 0 < v.
Definition name_of (second : bool) : string := if second then "S2" else "S1".

Lemma formed_spec second a b : formed second a b = true <-> becomes second a b.
Proof.
  unfold formed, becomes. rewrite !andb_true_iff, negb_true_iff, !String.eqb_eq. split; [intros [[A B] C]; repeat split; try assumption; intro E; rewrite E in B; discriminate|]. intros (A & B & C). repeat split; try assumption. apply String.eqb_neq. exact C.
Qed.
Lemma formations_cons second a b l : formations second (a :: b :: l) = (if formed second a b then [(a, b)] else []) ++ formations second (b :: l).
Proof. reflexivity. Qed.
Lemma formations_split second l1 : forall a b l2, formations second (l1 ++ a :: b :: l2) = formations second (l1 ++ [a]) ++ (if formed second a b then [(a, b)] else []) ++ formations second (b :: l2).
Proof.
  induction l1 as [|x l1 IH]; intros a b l2; [reflexivity|]. destruct l1 as [|y l1].
  - cbn [app]. rewrite (formations_cons second x a). rewrite (formations_cons second a b). cbn [formations]. rewrite app_nil_r. reflexivity.
  - cbn [app]. rewrite !(formations_cons second x y). change (y :: l1 ++ a :: b :: l2) with ((y :: l1) ++ a :: b :: l2). rewrite IH. rewrite <- app_assoc. reflexivity.
Qed.
Lemma formations_nil second rows : never second rows -> formations second rows = [].
Proof.
  induction rows as [|a [|b rows] IH]; intro N; [reflexivity|reflexivity|]. rewrite formations_cons. destruct (formed second a b) eqn:F; [exfalso; apply formed_spec in F; exact (N [] a b rows eq_refl F)|]. cbn [app]. apply IH. intros l1 x y l2 E. apply (N (a :: l1) x y l2). cbn. congruence.
Qed.
Lemma once_formations second rows pre post : once second rows pre post -> formations second rows = [(pre, post)].
Proof.
  intros (l1 & l2 & -> & B & U). rewrite formations_split. rewrite (proj2 (formed_spec _ _ _) B). rewrite formations_nil; [rewrite formations_nil; [reflexivity|]|].
  - intros l1' a b l2' E F. assert (L : length (l1 ++ pre :: l1') = length l1) by (apply (U _ a b l2'); [rewrite E, <- app_assoc; reflexivity|exact F]). rewrite app_length in L. cbn in L. lia.
  - intros l1' a b l2' E F. assert (L : length l1' = length l1) by (apply (U l1' a b (l2' ++ post :: l2)); [|exact F]; change (pre :: post :: l2) with ([pre] ++ post :: l2); rewrite app_assoc, E, <- app_assoc; reflexivity). pose proof (f_equal (@length _) E) as LE. rewrite !app_length in LE. cbn in LE. lia.
Qed.
Lemma boundary second rows rest : starts_before second rest -> formations second (rows ++ rest) = formations second rows ++ formations second rest.
Proof.
  intro S. destruct rest as [|r rest]; [rewrite !app_nil_r; reflexivity|]. destruct (rev rows) as [|x l] eqn:E.
  - assert (rows = []) by (rewrite <- (rev_involutive rows), E; reflexivity). subst. reflexivity.
  - assert (R : rows = rev l ++ [x]) by (rewrite <- (rev_involutive rows), E; reflexivity). rewrite R. rewrite <- app_assoc. cbn [app]. rewrite formations_split. destruct (formed second x r) eqn:F; [|reflexivity]. apply formed_spec in F as (A & B & _). exfalso. apply S. split; assumption.
Qed.
Lemma positive_spec second o : positive (o_val o (disk second)) = true <-> has_disk second o.
Proof.
  unfold positive, has_disk, disk. destruct (o_val o _) as [v|]; [|split; [discriminate|intros (w & E & _); discriminate]]. destruct (Rlt_dec 0 v); split; try discriminate; [intros _; exists v; auto|reflexivity|intros (w & E & H); exfalso; assert (w = v) by congruence; lra].
Qed.
Lemma selection_eq history oneline channel second : GRB_selection history oneline channel (name_of second) =
  let chosen := filter (fun o => positive (o_val o (disk second))) oneline in match chosen with [] => Ok [] | _ => rbind (loc history (map o_idx chosen)) (fun selection => fill second channel chosen (formations second selection)) end.
Proof. destruct second; reflexivity. Qed.
Lemma loc_ok history second chosen : (forall o, In o chosen -> exists rows, history_of (o_idx o) history rows /\ rows <> [] /\ starts_before second rows) -> exists s, loc history (map o_idx chosen) = Ok s /\ starts_before second s /\ formations second s = flat_map (fun o => formations second (rows_of (o_idx o) history)) chosen.
Proof.
  induction chosen as [|o chosen IH]; intro H; [exists []; repeat split|]. destruct IH as (s & L & SB & F); [intros x I; apply H; right; exact I|]. destruct (H o (or_introl eq_refl)) as (rows & -> & N & S). fold (rows_of (o_idx o) history) in *. cbn [map loc]. destruct (rows_of (o_idx o) history) as [|r rows] eqn:R; [congruence|]. rewrite L. cbn [rbind]. exists ((r :: rows) ++ s). split; [reflexivity|]. split; [exact S|]. rewrite boundary by exact SB. cbn [flat_map]. rewrite R, F. reflexivity.
Qed.
(** For each binary with a radiated disk there is one row, in order, with the values of its own rows before and after the formation of its black hole. *)
Inductive rows_match (second : bool) (history : list hrow) (channel : option (Z -> string)) : list orow -> list grb -> Prop :=
| match_nil : rows_match second history channel [] []
| match_other o oneline l : ~ has_disk second o -> rows_match second history channel oneline l -> rows_match second history channel (o :: oneline) l
| match_one o oneline l g rows pre post : has_disk second o -> history_of (o_idx o) history rows -> once second rows pre post -> g_idx g = o_idx o -> g_pre g = h_val pre -> g_post g = h_val post -> g_one g = o_val o ->
    g_time g = match h_val post "time" with Some t => Some (t * 1e-6) | None => None end ->
    match channel, g_channel g with None, None => True | Some f, Some c => (exists before rest, c = append before (if second then "_CC2" else "_CC1") /\ f (o_idx o) = append c rest) \/ (py_in (if second then "_CC2" else "_CC1") (f (o_idx o)) = false /\ c = append (f (o_idx o)) (if second then "_CC2" else "_CC1")) | _, _ => False end ->
    rows_match second history channel oneline l -> rows_match second history channel (o :: oneline) (g :: l).
Lemma str_app_assoc' (a b c : string) : append (append a b) c = append a (append b c).
Proof. induction a as [|x a IH]; [reflexivity|]. cbn. f_equal. exact IH. Qed.
Lemma split_hd sep s : sep <> "" -> hd "" (split sep s) = match partition sep s with Some (a, _) => a | None => s end.
Proof.
  intro N. unfold split. destruct s as [|x s]; [cbn; destruct sep; [congruence|reflexivity]|]. cbn [String.length split_fuel]. destruct (partition sep (String x s)) as [[a b]|]; reflexivity.
Qed.
Lemma cut_spec second c : (exists before rest, cut_channel second c = append before (cc second) /\ c = append (cut_channel second c) rest) \/ (py_in (cc second) c = false /\ cut_channel second c = append c (cc second)).
Proof.
  unfold cut_channel. rewrite split_hd by (destruct second; discriminate). destruct (partition (cc second) c) as [[a b]|] eqn:P.
  - left. exists a, b. split; [reflexivity|]. apply partition_some in P as [P _]. rewrite str_app_assoc'. exact P.
  - right. apply partition_none in P. split; [exact P|reflexivity].
Qed.
Theorem C148_own_rows : forall history oneline channel second,
  (forall o, In o oneline -> has_disk second o -> exists rows pre post, history_of (o_idx o) history rows /\ starts_before second rows /\ once second rows pre post) ->
  exists l, GRB_selection history oneline channel (name_of second) = Ok l /\ rows_match second history channel oneline l.
Proof.
  intros history oneline channel second H. rewrite selection_eq. cbv zeta. set (chosen := filter (fun o => positive (o_val o (disk second))) oneline).
  assert (CH : forall o, In o chosen -> has_disk second o /\ In o oneline) by (intros o I; apply filter_In in I as [I P]; split; [apply positive_spec; exact P|exact I]).
  assert (K : exists s, loc history (map o_idx chosen) = Ok s /\ formations second s = flat_map (fun o => formations second (rows_of (o_idx o) history)) chosen). { destruct (loc_ok history second chosen) as (s & L & _ & F); [|exists s; auto]. intros o I. destruct (CH o I) as [D J]. destruct (H o J D) as (rows & pre & post & R & S & (l1 & l2 & E & _)). exists rows. split; [exact R|]. split; [rewrite E; destruct l1; discriminate|exact S]. }
  destruct K as (s & L & F).
  assert (FL : exists l, fill second channel chosen (flat_map (fun o => formations second (rows_of (o_idx o) history)) chosen) = Ok l /\ rows_match second history channel oneline l).
  { clear L F s. unfold chosen in *. clear chosen. induction oneline as [|o oneline IH]; [exists []; split; [reflexivity|constructor]|]. destruct IH as (l & FL & RM); [intros x I; apply H; right; exact I|intros x I; apply filter_In in I as [I P]; split; [apply positive_spec; exact P|exact I]|]. cbn [filter] in *. destruct (positive (o_val o (disk second))) eqn:P.
    - apply positive_spec in P. destruct (H o (or_introl eq_refl) P) as (rows & pre & post & R & S & O). cbn [flat_map]. assert (ER : rows_of (o_idx o) history = rows) by (symmetry; exact R). rewrite ER, (once_formations _ _ _ _ O). cbn [app fill]. rewrite FL. cbn [rbind]. eexists. split; [reflexivity|]. apply match_one with (rows := rows) (pre := pre) (post := post); try reflexivity; try assumption. cbn [g_channel]. destruct channel as [f|]; [|exact I]. apply cut_spec.
    - exists l. split; [exact FL|]. apply match_other; [|exact RM]. intro D. apply positive_spec in D. congruence. }
  destruct FL as (l & FL & RM). exists l. split; [|exact RM]. destruct chosen as [|o chosen'] eqn:E; [cbn in FL; exact FL|]. rewrite <- E in *. rewrite L. cbn [rbind]. rewrite F. exact FL.
Qed.
Print Assumptions C148_own_rows.
(** If a binary with a disk lacks such a pair of rows and none has more than one, the whole chunk fails. *)
Theorem C148_lacking : forall history oneline channel second,
  (forall o, In o oneline -> has_disk second o -> exists rows, history_of (o_idx o) history rows /\ rows <> [] /\ starts_before second rows /\ (never second rows \/ exists pre post, once second rows pre post)) ->
  (exists o rows, In o oneline /\ has_disk second o /\ history_of (o_idx o) history rows /\ never second rows) ->
  GRB_selection history oneline channel (name_of second) = Raise ValueError.
Proof.
  intros history oneline channel second H (o0 & r0 & I0 & D0 & R0 & N0). rewrite selection_eq. cbv zeta. set (chosen := filter (fun o => positive (o_val o (disk second))) oneline).
  assert (IC : In o0 chosen) by (apply filter_In; split; [exact I0|apply positive_spec; exact D0]).
  destruct (loc_ok history second chosen) as (s & L & _ & F). { intros o I. apply filter_In in I as [I P]. apply positive_spec in P. destruct (H o I P) as (rows & A & B & C & _). exists rows. auto. }
  assert (LE : forall l, (forall o, In o l -> In o chosen) -> (length (flat_map (fun o => formations second (rows_of (o_idx o) history)) l) <= length l)%nat /\ (In o0 l -> (length (flat_map (fun o => formations second (rows_of (o_idx o) history)) l) < length l)%nat)).
  { induction l as [|o l IH]; intro S; [split; [cbn; lia|intros []]|]. destruct IH as [IH1 IH2]; [intros x I; apply S; right; exact I|]. cbn [flat_map]. rewrite app_length. assert (IO := S o (or_introl eq_refl)). apply filter_In in IO as [IO P]. apply positive_spec in P. destruct (H o IO P) as (rows & A & B & C & D). assert (ER : rows_of (o_idx o) history = rows) by (symmetry; exact A). assert (L1 : (length (formations second (rows_of (o_idx o) history)) <= 1)%nat) by (rewrite ER; destruct D as [D|(pre & post & D)]; [rewrite formations_nil by exact D; cbn; lia|rewrite (once_formations _ _ _ _ D); cbn; lia]).
    split; [cbn; lia|]. intros [->|I]; [|specialize (IH2 I); cbn; lia]. assert (E0 : rows_of (o_idx o0) history = r0) by (symmetry; exact R0). rewrite E0, formations_nil by exact N0. cbn. lia. }
  destruct (LE chosen (fun _ i => i)) as [_ LT]. specialize (LT IC). destruct chosen as [|o chosen'] eqn:E; [contradiction|]. rewrite <- E in *. rewrite L. cbn [rbind]. rewrite F. clear - LT. revert LT. generalize (flat_map (fun o => formations second (rows_of (o_idx o) history)) chosen) as ps. induction chosen as [|o l IH]; intros [|[a b] ps] LT; try (cbn in LT; lia); [reflexivity|]. cbn [fill]. rewrite IH by (cbn in LT; lia). reflexivity.
Qed.
Print Assumptions C148_lacking.
(** Values go to rows by their order only: with one pair too many in one history and one lacking in the next, a binary gets those of another. *)
Definition row (i : Z) (s : string) (step : string) (t : R) : hrow := HRow i s "BH" step "detached" "" (fun c => if String.eqb c "time" then Some t else None).
Theorem C148_order_refuted : exists history oneline l g, GRB_selection history oneline None "S1" = Ok l /\ In g l /\ ~ exists r, In r history /\ h_idx r = g_idx g /\ h_val r = g_post g.
Proof.
  set (hist := [row 0 "star" "initial" 0; row 0 "BH" "step_SN" 1; row 0 "star" "x" 2; row 0 "BH" "step_SN" 3; row 1 "star" "initial" 4; row 1 "BH" "step_CE" 5]). set (one := [ORow 0 (fun _ => Some 1); ORow 1 (fun _ => Some 1)]).
  assert (E : GRB_selection hist one None "S1" = Ok [GRB 0 (h_val (row 0 "star" "initial" 0)) (h_val (row 0 "BH" "step_SN" 1)) (fun _ => Some 1) None (scale 1e-6 (Some 1)); GRB 1 (h_val (row 0 "star" "x" 2)) (h_val (row 0 "BH" "step_SN" 3)) (fun _ => Some 1) None (scale 1e-6 (Some 3))]).
  { unfold GRB_selection, one. cbn [String.eqb filter o_val disk positive Ascii.eqb Bool.eqb]. destruct (Rlt_dec 0 1); [|lra]. reflexivity. }
  exists hist, one. do 2 eexists. split; [exact E|]. split; [right; left; reflexivity|]. cbn [g_idx g_post]. intros (r & I & J & V). apply (f_equal (fun f => f "time")) in V. cbn in I. destruct I as [<-|[<-|[<-|[<-|[<-|[<-|[]]]]]]]; cbn in J, V; try discriminate; assert (K : forall x y : R, Some x = Some y -> x = y) by congruence; apply K in V; lra.
Qed.
Print Assumptions C148_order_refuted.
Example C148_case : exists l, GRB_selection [row 7 "star" "initial" 0; row 7 "BH" "step_SN" 1; row 7 "BH" "step_CO" 2; row 5 "star" "initial" 0] [ORow 7 (fun _ => Some 1); ORow 5 (fun _ => None)] (Some (fun _ => "ZAMS_oRLO1_CC1_CC2_END")) "S1" = Ok l /\ map g_channel l = [Some "ZAMS_oRLO1_CC1"] /\ map g_idx l = [7%Z].
Proof.
  eexists. split; [unfold GRB_selection; cbn [String.eqb filter o_val disk positive Ascii.eqb Bool.eqb]; destruct (Rlt_dec 0 1); [reflexivity|lra]|]. split; reflexivity.
Qed.
Example C148_case_hyp : once false [row 7 "star" "initial" 0; row 7 "BH" "step_SN" 1; row 7 "BH" "step_CO" 2] (row 7 "star" "initial" 0) (row 7 "BH" "step_SN" 1) /\ starts_before false [row 7 "star" "initial" 0; row 7 "BH" "step_SN" 1; row 7 "BH" "step_CO" 2].
Proof.
  split; [|cbn; intros [A _]; discriminate]. exists [], [row 7 "BH" "step_CO" 2]. split; [reflexivity|]. split; [repeat split; discriminate|]. intros [|x [|y [|w l1]]] a b l2 E (A & B & C); try reflexivity.
  - cbn in E. exfalso. apply C. assert (a = row 7 "BH" "step_SN" 1) by congruence. subst. reflexivity.
  - apply (f_equal (@length _)) in E. cbn in E. lia.
  - apply (f_equal (@length _)) in E. cbn in E. rewrite app_length in E. cbn in E. lia.
Qed.

(** ** C149: mergers of black holes *)
Definition at_most_one (p : hrow -> Prop) (history : list hrow) : Prop := forall l1 a l2 b l3, history = l1 ++ a :: l2 ++ b :: l3 -> p a -> p b -> h_idx a <> h_idx b.
Definition is_end (r : hrow) : Prop := h_event r = "END".
Definition is_double (r : hrow) : Prop := h_S1 r = "BH" /\ h_S2 r = "BH" /\ h_step r = "step_SN" /\ h_state r = "detached".
Lemma ended_spec r : ended r = true <-> is_end r. Proof. apply String.eqb_eq. Qed.
Lemma double_spec r : double r = true <-> is_double r.
Proof. unfold double, is_double. rewrite !andb_true_iff, !String.eqb_eq. tauto. Qed.
Lemma unique_spec (f : hrow -> bool) history : unique (map h_idx (filter f history)) = true <-> at_most_one (fun r => f r = true) history.
Proof.
  induction history as [|r history IH]; [split; [intros _ [|? ?]; discriminate|reflexivity]|]. cbn [filter]. assert (T : at_most_one (fun r => f r = true) (r :: history) <-> at_most_one (fun r => f r = true) history /\ (f r = true -> forall b, In b history -> f b = true -> h_idx r <> h_idx b)).
  { split.
    - intro H. split; [intros l1 a l2 b l3 E; apply (H (r :: l1) a l2 b l3); cbn; congruence|]. intros F b I G. apply in_split in I as (l2 & l3 & E). apply (H [] r l2 b l3); [cbn; congruence|exact F|exact G].
    - intros [A B] [|x l1] a l2 b l3 E F G; cbn in E.
      + assert (r = a /\ history = l2 ++ b :: l3) as [-> ->] by (split; congruence). apply B; [exact F|apply in_or_app; right; left; reflexivity|exact G].
      + assert (E' : history = l1 ++ a :: l2 ++ b :: l3) by congruence. exact (A _ _ _ _ _ E' F G). }
  rewrite T, <- IH. destruct (f r) eqn:F; [|split; [intro U; split; [exact U|discriminate]|intros [U _]; exact U]]. cbn [map unique]. rewrite andb_true_iff, negb_true_iff. assert (X : existsb (Z.eqb (h_idx r)) (map h_idx (filter f history)) = false <-> forall b, In b history -> f b = true -> h_idx r <> h_idx b).
  { split.
    - intros X b I G E. assert (Y : existsb (Z.eqb (h_idx r)) (map h_idx (filter f history)) = true) by (apply existsb_exists; exists (h_idx b); split; [apply in_map, filter_In; auto|apply Z.eqb_eq; exact E]). congruence.
    - intro H. destruct (existsb _ _) eqn:Y; [|reflexivity]. apply existsb_exists in Y as (i & I & E). apply Z.eqb_eq in E. apply in_map_iff in I as (b & <- & I). apply filter_In in I as [I G]. exfalso. exact (H b I G E). }
  rewrite X. split; [intros [A B]; split; [exact B|intros _; exact A]|intros [B A]; split; [apply A; reflexivity|exact B]].
Qed.
Definition found (p : hrow -> Prop) (history : list hrow) (i : Z) (o : option hrow) : Prop := match o with Some r => In r history /\ p r /\ h_idx r = i | None => forall r, In r history -> p r -> h_idx r <> i end.
Lemma found_find (f : hrow -> bool) (p : hrow -> Prop) history i : (forall r, f r = true <-> p r) -> found p history i (find (fun r => Z.eqb (h_idx r) i) (filter f history)).
Proof.
  intro S. destruct (find _ _) as [r|] eqn:E; cbn.
  - apply find_some in E as [I E]. apply filter_In in I as [I F]. apply Z.eqb_eq in E. split; [exact I|]. split; [apply S; exact F|exact E].
  - intros r I P H. apply find_none with (x := r) in E; [apply Z.eqb_neq in E; contradiction|]. apply filter_In. split; [exact I|apply S; exact P].
Qed.
Definition Myr (x : num) : num := match x with Some v => Some (v * 1e-6) | None => None end.
(** One row for each binary of the oneline table, with the time of its end, and the values of its row after the second collapse, NaN if it has none. *)
Theorem C149_rows : forall history oneline l, BBH_selection history oneline = Ok l -> Forall2 (fun o b => b_idx b = o_idx o /\ b_metallicity b = o_val o "metallicity"
  /\ exists last formation, found is_end history (o_idx o) last /\ found is_double history (o_idx o) formation
     /\ b_time b = match last with Some r => Myr (h_val r "time") | None => None end
     /\ (forall c, b_val b c = match formation with Some r => h_val r c | None => None end)
     /\ b_inspiral b = match last, formation with Some r, Some r' => match h_val r "time", h_val r' "time" with Some t, Some t' => Some (t * 1e-6 - t' * 1e-6) | _, _ => None end | _, _ => None end) oneline l.
Proof.
  intros history oneline l. unfold BBH_selection, aligned. destruct (unique (map h_idx (filter ended history))); [|discriminate]. destruct (unique (map h_idx (filter double history))); [|discriminate]. cbn [rbind]. intro E. assert (K : forall A (x y : A), Ok x = Ok y -> x = y) by (intros; congruence). apply K in E. subst l. clear K. induction oneline as [|o oneline IH]; [constructor|]. cbn [map]. constructor; [|exact IH]. cbn [b_idx b_metallicity b_time b_val b_inspiral]. split; [reflexivity|]. split; [reflexivity|].
  exists (find (fun r => Z.eqb (h_idx r) (o_idx o)) (filter ended history)), (find (fun r => Z.eqb (h_idx r) (o_idx o)) (filter double history)). split; [apply found_find, ended_spec|]. split; [apply found_find, double_spec|].
  destruct (find (fun r => Z.eqb (h_idx r) (o_idx o)) (filter ended history)) as [r|]; destruct (find (fun r => Z.eqb (h_idx r) (o_idx o)) (filter double history)) as [r'|]; cbv beta iota; try (split; [reflexivity|split; [reflexivity|]]); try reflexivity; unfold minus, scale; destruct (h_val r "time"); try destruct (h_val r' "time"); reflexivity.
Qed.
Print Assumptions C149_rows.
(** It fails exactly if a binary ends twice or is found as a new double black hole twice. *)
Theorem C149_twice : forall history oneline, BBH_selection history oneline = Raise ValueError <-> ~ (at_most_one is_end history /\ at_most_one is_double history).
Proof.
  intros history oneline. assert (A : forall (f : hrow -> bool) (p : hrow -> Prop), (forall r, f r = true <-> p r) -> (at_most_one p history <-> unique (map h_idx (filter f history)) = true)).
  { intros f p S. rewrite unique_spec. unfold at_most_one. split; intros H l1 a l2 b l3 E Fa Fb; apply (H l1 a l2 b l3 E); apply S; assumption. }
  rewrite (A ended is_end ended_spec), (A double is_double double_spec). unfold BBH_selection, aligned. destruct (unique (map h_idx (filter ended history))); cbn [rbind]; [|split; [intros _ [X _]; discriminate|reflexivity]]. destruct (unique (map h_idx (filter double history))); cbn [rbind]; [split; [discriminate|tauto]|split; [intros _ [_ X]; discriminate|reflexivity]].
Qed.
Print Assumptions C149_twice.
(** If every binary's end comes after its second collapse, no inspiral takes negative time. *)
Theorem C149_inspiral : forall history oneline l b t, BBH_selection history oneline = Ok l -> In b l -> b_inspiral b = Some t ->
  (forall r r' x x', In r history -> In r' history -> is_end r -> is_double r' -> h_idx r = h_idx r' -> h_val r "time" = Some x -> h_val r' "time" = Some x' -> x' <= x) -> 0 <= t.
Proof.
  intros history oneline l b t E I T H. apply C149_rows in E. assert (S : exists o, In o oneline /\ exists last formation, found is_end history (o_idx o) last /\ found is_double history (o_idx o) formation /\ b_inspiral b = match last, formation with Some r, Some r' => match h_val r "time", h_val r' "time" with Some t, Some t' => Some (t * 1e-6 - t' * 1e-6) | _, _ => None end | _, _ => None end).
  { induction E as [|o b' oneline l R E IH]; [contradiction|]. destruct I as [->|I]; [|destruct (IH I) as (o' & J & S); exists o'; split; [right; exact J|exact S]]. exists o. split; [left; reflexivity|]. destruct R as (_ & _ & last & formation & A & B & _ & _ & C). exists last, formation. auto. }
  destruct S as (o & _ & last & formation & A & B & C). rewrite C in T. destruct last as [r|]; [|discriminate]. destruct formation as [r'|]; [|discriminate]. destruct (h_val r "time") as [x|] eqn:X; [|discriminate]. destruct (h_val r' "time") as [x'|] eqn:X'; [|discriminate]. assert (t = x * 1e-6 - x' * 1e-6) by congruence. destruct A as (A1 & A2 & A3), B as (B1 & B2 & B3). specialize (H r r' x x' A1 B1 A2 B2 ltac:(congruence) X X'). lra.
Qed.
Print Assumptions C149_inspiral.
Example C149_case : exists l, BBH_selection [HRow 3 "BH" "BH" "step_SN" "detached" "" (fun _ => Some 5); HRow 3 "BH" "BH" "step_CO" "merged" "END" (fun _ => Some 9); HRow 4 "NS" "BH" "step_SN" "detached" "END" (fun _ => Some 2)] [ORow 3 (fun _ => Some 1); ORow 4 (fun _ => Some 1)] = Ok l /\ map b_inspiral l = [Some (9 * 1e-6 - 5 * 1e-6); None].
Proof. eexists. split; reflexivity. Qed.
