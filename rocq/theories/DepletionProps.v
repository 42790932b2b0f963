(** C62: histories cut at the depletion of helium and carbon in the centre. *)
From Coq Require Import String List Bool ZArith QArith Lia Arith.
From Verif Require Import PyBase PyList MaskList ScrubModel ScrubProofs RloProps.
Import ListNotations.
Open Scope string_scope.
Open Scope nat_scope.
Open Scope list_scope.

(** ** Specification *)
Definition under (x : num) (v : Q) : Prop := exists q, x = Some q /\ (q < v)%Q.
Definition low (Y X : Q) (r : record) : Prop := under (r "center_he4") Y /\ under (r "center_c12") X.
(** The star ends depleted. *)
Definition ends_depleted (Y X : Q) (h : table) : Prop :=
  has_column h "center_he4" /\ has_column h "center_c12" /\ exists pre r, rows h = pre ++ [r] /\ low Y X r.
(** ... and row [n] is its first depleted row. *)
Definition depleted_at (Y X : Q) (h : table) (n : nat) : Prop :=
  ends_depleted Y X h /\ (exists r, nth_error (rows h) n = Some r /\ low Y X r) /\
  forall i r, i < n -> nth_error (rows h) i = Some r -> ~ low Y X r.
Definition dated (b h1 h2 : table) : Prop :=
  has_column b "age" \/ (has_column h1 "star_age" /\ has_column h2 "star_age").
(** Number of rows that are kept when row [n] is the one to stop at: it is included unless it is the last row of
    the binary history. *)
Definition kept_rows (b : table) (n : nat) : nat := if n + 1 <? length (rows b) then n + 1 else n.
Definition cut (m : nat) (t : table) : table := {| names := names t; rows := firstn m (rows t) |}.
Definition age_at (t : table) (c : string) (n : nat) (a : num) : Prop :=
  has_column t c /\ exists r, nth_error (rows t) n = Some r /\ r c = a.

(** ** Lemmas *)
Lemma under_spec x v : nlt x (Some v) = true <-> under x v.
Proof.
  rewrite nlt_before. unfold before, under. split.
  - intros (a & b & E1 & E2 & L). injection E2 as <-. eauto.
  - intros (q & E & L). exists q, v. auto.
Qed.
Lemma low_spec Y X r : below r Y X = true <-> low Y X r.
Proof. unfold below, low. rewrite andb_true_iff, !under_spec. tauto. Qed.
Lemma depleted_spec Y X h : depleted h Y X = true <-> ends_depleted Y X h.
Proof.
  unfold depleted, ends_depleted. rewrite !andb_true_iff, !has_in. split.
  - intros [[A B] C]. split; [exact A|]. split; [exact B|]. destruct (rev (rows h)) as [|r l] eqn:E; [discriminate|].
    exists (rev l), r. split; [|apply low_spec; exact C]. rewrite <- (rev_involutive (rows h)), E. reflexivity.
  - intros (A & B & pre & r & E & L). split; [auto|]. rewrite E, rev_app_distr. cbn. apply low_spec. exact L.
Qed.
Lemma first_depleted_spec Y X h n : depleted_at Y X h n -> first_depleted h Y X = Some n.
Proof.
  intros (_ & (r & R1 & R2) & H). unfold first_depleted. apply first_true_is.
  - rewrite nth_map_error, R1. cbn. f_equal. apply low_spec. exact R2.
  - intros j J. rewrite nth_map_error. destruct (nth_error (rows h) j) as [r'|] eqn:E.
    + cbn. f_equal. destruct (below r' Y X) eqn:C; [|reflexivity]. exfalso. apply (H j r' J E). apply low_spec. exact C.
    + exfalso. apply nth_error_None in E. assert (n < length (rows h)) by (apply nth_error_Some; congruence). lia.
Qed.
(** A star that ends depleted has a first depleted row. *)
Lemma depleted_somewhere Y X h : ends_depleted Y X h -> exists n, depleted_at Y X h n.
Proof.
  intros E. pose proof E as (_ & _ & pre & r & R & L). destruct (first_depleted h Y X) as [n|] eqn:F; unfold first_depleted in F.
  - exists n. apply first_true_some in F as [A B]. split; [exact E|]. rewrite nth_map_error in A. split.
    + destruct (nth_error (rows h) n) as [r'|]; [|discriminate]. exists r'. split; [reflexivity|]. apply low_spec. cbn in A. congruence.
    + intros i r' I R' T. specialize (B i I). rewrite nth_map_error, R' in B. cbn in B. apply low_spec in T. congruence.
  - exfalso. assert (I : In (below r Y X) (map (fun r => below r Y X) (rows h))).
    { apply (in_map (fun r => below r Y X)). rewrite R. apply in_or_app. right. left. reflexivity. }
    apply (first_true_none _ F) in I. apply low_spec in L. congruence.
Qed.
Lemma depleted_false Y X h : ~ ends_depleted Y X h -> depleted h Y X = false.
Proof. intros N. destruct (depleted h Y X) eqn:E; [|reflexivity]. exfalso. apply N, depleted_spec, E. Qed.
Lemma dated_ok b h1 h2 : dated b h1 h2 -> negb (has b "age" || (has h1 "star_age" && has h2 "star_age")) = false.
Proof. intros D. apply negb_false_iff. rewrite orb_true_iff, andb_true_iff, !has_in. exact D. Qed.
Lemma kept_rows_ok b n : (if (n + 2 <=? length (rows b)) then S n else n) = kept_rows b n.
Proof. unfold kept_rows. destruct (Nat.leb_spec (n + 2) (length (rows b))), (Nat.ltb_spec (n + 1) (length (rows b))); lia. Qed.
Lemma value_ok t c n a : age_at t c n a -> value_at t c n = Ok a.
Proof. intros (H & r & R & E). unfold value_at. rewrite (proj2 (has_in _ _) H). cbn. rewrite R. congruence. Qed.

(** ** C62 *)
(** One star ends depleted: all histories are cut after its first depleted row, and the flag names the star. *)
Theorem C62_one : forall b h1 h2 Y X n, dated b h1 h2 ->
  (depleted_at Y X h1 n -> ~ ends_depleted Y X h2 ->
   keep_till_central_abundance_He_C (Some b) (Some h1) (Some h2) Y X
   = Ok ((Some (cut (kept_rows b n) b), Some (cut (kept_rows b n) h1), Some (cut (kept_rows b n) h2)),
         "Primary got stopped before central carbon depletion")) /\
  (depleted_at Y X h2 n -> ~ ends_depleted Y X h1 ->
   keep_till_central_abundance_He_C (Some b) (Some h1) (Some h2) Y X
   = Ok ((Some (cut (kept_rows b n) b), Some (cut (kept_rows b n) h1), Some (cut (kept_rows b n) h2)),
         "Secondary got stopped before central carbon depletion")).
Proof.
  intros b h1 h2 Y X n D. split; intros A B.
  - unfold keep_till_central_abundance_He_C, stop_at. rewrite (dated_ok _ _ _ D), (depleted_false _ _ _ B).
    pose proof A as (A' & _). rewrite (proj2 (depleted_spec _ _ _) A'), (first_depleted_spec _ _ _ _ A). cbn [rbind].
    rewrite kept_rows_ok. reflexivity.
  - unfold keep_till_central_abundance_He_C, stop_at. rewrite (dated_ok _ _ _ D), (depleted_false _ _ _ B).
    pose proof A as (A' & _). rewrite (proj2 (depleted_spec _ _ _) A'), (first_depleted_spec _ _ _ _ A). cbn [rbind].
    rewrite kept_rows_ok. reflexivity.
Qed.
Print Assumptions C62_one.

(** Both end depleted: the one that gets there first counts, the primary if they get there at the same age.  The ages
    are those of the stars if the primary's history has them, else those of the binary. *)
Theorem C62_both : forall b h1 h2 Y X n1 n2 a1 a2, dated b h1 h2 -> depleted_at Y X h1 n1 -> depleted_at Y X h2 n2 ->
  ((age_at h1 "star_age" n1 (Some a1) /\ age_at h2 "star_age" n2 (Some a2)) \/
   (~ has_column h1 "star_age" /\ age_at b "age" n1 (Some a1) /\ age_at b "age" n2 (Some a2))) ->
  exists n flag, keep_till_central_abundance_He_C (Some b) (Some h1) (Some h2) Y X
   = Ok ((Some (cut (kept_rows b n) b), Some (cut (kept_rows b n) h1), Some (cut (kept_rows b n) h2)), flag) /\
   ((a1 <= a2)%Q -> n = n1 /\ flag = "Primary got stopped before central carbon depletion") /\
   ((a2 < a1)%Q -> n = n2 /\ flag = "Secondary got stopped before central carbon depletion").
Proof.
  intros b h1 h2 Y X n1 n2 a1 a2 D A B AG.
  unfold keep_till_central_abundance_He_C, stop_at. rewrite (dated_ok _ _ _ D).
  pose proof A as (A' & _). rewrite (proj2 (depleted_spec _ _ _) A'), (first_depleted_spec _ _ _ _ A).
  pose proof B as (B' & _). rewrite (proj2 (depleted_spec _ _ _) B'), (first_depleted_spec _ _ _ _ B).
  assert (V : (if has h1 "star_age" then value_at h1 "star_age" n1 else value_at b "age" n1) = Ok (Some a1) /\
              (if has h1 "star_age" then value_at h2 "star_age" n2 else value_at b "age" n2) = Ok (Some a2)).
  { destruct AG as [[G1 G2]|(N & G1 & G2)].
    - pose proof G1 as (H & _). rewrite (proj2 (has_in _ _) H). split; apply value_ok; assumption.
    - destruct (has h1 "star_age") eqn:E; [exfalso; apply N, has_in, E|]. split; apply value_ok; assumption. }
  destruct V as [-> ->]. cbn [rbind].
  destruct (nlt (Some a2) (Some a1)) eqn:L.
  - apply nlt_before in L as (x & y & E1 & E2 & L). injection E1 as <-. injection E2 as <-.
    exists n2, secondary_stopped. rewrite kept_rows_ok. split; [reflexivity|]. split; [|auto].
    intros G. exfalso. apply (Qlt_not_le _ _ L G).
  - exists n1, primary_stopped. rewrite kept_rows_ok. split; [reflexivity|]. split; [auto|].
    intros G. exfalso. assert (nlt (Some a2) (Some a1) = true) by (apply nlt_before; exists a2, a1; auto). congruence.
Qed.
Print Assumptions C62_both.

(** Otherwise nothing changes and the flag is empty. *)
Theorem C62_unchanged : forall bh h1 h2 Y X,
  bh = None \/ h1 = None \/ h2 = None \/
  (exists b t1 t2, bh = Some b /\ h1 = Some t1 /\ h2 = Some t2 /\ (~ dated b t1 t2 \/ (~ ends_depleted Y X t1 /\ ~ ends_depleted Y X t2))) ->
  keep_till_central_abundance_He_C bh h1 h2 Y X = Ok ((bh, h1, h2), "").
Proof.
  intros bh h1 h2 Y X [->|[->|[->|(b & t1 & t2 & -> & -> & -> & H)]]]; [reflexivity|destruct bh; reflexivity|destruct bh, h1; reflexivity|].
  unfold keep_till_central_abundance_He_C, stop_at. destruct H as [H|[H1 H2]].
  - destruct (negb _) eqn:E; [reflexivity|]. exfalso. apply H. apply negb_false_iff in E.
    rewrite orb_true_iff, andb_true_iff, !has_in in E. exact E.
  - destruct (negb _); [reflexivity|]. rewrite (depleted_false _ _ _ H1), (depleted_false _ _ _ H2). reflexivity.
Qed.
Print Assumptions C62_unchanged.

(** If the depletion is found before the last row, the last row that is kept is the first depleted one: so the final
    state of the star is a depleted one. *)
Theorem C62_last : forall b h Y X n, length (rows h) = length (rows b) -> depleted_at Y X h n -> S n < length (rows b) ->
  exists pre r, rows (cut (kept_rows b n) h) = pre ++ [r] /\ low Y X r /\ (forall r', In r' pre -> ~ low Y X r') /\ length pre = n.
Proof.
  intros b h Y X n L (_ & (r & R1 & R2) & H) N. unfold kept_rows, cut. cbn [rows].
  rewrite (proj2 (Nat.ltb_lt _ _)) by lia. exists (firstn n (rows h)), r. split; [|split; [exact R2|split]].
  - clear - R1. revert n R1. induction (rows h) as [|x l IH]; intros [|n] R; cbn in *; try discriminate; [congruence|]. f_equal. apply IH. exact R.
  - intros r' I. apply In_nth_error in I as (i & I).
    assert (IN : i < n). { assert (LL : i < length (firstn n (rows h))) by (apply nth_error_Some; congruence). rewrite firstn_length in LL. lia. }
    rewrite nth_firstn_lt in I by exact IN. apply (H i r' IN I).
  - rewrite firstn_length. lia.
Qed.
Print Assumptions C62_last.

(** But if it is found in the last row, this row is dropped and no row of the result is depleted. *)
Theorem C62_last_row_dropped : forall b h Y X n, length (rows h) = length (rows b) -> depleted_at Y X h n -> S n = length (rows b) ->
  length (rows (cut (kept_rows b n) h)) = n /\ forall r, In r (rows (cut (kept_rows b n) h)) -> ~ low Y X r.
Proof.
  intros b h Y X n L (_ & _ & H) N. unfold kept_rows, cut. cbn [rows].
  rewrite (proj2 (Nat.ltb_ge _ _)) by lia. split; [rewrite firstn_length; lia|].
  intros r I. apply In_nth_error in I as (i & I).
  assert (IN : i < n). { assert (LL : i < length (firstn n (rows h))) by (apply nth_error_Some; congruence). rewrite firstn_length in LL. lia. }
  rewrite nth_firstn_lt in I by exact IN. apply (H i r IN I).
Qed.
Print Assumptions C62_last_row_dropped.

(** *** Cases *)
Definition star_row (age he c : Q) : record := fun c' =>
  if String.eqb c' "star_age" then Some age else if String.eqb c' "center_he4" then Some he
  else if String.eqb c' "center_c12" then Some c else if String.eqb c' "age" then Some age else None.
Definition ex_b : table := {| names := ["age"]; rows := [star_row 1 0 0; star_row 2 0 0; star_row 3 0 0; star_row 4 0 0] |}.
Definition ex_1 : table :=
  {| names := ["star_age"; "center_he4"; "center_c12"];
     rows := [star_row 1 (1 # 2) (1 # 2); star_row 2 0 (1 # 2); star_row 3 0 0; star_row 4 0 0] |}.
Definition ex_2 : table :=
  {| names := ["star_age"; "center_he4"; "center_c12"];
     rows := [star_row 1 (1 # 2) (1 # 2); star_row 2 (1 # 2) (1 # 2); star_row 3 (1 # 2) (1 # 2); star_row 4 0 0] |}.
Definition no_ages (t : table) : table := {| names := ["center_he4"; "center_c12"]; rows := rows t |}.
Definition Y0 : Q := THRESHOLD_CENTRAL_ABUNDANCE.
Definition X0 : Q := THRESHOLD_CENTRAL_ABUNDANCE_LOOSE_C.
Definition sizes (r : result (histories * string)) : option (list nat * string) :=
  match r with
  | Ok ((Some b, Some t1, Some t2), f) => Some ([length (rows b); length (rows t1); length (rows t2)], f)
  | _ => None
  end.
Lemma decide_depleted h n : depleted h Y0 X0 = true -> first_depleted h Y0 X0 = Some n -> depleted_at Y0 X0 h n.
Proof.
  intros A B. apply depleted_spec in A. destruct (depleted_somewhere _ _ _ A) as (m & M).
  pose proof (first_depleted_spec _ _ _ _ M) as F. rewrite F in B. injection B as <-. exact M.
Qed.
Example C62_runs : dated ex_b ex_1 ex_2 /\ depleted_at Y0 X0 ex_1 2 /\ depleted_at Y0 X0 ex_2 3 /\
  age_at ex_1 "star_age" 2 (Some 3%Q) /\ age_at ex_2 "star_age" 3 (Some 4%Q) /\
  sizes (keep_till_central_abundance_He_C (Some ex_b) (Some ex_1) (Some ex_2) Y0 X0) = Some ([3; 3; 3], primary_stopped).
Proof.
  split; [left; cbn; auto|]. split; [apply decide_depleted; reflexivity|]. split; [apply decide_depleted; reflexivity|].
  split; [split; [cbn; auto|eexists; split; reflexivity]|]. split; [split; [cbn; auto|eexists; split; reflexivity]|]. vm_compute. reflexivity.
Qed.
(** With only the secondary depleted, in the last row: three rows are left, none of them depleted. *)
Theorem C62_last_row_refuted :
  sizes (keep_till_central_abundance_He_C (Some ex_b) (Some ex_2) (Some ex_2) Y0 X0) = Some ([3; 3; 3], primary_stopped) /\
  ends_depleted Y0 X0 ex_2 /\ ~ ends_depleted Y0 X0 (cut 3 ex_2).
Proof.
  split; [vm_compute; reflexivity|]. split; [apply depleted_spec; reflexivity|].
  intros E. apply depleted_spec in E. vm_compute in E. discriminate.
Qed.
Print Assumptions C62_last_row_refuted.
(** If only the primary's history has the ages of the star, it fails although the binary history has ages; if
    only the secondary's has, it does not. *)
Theorem C62_ages_refuted :
  keep_till_central_abundance_He_C (Some ex_b) (Some ex_1) (Some (no_ages ex_2)) Y0 X0 = Raise ValueError /\
  sizes (keep_till_central_abundance_He_C (Some ex_b) (Some (no_ages ex_1)) (Some ex_2) Y0 X0) = Some ([3; 3; 3], primary_stopped).
Proof. vm_compute. auto. Qed.
Print Assumptions C62_ages_refuted.
