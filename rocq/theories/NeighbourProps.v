(** The nearest run of a grid (C138) *)
From Coq Require Import String List Bool Reals Lra Lia Arith.
From Verif Require Import PyBase ScalerModel NeighbourModel.
Import ListNotations.
Open Scope string_scope.
Open Scope R_scope.
Open Scope list_scope.

(** The run converged and its initial masses and period are known. *)
Definition usable (r : trun) (a1 a2 ap : R) : Prop :=
  t_class r <> "not_converged" /\ t_initial r "star_1_mass" = Some a1 /\ t_initial r "star_2_mass" = Some a2 /\ t_initial r "period_days" = Some ap /\ a1 <> 0.
Definition log_ (x : R) : R := ln x / ln 10.
(** The square of the distance of two binaries: in the logarithms of masses and period, or with the mass ratio in place of the second mass *)
Definition apart (q : bool) (m1 m2 p a1 a2 ap : R) : R :=
  (log_ m1 - log_ a1) ^ 2 + (if q then (m2 / m1 - a2 / a1) ^ 2 else (log_ m2 - log_ a2) ^ 2) + (log_ p - log_ ap) ^ 2.

Definition row (q : bool) (r : trun) : list fl := [t_initial r "star_1_mass"; (if q then fdiv (t_initial r "star_2_mass") (t_initial r "star_1_mass") else t_initial r "star_2_mass"); t_initial r "period_days"].
Definition std (q : bool) : config := Config default_keys q.
Lemma grid_row_std q r : grid_row (std q) r = Ok (row q r).
Proof. unfold grid_row, row, std, default_keys. destruct q; reflexivity. Qed.
Lemma rows_of_std q l : rows_of (std q) l = Ok (map (row q) l).
Proof. induction l as [|r l IH]; [reflexivity|]. cbn [rows_of]. rewrite grid_row_std. cbn [rbind]. rewrite IH. reflexivity. Qed.
Lemma valid_in grid rows k : length rows = length grid -> In k (valid_ind grid rows) <-> (k < length grid)%nat /\ forall d e, keep (nth k grid d) (nth k rows e) = true.
Proof.
  intro L. unfold valid_ind. rewrite in_map_iff. split.
  - intros ([k' [r w]] & E & I). cbn in E. subst k'. apply filter_In in I as [I K]. cbn in K. destruct (In_nth _ _ (0%nat, (r, w)) I) as (j & J & EJ). rewrite !combine_length, seq_length in J.
    rewrite combine_nth in EJ by (rewrite seq_length, combine_length; lia). rewrite combine_nth in EJ by lia. rewrite seq_nth in EJ by lia. cbn in EJ. assert (j = k) by congruence. subst j. split; [lia|]. intros d e. rewrite (nth_indep _ d r), (nth_indep _ e w) by lia. replace (nth k grid r) with r by congruence. replace (nth k rows w) with w by congruence. exact K.
  - intros [LK K]. destruct grid as [|r0 grid]; [cbn in LK; lia|]. destruct rows as [|w0 rows]; [discriminate L|]. exists (k, (nth k (r0 :: grid) r0, nth k (w0 :: rows) w0)). split; [reflexivity|]. apply filter_In. split; [|apply K].
    replace (k, (nth k (r0 :: grid) r0, nth k (w0 :: rows) w0)) with (nth k (combine (seq 0 (length (r0 :: grid))) (combine (r0 :: grid) (w0 :: rows))) (0%nat, (r0, w0))); [apply nth_In; rewrite !combine_length, seq_length; lia|]. rewrite combine_nth by (rewrite seq_length, combine_length; lia). rewrite combine_nth by (symmetry; exact L). rewrite seq_nth by lia. reflexivity.
Qed.
Lemma points_spec rows : match points rows with Ok ps => length ps = length rows /\ forall i, (i < length rows)%nat -> point (nth i rows []) = Some (nth i ps []) | Raise e => e = ValueError /\ exists w, In w rows /\ point w = None end.
Proof.
  induction rows as [|w rows IH]; cbn [points]; [split; [reflexivity|intros i I; cbn in I; lia]|]. destruct (point w) as [x|] eqn:P; [|split; [reflexivity|exists w; split; [left; reflexivity|exact P]]]. destruct (points rows) as [ps|e]; cbn [rbind].
  - destruct IH as [A B]. split; [cbn; lia|]. intros [|i] I; cbn; [exact P|]. apply B. cbn in I. lia.
  - destruct IH as [A (w' & B & C)]. split; [exact A|]. exists w'. split; [right; exact B|exact C].
Qed.
Lemma argmin_spec l : l <> [] -> (argmin l < length l)%nat /\ forall i, (i < length l)%nat -> nth (argmin l) l 0 <= nth i l 0.
Proof.
  induction l as [|x l IH]; [congruence|]. intros _. destruct l as [|y l]; [split; [cbn; lia|intros [|i] I; cbn in I; [cbn; lra|lia]]|]. destruct IH as [A B]; [discriminate|]. change (argmin (x :: y :: l)) with (if Rle_dec x (nth (argmin (y :: l)) (y :: l) 0) then 0%nat else S (argmin (y :: l))). set (l' := y :: l) in *. clearbody l'.
  destruct (Rle_dec x (nth (argmin l') l' 0)) as [H|H]; (split; [cbn; lia|]); intros [|i] I; cbn in *; try lra; specialize (B i ltac:(lia)); lra.
Qed.
Lemma keep_usable q r : keep r (row q r) = true -> exists a1 a2 ap, t_class r <> "not_converged" /\ t_initial r "star_1_mass" = Some a1 /\ t_initial r "star_2_mass" = Some a2 /\ t_initial r "period_days" = Some ap.
Proof.
  unfold keep, row. intro H. apply andb_true_iff in H as [H1 H2]. apply negb_true_iff, String.eqb_neq in H1. cbn [np_sum fold_right] in H2. destruct (t_initial r "star_1_mass") as [a1|] eqn:E1; [|destruct q; discriminate H2]. destruct (t_initial r "period_days") as [ap|] eqn:E3; [|destruct q; cbn in H2; [destruct (fdiv (t_initial r "star_2_mass") (Some a1)); discriminate H2|destruct (t_initial r "star_2_mass"); discriminate H2]].
  destruct (t_initial r "star_2_mass") as [a2|] eqn:E2; [|destruct q; discriminate H2]. exists a1, a2, ap. auto.
Qed.
Lemma usable_keep q r a1 a2 ap : usable r a1 a2 ap -> keep r (row q r) = true.
Proof.
  intros (H1 & E1 & E2 & E3 & N). unfold keep, row. apply String.eqb_neq in H1. rewrite H1, E1, E2, E3. destruct q; cbn; [|reflexivity]. destruct (Req_EM_T a1 0); [contradiction|reflexivity].
Qed.
Lemma log10_some a x : log10 (Some a) = Some x -> 0 < a /\ x = log_ a.
Proof. unfold log10, log_. destruct (Rlt_dec 0 a); [intro H; split; [assumption|congruence]|discriminate]. Qed.
Lemma log10_pos a : 0 < a -> log10 (Some a) = Some (log_ a).
Proof. intro P. unfold log10, log_. destruct (Rlt_dec 0 a); [reflexivity|contradiction]. Qed.
Definition coordinates (q : bool) (a1 a2 ap : R) : list R := [log_ a1; (if q then a2 / a1 else log_ a2); log_ ap].
Lemma point_row q r a1 a2 ap x : t_initial r "star_1_mass" = Some a1 -> t_initial r "star_2_mass" = Some a2 -> t_initial r "period_days" = Some ap -> point (normalize (std q) (row q r)) = Some x ->
  0 < a1 /\ 0 < ap /\ (q = false -> 0 < a2) /\ x = coordinates q a1 a2 ap.
Proof.
  intros E1 E2 E3. unfold row, normalize, in_scaling, std, coordinates. rewrite E1, E2, E3. cbn [in_q combine map fst snd]. unfold scale. destruct (log10 (Some a1)) as [x1|] eqn:L1; [|discriminate]. destruct (log10_some a1 x1 L1) as [P1 ->]. destruct (log10 (Some ap)) as [x3|] eqn:L3.
  - destruct (log10_some ap x3 L3) as [P3 ->]. destruct q.
    + cbn -[log10 fdiv].  unfold fdiv. destruct (Req_EM_T a1 0); [lra|]. cbn. intro H. split; [exact P1|]. split; [exact P3|]. split; [discriminate|congruence].
    + cbn -[log10].  destruct (log10 (Some a2)) as [x2|] eqn:L2; [|discriminate]. destruct (log10_some a2 x2 L2) as [P2 ->]. cbn. intro H. split; [exact P1|]. split; [exact P3|]. split; [intros _; exact P2|congruence].
  - destruct q; cbn -[log10 fdiv]; [destruct (fdiv (Some a2) (Some a1)); discriminate|destruct (log10 (Some a2)); discriminate].
Qed.
Lemma point_binary q m1 m2 p : 0 < m1 -> 0 < m2 -> 0 < p -> point (normalize (std q) (binary_row (std q) m1 m2 p)) = Some (coordinates q m1 m2 p).
Proof.
  intros P1 P2 P3. unfold binary_row, normalize, in_scaling, std, coordinates, scale. cbn [in_q combine map fst snd]. destruct q; cbn -[log10 fdiv]; rewrite !log10_pos by assumption; cbn -[fdiv]; [|reflexivity]. unfold fdiv. destruct (Req_EM_T m1 0); [lra|reflexivity].
Qed.
Lemma dist2_apart q m1 m2 p a1 a2 ap : dist2 (coordinates q m1 m2 p) (coordinates q a1 a2 ap) = apart q m1 m2 p a1 a2 ap.
Proof. unfold coordinates, apart. destruct q; cbn; ring. Qed.

(** What a successful training leaves *)
Lemma train_ok q grid s s' : train (std q) grid "NearestNeighbor" s = (s', None) ->
  exists ps, s' = State (Some "NearestNeighbor") true (Some (Model (valid_ind grid (map (row q) grid)) ps)) /\ ps <> [] /\ points (map (fun i => normalize (std q) (nth i (map (row q) grid) [])) (valid_ind grid (map (row q) grid))) = Ok ps.
Proof.
  unfold train. rewrite rows_of_std. cbn -[points normalize valid_ind]. destruct (points _) as [[|p ps]|e]; intro H; [discriminate|exists (p :: ps); split; [congruence|split; [discriminate|reflexivity]]|discriminate].
Qed.
Theorem C138_nearest : forall q grid s s' m1 m2 p, train (std q) grid "NearestNeighbor" s = (s', None) -> 0 < m1 -> 0 < m2 -> 0 < p ->
  exists k r a1 a2 ap, evaluate (std q) grid s' m1 m2 p = Ok k /\ nth_error grid k = Some r /\ usable r a1 a2 ap /\ 0 < a1 /\ 0 < ap /\ (q = false -> 0 < a2) /\
    forall r' b1 b2 bp, In r' grid -> usable r' b1 b2 bp -> apart q m1 m2 p a1 a2 ap <= apart q m1 m2 p b1 b2 bp.
Proof.
  intros q grid s s' m1 m2 p T P1 P2 P3. destruct (train_ok q grid s s' T) as (ps & -> & NE & PS). set (valid := valid_ind grid (map (row q) grid)) in *. pose proof (points_spec (map (fun i => normalize (std q) (nth i (map (row q) grid) [])) valid)) as SP. rewrite PS, map_length in SP. destruct SP as [LP SP].
  unfold evaluate. cbn -[point normalize binary_row argmin dist2]. rewrite point_binary by assumption. set (x := coordinates q m1 m2 p). destruct (argmin_spec (map (dist2 x) ps)) as [A B]; [destruct ps; [congruence|discriminate]|]. rewrite map_length in A, B. set (i := argmin (map (dist2 x) ps)) in *. clearbody i.
  destruct (nth_error valid i) as [k|] eqn:K; [|apply nth_error_None in K; lia].
  assert (VAL : forall j k', nth_error valid j = Some k' -> exists r a1 a2 ap, nth_error grid k' = Some r /\ usable r a1 a2 ap /\ 0 < a1 /\ 0 < ap /\ (q = false -> 0 < a2) /\ nth j ps [] = coordinates q a1 a2 ap).
  { intros j k' J. assert (JL : (j < length valid)%nat) by (apply nth_error_Some; congruence). assert (IN : In k' valid) by (apply nth_error_In with j; exact J). apply valid_in in IN as [LK KK]; [|apply map_length]. destruct (nth_error grid k') as [r|] eqn:R; [|apply nth_error_None in R; lia].
    assert (NR : nth k' grid r = r) by (apply nth_error_nth with (d := r) in R; exact R). assert (NW : nth k' (map (row q) grid) [] = row q r) by (rewrite (nth_indep _ [] (row q r)) by (rewrite map_length; exact LK); rewrite map_nth, NR; reflexivity).
    specialize (KK r []). rewrite NR, NW in KK. destruct (keep_usable q r KK) as (a1 & a2 & ap & C & E1 & E2 & E3). specialize (SP j ltac:(lia)). rewrite (nth_indep _ [] (normalize (std q) (nth k' (map (row q) grid) []))) in SP by (rewrite map_length; exact JL).
    rewrite (map_nth (fun i0 => normalize (std q) (nth i0 (map (row q) grid) []))) in SP. rewrite (nth_error_nth valid j k' J) in SP. rewrite NW in SP. destruct (point_row q r a1 a2 ap _ E1 E2 E3 SP) as (Q1 & Q2 & Q3 & Q4).
    exists r, a1, a2, ap. split; [reflexivity|]. split; [split; [exact C|]; split; [exact E1|]; split; [exact E2|]; split; [exact E3|lra]|]. auto. }
  destruct (VAL i k K) as (r & a1 & a2 & ap & R & U & Q1 & Q2 & Q3 & Q4). exists k, r, a1, a2, ap. split; [reflexivity|]. split; [exact R|]. split; [exact U|]. split; [exact Q1|]. split; [exact Q2|]. split; [exact Q3|].
  intros r' b1 b2 bp I' U'. destruct (In_nth_error _ _ I') as (k' & K'). assert (LK : (k' < length grid)%nat) by (apply nth_error_Some; congruence).
  assert (IV : In k' valid). { apply valid_in; [apply map_length|]. split; [exact LK|]. intros d e. rewrite (nth_error_nth grid k' d K'). rewrite (nth_indep _ e (row q r')) by (rewrite map_length; exact LK). rewrite map_nth, (nth_error_nth grid k' r' K'). exact (usable_keep q r' b1 b2 bp U'). }
  destruct (In_nth_error _ _ IV) as (j & J). assert (JL : (j < length valid)%nat) by (apply nth_error_Some; congruence). destruct (VAL j k' J) as (r'' & c1 & c2 & cp & R'' & U'' & _ & _ & _ & C4). assert (r'' = r') by congruence. subst r''. destruct U'' as (_ & X1 & X2 & X3 & _). destruct U' as (_ & Y1 & Y2 & Y3 & _).
  assert (c1 = b1 /\ c2 = b2 /\ cp = bp) as (-> & -> & ->) by (split; [congruence|split; congruence]). specialize (B j ltac:(lia)).
  assert (ND : forall n, (n < length ps)%nat -> nth n (map (dist2 x) ps) 0 = dist2 x (nth n ps [])) by (intros n N; rewrite (nth_indep _ 0 (dist2 x [])) by (rewrite map_length; exact N); apply map_nth). rewrite (ND i A), (ND j ltac:(lia)) in B. rewrite Q4, C4 in B. unfold x in B. rewrite !dist2_apart in B. exact B.
Qed.
Print Assumptions C138_nearest.
(** A binary with the initial values of a usable run gets a run with these values. *)
Lemma log_inj a b : 0 < a -> 0 < b -> log_ a = log_ b -> a = b.
Proof. intros A B E. unfold log_ in E. assert (0 < ln 10) by (rewrite <- ln_1; apply ln_increasing; lra). assert (ln a = ln b) by (apply Rmult_eq_reg_r with (/ ln 10); [exact E|apply Rinv_neq_0_compat; lra]). apply ln_inv; assumption. Qed.
Theorem C138_own : forall q grid s s' r m1 m2 p, train (std q) grid "NearestNeighbor" s = (s', None) -> In r grid -> usable r m1 m2 p -> 0 < m1 -> 0 < m2 -> 0 < p ->
  exists k r', evaluate (std q) grid s' m1 m2 p = Ok k /\ nth_error grid k = Some r' /\ usable r' m1 m2 p.
Proof.
  intros q grid s s' r m1 m2 p T I U P1 P2 P3. destruct (C138_nearest q grid s s' m1 m2 p T P1 P2 P3) as (k & r' & a1 & a2 & ap & E & R & U' & A1 & A3 & A2 & M). specialize (M r m1 m2 p I U). exists k, r'. split; [exact E|]. split; [exact R|].
  assert (Z : apart q m1 m2 p m1 m2 p = 0) by (unfold apart; destruct q; ring). rewrite Z in M. unfold apart in M. set (x := log_ m1 - log_ a1) in *. set (z := log_ p - log_ ap) in *.
  assert (S1 : 0 <= x ^ 2) by (apply pow2_ge_0). assert (S3 : 0 <= z ^ 2) by (apply pow2_ge_0).
  assert (SQ : forall t, t ^ 2 <= 0 -> t = 0). { intros t H. apply Rsqr_0_uniq. unfold Rsqr. assert (0 <= t ^ 2) by apply pow2_ge_0. replace (t * t) with (t ^ 2) by ring. lra. }
  destruct q.
  - set (y := m2 / m1 - a2 / a1) in *. assert (S2 : 0 <= y ^ 2) by (apply pow2_ge_0). assert (x = 0 /\ y = 0 /\ z = 0) as (X & Y & W) by (split; [apply SQ; lra|split; apply SQ; lra]). unfold x, y, z in *. assert (m1 = a1) by (apply log_inj; lra). assert (p = ap) by (apply log_inj; lra). subst a1 ap. assert (m2 = a2). { assert (m2 = m2 / m1 * m1) by (field; lra). assert (a2 = a2 / m1 * m1) by (field; lra). assert (m2 / m1 = a2 / m1) by lra. congruence. } subst a2. exact U'.
  - specialize (A2 eq_refl). set (y := log_ m2 - log_ a2) in *. assert (S2 : 0 <= y ^ 2) by (apply pow2_ge_0). assert (x = 0 /\ y = 0 /\ z = 0) as (X & Y & W) by (split; [apply SQ; lra|split; apply SQ; lra]). unfold x, y, z in *. assert (m1 = a1) by (apply log_inj; lra). assert (p = ap) by (apply log_inj; lra). assert (m2 = a2) by (apply log_inj; lra). subst a1 a2 ap. exact U'.
Qed.
Print Assumptions C138_own.
(** Training succeeds exactly if some run is usable and those that are have positive values. *)
Theorem C138_train : forall q grid s, (forall r, In r grid -> t_initial r "star_1_mass" <> Some 0) ->
  (snd (train (std q) grid "NearestNeighbor" s) = None <-> (exists r a1 a2 ap, In r grid /\ usable r a1 a2 ap) /\ forall r a1 a2 ap, In r grid -> usable r a1 a2 ap -> 0 < a1 /\ 0 < ap /\ (q = false -> 0 < a2)).
Proof.
  intros q grid s NZ.
  assert (KU : forall k, In k (valid_ind grid (map (row q) grid)) <-> exists r a1 a2 ap, nth_error grid k = Some r /\ usable r a1 a2 ap).
  { intro k. rewrite valid_in by apply map_length. split.
    - intros [LK KK]. destruct (nth_error grid k) as [r|] eqn:R; [|apply nth_error_None in R; lia]. specialize (KK r (row q r)). rewrite map_nth, (nth_error_nth grid k r R) in KK. destruct (keep_usable q r KK) as (a1 & a2 & ap & C & E1 & E2 & E3). exists r, a1, a2, ap. split; [reflexivity|]. split; [exact C|]. split; [exact E1|]. split; [exact E2|]. split; [exact E3|]. intros ->. apply (NZ r); [apply nth_error_In with k; exact R|exact E1].
    - intros (r & a1 & a2 & ap & R & U). assert (LK : (k < length grid)%nat) by (apply nth_error_Some; congruence). split; [exact LK|]. intros d e. rewrite (nth_error_nth grid k d R), (nth_indep _ e (row q r)) by (rewrite map_length; exact LK). rewrite map_nth, (nth_error_nth grid k r R). exact (usable_keep q r a1 a2 ap U). }
  set (valid := valid_ind grid (map (row q) grid)) in *.
  assert (RW : forall k r, nth_error grid k = Some r -> nth k (map (row q) grid) [] = row q r). { intros k r R. assert (LK : (k < length grid)%nat) by (apply nth_error_Some; congruence). rewrite (nth_indep _ [] (row q r)) by (rewrite map_length; exact LK). rewrite map_nth, (nth_error_nth grid k r R). reflexivity. }
  unfold train. rewrite rows_of_std. cbn -[points normalize valid_ind]. fold valid. pose proof (points_spec (map (fun i => normalize (std q) (nth i (map (row q) grid) [])) valid)) as SP. destruct (points _) as [ps|e]; rewrite ?map_length in SP.
  - destruct SP as [LP SP]. assert (POS : forall r a1 a2 ap, In r grid -> usable r a1 a2 ap -> 0 < a1 /\ 0 < ap /\ (q = false -> 0 < a2)).
    { intros r a1 a2 ap I U. destruct (In_nth_error _ _ I) as (k & R). assert (V : In k valid) by (apply KU; exists r, a1, a2, ap; split; assumption). destruct (In_nth_error _ _ V) as (j & J). assert (JL : (j < length valid)%nat) by (apply nth_error_Some; congruence). specialize (SP j JL).
      rewrite (nth_indep _ [] (normalize (std q) (nth k (map (row q) grid) []))) in SP by (rewrite map_length; exact JL). rewrite (map_nth (fun i0 => normalize (std q) (nth i0 (map (row q) grid) []))) in SP. rewrite (nth_error_nth valid j k J), (RW k r R) in SP. destruct U as (_ & E1 & E2 & E3 & _). destruct (point_row q r a1 a2 ap _ E1 E2 E3 SP) as (Q1 & Q2 & Q3 & _). auto. }
    destruct ps as [|p0 ps]; cbn [snd].
    + split; [discriminate|]. intros [(r & a1 & a2 & ap & I & U) _]. exfalso. destruct (In_nth_error _ _ I) as (k & R). assert (V : In k valid) by (apply KU; exists r, a1, a2, ap; split; assumption). destruct valid; [contradiction|discriminate LP].
    + split; [|reflexivity]. intros _. split; [|exact POS]. destruct valid as [|k valid']; [discriminate LP|]. destruct (proj1 (KU k) (or_introl eq_refl)) as (r & a1 & a2 & ap & R & U). exists r, a1, a2, ap. split; [apply nth_error_In with k; exact R|exact U].
  - cbn [snd]. split; [discriminate|]. intros [_ POS]. exfalso. destruct SP as [_ (w & IW & PW)]. apply in_map_iff in IW as (k & <- & IK). apply KU in IK as (r & a1 & a2 & ap & R & U). rewrite (RW k r R) in PW. destruct (POS r a1 a2 ap (nth_error_In _ _ R) U) as (Q1 & Q2 & Q3). destruct U as (_ & E1 & E2 & E3 & N1).
    unfold row, normalize, in_scaling, std, scale in PW. rewrite E1, E2, E3 in PW. cbn [in_q combine map fst snd] in PW. destruct q; cbn -[log10 fdiv] in PW; rewrite !log10_pos in PW by auto; cbn -[fdiv] in PW; [|discriminate]. unfold fdiv in PW. destruct (Req_EM_T a1 0); [contradiction|discriminate].
Qed.
Print Assumptions C138_train.

Definition binary (m1 m2 p : R) (c : string) : trun := TRun (fun k => if String.eqb k "star_1_mass" then Some m1 else if String.eqb k "star_2_mass" then Some m2 else if String.eqb k "period_days" then Some p else None) c.
Definition two : list trun := [binary 10 1 1 "no_MT"; binary 1 10 1 "stable_MT"].
Example C138_case : exists s', train (std false) two "NearestNeighbor" new_state = (s', None) /\ exists k r', evaluate (std false) two s' 10 1 1 = Ok k /\ nth_error two k = Some r' /\ usable r' 10 1 1.
Proof.
  destruct (train (std false) two "NearestNeighbor" new_state) as [s' e] eqn:E. assert (e = None). { change e with (snd (s', e)). rewrite <- E. apply (C138_train false two new_state).
    - intros r [<-|[<-|[]]]; cbn; intro H; assert (10 = 0 \/ 1 = 0) by (first [left; congruence | right; congruence]); lra.
    - split; [exists (binary 10 1 1 "no_MT"), 10, 1, 1; split; [left; reflexivity|split; [discriminate|repeat split; lra]]|]. intros r a1 a2 ap [<-|[<-|[]]] (_ & E1 & E2 & E3 & _); cbn in E1, E2, E3; assert (HH : (a1 = 10 \/ a1 = 1) /\ (a2 = 10 \/ a2 = 1) /\ ap = 1) by (split; [first [left; congruence|right; congruence]|split; [first [left; congruence|right; congruence]|congruence]]); destruct HH as ([-> | ->] & [-> | ->] & ->); repeat split; lra. }
  subst e. exists s'. split; [reflexivity|]. apply (C138_own false two new_state s' (binary 10 1 1 "no_MT")); try lra; [exact E|left; reflexivity|split; [discriminate|repeat split; lra]].
Qed.
(** The order of in_keys is not that used for the binary: with the two masses exchanged, a binary with the values of a run gets the other one. *)
Lemma log_10 : log_ 10 = 1. Proof. unfold log_. field. assert (0 < ln 10) by (rewrite <- ln_1; apply ln_increasing; lra). lra. Qed.
Lemma log_1 : log_ 1 = 0. Proof. unfold log_. rewrite ln_1. lra. Qed.
Theorem C138_order_refuted : let c := Config ["star_2_mass"; "star_1_mass"; "period_days"] false in
  exists s', train c two "NearestNeighbor" new_state = (s', None) /\ evaluate c two s' 10 1 1 = Ok 1%nat /\ nth_error two 0 = Some (binary 10 1 1 "no_MT").
Proof.
  cbv zeta. exists (State (Some "NearestNeighbor") true (Some (Model [0%nat; 1%nat] [[log_ 1; log_ 10; log_ 1]; [log_ 10; log_ 1; log_ 1]]))). split; [|split; [|reflexivity]].
  - unfold train. cbn -[log10 log_]. unfold normalize, scale. cbn -[log10 log_]. rewrite !log10_pos by lra. reflexivity.
  - unfold evaluate. cbn -[log10 log_]. unfold normalize, scale. cbn -[log10 log_ argmin]. rewrite !log10_pos by lra. cbn -[log_ argmin]. rewrite log_10, log_1. cbn. destruct (Rle_dec _ _) as [H|H]; [exfalso; lra|reflexivity].
Qed.
Print Assumptions C138_order_refuted.
(** Another number of keys is never accepted. *)
Theorem C138_keys : forall c grid method s, length (in_keys c) <> 3%nat -> exists e, snd (train c grid method s) = Some e.
Proof.
  intros c grid method s N. unfold train. destruct (rows_of c grid) as [rows|e]; [|exists e; reflexivity]. apply Nat.eqb_neq in N. rewrite N. exists ValueError. reflexivity.
Qed.
Print Assumptions C138_keys.
(** A failed attempt to train with another method makes a trained interpolator unusable. *)
Theorem C138_method_refuted : forall q grid s method m1 m2 p, method <> "NearestNeighbor" -> snd (train (std q) grid method s) = Some ValueError /\ evaluate (std q) grid (fst (train (std q) grid method s)) m1 m2 p = Raise AttributeError.
Proof.
  intros q grid s method m1 m2 p N. apply String.eqb_neq in N. unfold train. rewrite rows_of_std. cbn [std in_keys default_keys length Nat.eqb negb]. rewrite N. split; reflexivity.
Qed.
Print Assumptions C138_method_refuted.
