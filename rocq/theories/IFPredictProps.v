(** The initial-final interpolator: what it predicts, and the results of several interpolators (C141, C142) *)
From Coq Require Import String List Bool Reals Ascii Arith Lra Lia Permutation.
From Verif Require Import PyBase ScalerModel ScalerProps IFModel IFProps.
Import ListNotations.
Open Scope string_scope.
Open Scope R_scope.
Open Scope list_scope.

(** ** Scalings which suit the data *)
Definition suits (m : string) (col : list R) : Prop := exists s k, method_name s k = Some m /\ usable s k col.
Definition col_of (i : nat) (Y : list (list R)) : list R := map (fun y => nth i y 0) Y.
Definition all_suit (norms : list string) (n : nat) (Y : list (list R)) : Prop :=
  length norms = n /\ Forall (fun y => length y = n) Y /\ forall i, (i < n)%nat -> suits (nth i norms "") (col_of i Y).

(** A column scaled by an increasing map of the values or (negated) logarithms *)
Record linear_map (s : scaler) (k : key) (a c : R) : Prop := {
  lm_pos : 0 < a;
  lm_to : forall v, allowed k v -> transform s [Some v] = Ok [Some (a * quantity k v + c)];
  lm_back : forall v, allowed k v -> inv_transform s [Some (a * quantity k v + c)] = Ok [Some v] }.
Lemma numbers_kept col : filter (fun x => negb (is_nan x)) (map Some col) = map Some col.
Proof. induction col as [|v col IH]; [reflexivity|]. cbn. f_equal. exact IH. Qed.
Lemma fit1_suits m col : suits m col -> exists s k a c, fit1 m (map Some col) = Ok s /\ linear_map s k a c /\ Forall (allowed k) col.
Proof.
  intros (sh & k & M & U). destruct (C63_scaled sh k m new_scaler col (-1) 1 M U ltac:(lra)) as (s & a & c & F & P & T & _). exists s, k, a, c. split; [unfold fit1; rewrite numbers_kept, F; reflexivity|]. split; [|exact (proj1 U)]. split; [exact P| |]; intros v V; destruct (T [v] ltac:(constructor; [exact V|constructor])) as [A B]; assumption.
Qed.
Definition fits (s : scaler) (col : list R) : Prop := exists k a c, linear_map s k a c /\ Forall (allowed k) col.
Lemma column_some i n Y : Forall (fun y => length y = n) Y -> (i < n)%nat -> column i (map (map Some) Y) = map Some (col_of i Y).
Proof. intros F I. unfold column, col_of. rewrite !map_map. apply map_ext_in. intros y J. rewrite Forall_forall in F. rewrite nth_indep with (d' := Some 0) by (rewrite map_length, (F y J); exact I). apply map_nth. Qed.
Lemma matrix_fits norms n Y ms : all_suit norms n Y -> matrix_scaler norms n (map (map Some) Y) = Ok ms -> length ms = n /\ forall i, (i < n)%nat -> fits (nth i ms new_scaler) (col_of i Y).
Proof.
  intros (L & F & S) M. unfold matrix_scaler in M. rewrite L, Nat.eqb_refl in M. cbn [negb] in M. apply mapm_iff in M. apply forall2_nth in M as [ML MN]. rewrite combine_length, seq_length, L, Nat.min_id in ML. split; [symmetry; exact ML|]. intros i I. specialize (MN i (0%nat, "") new_scaler). rewrite combine_length, seq_length, L, Nat.min_id, combine_nth in MN by (rewrite seq_length; symmetry; exact L). specialize (MN I). cbn [fst snd] in MN. rewrite seq_nth in MN by exact I. rewrite Nat.add_0_l, (column_some i n Y F I) in MN.
  destruct (fit1_suits _ _ (S i I)) as (s & k & a & c & E & LM & A). assert (nth i ms new_scaler = s) by congruence. subst s. exists k, a, c. split; assumption.
Qed.

(** Between two scaled values there is the scaled value of one between. *)
Lemma between_values k v1 v2 z : allowed k v1 -> allowed k v2 -> quantity k v1 <= z <= quantity k v2 -> exists v, allowed k v /\ quantity k v = z /\ (v1 <= v <= v2 \/ v2 <= v <= v1).
Proof.
  pose proof ln10_pos as LP. intros A1 A2 B. destruct k; cbn [allowed quantity] in *.
  - exists z. repeat split; tauto.
  - exists (Rpower 10 z). assert (P : 0 < Rpower 10 z) by apply exp_pos. assert (Q : ln (Rpower 10 z) / ln 10 = z) by (unfold Rpower; rewrite ln_exp; field; lra). split; [exact P|]. split; [exact Q|]. left.
    assert (M : forall x y, 0 < x -> 0 < y -> ln x / ln 10 <= ln y / ln 10 -> x <= y). { intros x y X Y H. apply Rnot_lt_le. intro C. pose proof (ln_increasing y x Y C). apply Rmult_le_compat_r with (r := ln 10) in H; [|lra]. unfold Rdiv in H. rewrite !Rmult_assoc, Rinv_l in H by lra. lra. }
    rewrite <- Q in B. split; apply M; try assumption; lra.
  - exists (- Rpower 10 z). assert (P : 0 < Rpower 10 z) by apply exp_pos. assert (Q : ln (Rpower 10 z) / ln 10 = z) by (unfold Rpower; rewrite ln_exp; field; lra). split; [lra|]. rewrite Ropp_involutive. split; [exact Q|]. right.
    assert (M : forall x y, 0 < x -> 0 < y -> ln x / ln 10 <= ln y / ln 10 -> x <= y). { intros x y X Y H. apply Rnot_lt_le. intro C. pose proof (ln_increasing y x Y C). apply Rmult_le_compat_r with (r := ln 10) in H; [|lra]. unfold Rdiv in H. rewrite !Rmult_assoc, Rinv_l in H by lra. lra. }
    rewrite <- Q in B. assert (- v1 <= Rpower 10 z) by (apply M; try lra). assert (Rpower 10 z <= - v2) by (apply M; try lra). lra.
Qed.

(** One value: scaled and back, and what lies between *)
Lemma fits_value s col v : fits s col -> In v col -> exists w, one (transform s) (Some v) = Ok (Some w) /\ one (inv_transform s) (Some w) = Ok (Some v).
Proof. intros (k & a & c & LM & F) I. rewrite Forall_forall in F. exists (a * quantity k v + c). unfold one. rewrite (lm_to _ _ _ _ LM v (F v I)), (lm_back _ _ _ _ LM v (F v I)). split; reflexivity. Qed.
Lemma fits_between s col v1 v2 w1 w2 w : fits s col -> In v1 col -> In v2 col -> one (transform s) (Some v1) = Ok (Some w1) -> one (transform s) (Some v2) = Ok (Some w2) -> w1 <= w <= w2 ->
  exists v, one (inv_transform s) (Some w) = Ok (Some v) /\ (v1 <= v <= v2 \/ v2 <= v <= v1).
Proof.
  intros (k & a & c & LM & F) I1 I2 T1 T2 B. rewrite Forall_forall in F. unfold one in T1, T2. rewrite (lm_to _ _ _ _ LM v1 (F v1 I1)) in T1. rewrite (lm_to _ _ _ _ LM v2 (F v2 I2)) in T2. cbn [rbind hd] in T1, T2. assert (w1 = a * quantity k v1 + c) by congruence. assert (w2 = a * quantity k v2 + c) by congruence. subst w1 w2. pose proof (lm_pos _ _ _ _ LM) as P.
  destruct (between_values k v1 v2 ((w - c) / a) (F v1 I1) (F v2 I2)) as (v & A & Q & BV).
  { assert (X : forall q, q = (a * q) / a) by (intro q; field; lra). split; [rewrite (X (quantity k v1))|rewrite (X (quantity k v2))]; unfold Rdiv; (apply Rmult_le_compat_r; [left; apply Rinv_0_lt_compat; exact P|lra]). }
  exists v. split; [|exact BV]. unfold one. replace w with (a * quantity k v + c) by (rewrite Q; field; lra). rewrite (lm_back _ _ _ _ LM v A). reflexivity.
Qed.

(** Rows *)
Lemma mapm_nth {A B} (f : A -> result B) l bs : mapm f l = Ok bs -> length bs = length l /\ forall i a b, (i < length l)%nat -> f (nth i l a) = Ok (nth i bs b).
Proof. intro M. apply mapm_iff in M. apply forall2_nth in M as [L H]. split; [symmetry; exact L|exact H]. Qed.
Lemma mapm_of_nth {A B} (f : A -> result B) a b l bs : length l = length bs -> (forall i, (i < length l)%nat -> f (nth i l a) = Ok (nth i bs b)) -> mapm f l = Ok bs.
Proof. intros L H. apply mapm_iff. apply (forall2_of_nth _ a b); assumption. Qed.
Lemma scale_row_nth (f : list scaler -> row -> result row) (g : scaler -> list fl -> result (list fl)) ms x y :
  (forall ms r, f ms r = if negb (Nat.eqb (length r) (length ms)) then Raise (OtherError "AssertionError") else mapm (fun p => one (g (fst p)) (snd p)) (combine ms r)) ->
  f ms x = Ok y <-> length x = length ms /\ length y = length ms /\ forall i, (i < length ms)%nat -> one (g (nth i ms new_scaler)) (nth i x None) = Ok (nth i y None).
Proof.
  intro E. rewrite E. destruct (Nat.eqb (length x) (length ms)) eqn:L; cbn [negb]; [apply Nat.eqb_eq in L|apply Nat.eqb_neq in L; split; [discriminate|intros [C _]; contradiction]]. assert (CL : length (combine ms x) = length ms) by (rewrite combine_length; lia). split.
  - intro M. apply mapm_nth in M as [LY H]. rewrite CL in LY, H. split; [exact L|]. split; [exact LY|]. intros i I. specialize (H i (new_scaler, None) None I). rewrite combine_nth in H by (symmetry; exact L). exact H.
  - intros (_ & LY & H). apply (mapm_of_nth _ (new_scaler, None) None); [lia|]. rewrite CL. intros i I. rewrite combine_nth by (symmetry; exact L). exact (H i I).
Qed.
Lemma scale_iff ms x y : scale_row ms x = Ok y <-> length x = length ms /\ length y = length ms /\ forall i, (i < length ms)%nat -> one (transform (nth i ms new_scaler)) (nth i x None) = Ok (nth i y None).
Proof. apply (scale_row_nth scale_row transform). reflexivity. Qed.
Lemma unscale_iff ms x y : unscale_row ms x = Ok y <-> length x = length ms /\ length y = length ms /\ forall i, (i < length ms)%nat -> one (inv_transform (nth i ms new_scaler)) (nth i x None) = Ok (nth i y None).
Proof. apply (scale_row_nth unscale_row inv_transform). reflexivity. Qed.
Lemma choose_list {A} (d : A) (P : nat -> A -> Prop) n : (forall i, (i < n)%nat -> exists a, P i a) -> exists l, length l = n /\ forall i, (i < n)%nat -> P i (nth i l d).
Proof.
  induction n as [|n IH]; intro H; [exists []; split; [reflexivity|intros; lia]|]. destruct IH as (l & L & Q); [intros i I; apply H; lia|]. destruct (H n ltac:(lia)) as (a & PA). exists (l ++ [a]). split; [rewrite app_length; cbn; lia|]. intros i I. destruct (Nat.eq_dec i n) as [->|NE]; [rewrite app_nth2, L, Nat.sub_diag by lia; exact PA|rewrite app_nth1 by lia; apply Q; lia].
Qed.
Lemma nth_some i y : (i < length y)%nat -> nth i (map Some y) None = Some (nth i y 0).
Proof. intro I. rewrite nth_indep with (d' := Some 0) by (rewrite map_length; exact I). apply map_nth. Qed.
Lemma scale_back norms n Y ms y : all_suit norms n Y -> matrix_scaler norms n (map (map Some) Y) = Ok ms -> In y Y -> exists w, length w = n /\ scale_row ms (map Some y) = Ok (map Some w) /\ unscale_row ms (map Some w) = Ok (map Some y).
Proof.
  intros S M I. destruct (matrix_fits _ _ _ _ S M) as [L H]. destruct S as (_ & F & _). rewrite Forall_forall in F. pose proof (F y I) as LY.
  destruct (choose_list 0 (fun i w => one (transform (nth i ms new_scaler)) (Some (nth i y 0)) = Ok (Some w) /\ one (inv_transform (nth i ms new_scaler)) (Some w) = Ok (Some (nth i y 0))) n) as (w & LW & W).
  { intros i J. apply (fits_value _ (col_of i Y)); [exact (H i J)|]. apply (in_map (fun y => nth i y 0)). exact I. }
  exists w. split; [exact LW|]. split; [apply scale_iff|apply unscale_iff]; rewrite !map_length, L; (split; [assumption|split; [assumption|]]); intros i J; rewrite !nth_some by lia; apply W; exact J.
Qed.
Lemma unscale_between norms n Y ms w : all_suit norms n Y -> matrix_scaler norms n (map (map Some) Y) = Ok ms -> length w = n ->
  (forall i, (i < n)%nat -> exists y1 y2 w1 w2 x, In y1 Y /\ In y2 Y /\ scale_row ms (map Some y1) = Ok w1 /\ scale_row ms (map Some y2) = Ok w2 /\ nth i w None = Some x /\ exists a b, nth i w1 None = Some a /\ nth i w2 None = Some b /\ a <= x <= b) ->
  exists v, length v = n /\ unscale_row ms w = Ok (map Some v) /\ forall i, (i < n)%nat -> exists y1 y2, In y1 Y /\ In y2 Y /\ nth i y1 0 <= nth i v 0 <= nth i y2 0.
Proof.
  intros S M LW B. destruct (matrix_fits _ _ _ _ S M) as [L H]. destruct S as (_ & F & _). rewrite Forall_forall in F.
  destruct (choose_list 0 (fun i v => one (inv_transform (nth i ms new_scaler)) (nth i w None) = Ok (Some v) /\ exists y1 y2, In y1 Y /\ In y2 Y /\ nth i y1 0 <= v <= nth i y2 0) n) as (v & LV & V).
  { intros i J. destruct (B i J) as (y1 & y2 & w1 & w2 & x & I1 & I2 & S1 & S2 & X & a & b & A1 & A2 & AB). rewrite X. apply scale_iff in S1 as (_ & _ & S1). apply scale_iff in S2 as (_ & _ & S2). rewrite L in S1, S2. specialize (S1 i J). specialize (S2 i J). rewrite nth_some in S1 by (rewrite (F y1 I1); exact J). rewrite nth_some in S2 by (rewrite (F y2 I2); exact J). rewrite A1 in S1. rewrite A2 in S2.
    destruct (fits_between _ (col_of i Y) _ _ a b x (H i J) (in_map (fun y => nth i y 0) _ _ I1) (in_map (fun y => nth i y 0) _ _ I2) S1 S2 AB) as (v & T & [D|D]); exists v; (split; [exact T|]); [exists y1, y2|exists y2, y1]; auto. }
  exists v. split; [exact LV|]. split; [|intros i J; exact (proj2 (V i J))]. apply unscale_iff. rewrite map_length, L. split; [exact LW|]. split; [exact LV|]. intros i J. rewrite (nth_some i v) by lia. exact (proj1 (V i J)).
Qed.

(** ** C141 *)
(** The outputs of some runs are numbers, as many as keys. *)
Definition outputs_are (l : list grun) (Y : list (list R)) : Prop := map g_out l = map (map Some) Y.
(** The scaling of the outputs of a class is suited to its runs. *)
Definition well_scaled (sc : scaling) (n : nat) (c : string) (u : list grun) : Prop :=
  exists per all norms Y, sc = ByClass per all /\ NoDup (map fst per) /\ c <> "None" /\ In (c, norms) per /\ outputs_are (runs_of c u) Y /\ all_suit norms n Y.

Section Predict.
  Variable knn : list (row * string) -> row -> string.
  Variable nn : list (row * row) -> row -> row.
  Variable lin : list (row * row) -> row -> row.
  Variable sanitize : list string -> row -> row.

  (** What training leaves behind *)
  Lemma train_inv p grid t l : train knn p grid = Ok t -> p_how p = Each l ->
    t_params t = p /\ build_scaler (p_out_scaling p) (length (p_out_keys p)) (map g_out (used (p_in_q p) grid)) (map g_c (used (p_in_q p) grid)) = Ok (t_out t) /\
    Forall2 (fun r d => normalize (t_in t) (Some (g_c r)) (g_in r) = Ok (fst (fst d)) /\ normalize (t_out t) (Some (g_c r)) (g_out r) = Ok (snd (fst d)) /\ snd d = g_c r) (used (p_in_q p) grid) (t_data t) /\
    forall k m, In (k, m) l -> m = "linear" \/ m = "1NN".
  Proof.
    intros T H. unfold train in T. destruct (build_scaler (p_in_scaling p) _ _ _) as [sx|]; cbn [rbind] in T; [|discriminate]. destruct (build_scaler (p_out_scaling p) _ _ _) as [sy|] eqn:BY; cbn [rbind] in T; [|discriminate]. match type of T with rbind ?a _ = _ => destruct a as [cl|]; cbn [rbind] in T; [|discriminate] end. match type of T with rbind ?a _ = _ => destruct a as [data|] eqn:D; cbn [rbind] in T; [|discriminate] end. rewrite H in T, D. cbn [per_class] in D. destruct cl as [f|]; [|discriminate]. destruct (forallb _ l) eqn:FA; [|discriminate]. assert (t = Trained p sx sy data (Some f)) by congruence. subst t. cbn [t_params t_out t_in t_data]. split; [reflexivity|]. split; [reflexivity|]. split.
    - apply mapm_iff in D. clear -D. induction D as [|r d u data Q F IH]; [constructor|]. constructor; [|exact IH]. destruct (normalize sx (Some (g_c r)) (g_in r)) as [x|]; cbn [rbind] in Q; [|discriminate]. destruct (normalize sy (Some (g_c r)) (g_out r)) as [y|]; cbn [rbind] in Q; [|discriminate]. assert (d = (x, y, g_c r)) by congruence. subst d. repeat split; reflexivity.
    - intros k m I. rewrite forallb_forall in FA. specialize (FA _ I). cbn [snd] in FA. apply inb_iff in FA. destruct FA as [A|[A|[]]]; auto.
  Qed.
  Lemma predict_each_out l data c x : forall acc, ~ In c (map fst l) -> predict_each nn lin l data c x acc = Ok acc.
  Proof. induction l as [|[k m] l IH]; intros acc N; [reflexivity|]. cbn [predict_each]. destruct (String.eqb k c) eqn:E; [apply String.eqb_eq in E; exfalso; apply N; left; exact E|]. cbn [rbind]. apply IH. intro C. apply N. right. exact C. Qed.
  Definition class_data (c : string) (data : list (row * row * string)) : list (row * row) := map fst (filter (fun d => String.eqb (snd d) c) data).
  Lemma predict_each_in l data c m x acc : NoDup (map fst l) -> In (c, m) l -> predict_each nn lin l data c x acc = predict1 nn lin m (class_data c data) true x.
  Proof.
    revert acc. induction l as [|[k m'] l IH]; intros acc ND I; [contradiction|]. inversion ND as [|? ? N1 N2]; subst. cbn [predict_each]. destruct I as [I|I].
    - assert (k = c /\ m' = m) as [-> ->] by (split; congruence). rewrite String.eqb_refl. fold (class_data c data). destruct (predict1 nn lin m (class_data c data) true x) as [y|e]; cbn [rbind]; [apply predict_each_out; exact N1|reflexivity].
    - destruct (String.eqb k c) eqn:E; [apply String.eqb_eq in E; subst k; exfalso; apply N1; apply (in_map fst) in I; exact I|]. cbn [rbind]. apply IH; assumption.
  Qed.
  Lemma class_data_runs (P : grun -> row * row * string -> Prop) u data c : Forall2 P u data -> (forall r d, P r d -> snd d = g_c r) -> Forall2 (fun r xy => exists d, P r d /\ fst d = xy) (runs_of c u) (class_data c data).
  Proof.
    intros F H. unfold runs_of, class_data. induction F as [|r d u data Q F IH]; [constructor|]. cbn [filter]. rewrite (H r d Q). destruct (String.eqb (g_c r) c); [cbn [map]; constructor; [exists d; split; [exact Q|reflexivity]|exact IH]|exact IH].
  Qed.
  Lemma forall2_in_l {A B} (P : A -> B -> Prop) l l' a : Forall2 P l l' -> In a l -> exists b, In b l' /\ P a b.
  Proof. induction 1 as [|x y l l' H F IH]; intro I; [contradiction|]. destruct I as [->|I]; [exists y; split; [left; reflexivity|exact H]|]. destruct (IH I) as (b & J & Q). exists b. split; [right; exact J|exact Q]. Qed.
  Lemma forall2_in_r {A B} (P : A -> B -> Prop) l l' b : Forall2 P l l' -> In b l' -> exists a, In a l /\ P a b.
  Proof. induction 1 as [|x y l l' H F IH]; intro I; [contradiction|]. destruct I as [->|I]; [exists x; split; [left; reflexivity|exact H]|]. destruct (IH I) as (a & J & Q). exists a. split; [right; exact J|exact Q]. Qed.
  Lemma forall2_impl {A B} (P Q : A -> B -> Prop) l l' : (forall a b, P a b -> Q a b) -> Forall2 P l l' -> Forall2 Q l l'.
  Proof. intros H. induction 1; constructor; auto. Qed.
  (** The trained data of a class against its runs *)
  Definition trained_on (t : trained) (r : grun) (xy : row * row) : Prop := normalize (t_in t) (Some (g_c r)) (g_in r) = Ok (fst xy) /\ normalize (t_out t) (Some (g_c r)) (g_out r) = Ok (snd xy).
  Lemma class_trained p grid t l c : train knn p grid = Ok t -> p_how p = Each l -> Forall2 (trained_on t) (runs_of c (used (p_in_q p) grid)) (class_data c (t_data t)).
  Proof.
    intros T H. destruct (train_inv p grid t l T H) as (_ & _ & F & _). eapply forall2_impl; [|exact (class_data_runs _ _ _ c F (fun r d Q => proj2 (proj2 Q)))]. intros r xy (d & (A & B & _) & E). subst xy. split; assumption.
  Qed.
  Lemma runs_of_in c u r : In r (runs_of c u) <-> In r u /\ g_c r = c.
  Proof. unfold runs_of. rewrite filter_In, String.eqb_eq. reflexivity. Qed.
  (** The scaler of the outputs of the class *)
  Lemma class_scaler p grid t l c : train knn p grid = Ok t -> p_how p = Each l -> well_scaled (p_out_scaling p) (length (p_out_keys p)) c (used (p_in_q p) grid) ->
    exists norms Y ms, outputs_are (runs_of c (used (p_in_q p) grid)) Y /\ all_suit norms (length (p_out_keys p)) Y /\ matrix_scaler norms (length (p_out_keys p)) (map (map Some) Y) = Ok ms /\
      (forall y, normalize (t_out t) (Some c) y = scale_row ms y) /\ forall y, denormalize (t_out t) (Some c) y = unscale_row ms y.
  Proof.
    intros T H (per & all & norms & Y & E & ND & NN & I & O & S). destruct (train_inv p grid t l T H) as (_ & B & _). rewrite E in B. destruct (C140_outputs per all _ _ _ c norms B ND I) as (ms & L & M). exists norms, Y, ms. rewrite O in M. split; [exact O|]. split; [exact S|]. split; [exact M|]. apply String.eqb_neq in NN. split; intro y; unfold normalize, denormalize, apply_scaler, class_key; rewrite NN, L; reflexivity.
  Qed.
  Lemma out_row u Y r : outputs_are u Y -> In r u -> exists y, In y Y /\ g_out r = map Some y.
  Proof. intros O I. apply (in_map g_out) in I. rewrite O in I. apply in_map_iff in I as (y & E & J). exists y. split; [exact J|symmetry; exact E]. Qed.
  Lemma row_out u Y y : outputs_are u Y -> In y Y -> exists r, In r u /\ g_out r = map Some y.
  Proof. intros O I. apply (in_map (map Some)) in I. rewrite <- O in I. apply in_map_iff in I as (r & E & J). exists r. split; assumption. Qed.

  (** Data of runs of a class, as an interpolator may be given them *)
  Definition data_of (t : trained) (c : string) (u : list grun) (T : list (row * row)) : Prop :=
    forall q, In q T -> exists r, In r u /\ g_c r = c /\ normalize (t_in t) (Some c) (g_in r) = Ok (fst q) /\ normalize (t_out t) (Some c) (g_out r) = Ok (snd q).
  Lemma class_data_of p grid t l c : train knn p grid = Ok t -> p_how p = Each l -> data_of t c (used (p_in_q p) grid) (class_data c (t_data t)).
  Proof. intros T H q Q. destruct (forall2_in_r _ _ _ _ (class_trained p grid t l c T H) Q) as (r & IR & NX & NY). apply runs_of_in in IR as [IU C]. rewrite C in NX, NY. exists r. auto. Qed.
  (** At the inputs of a run the outputs of that run *)
  Theorem C141_exact : forall p grid t l c m r, train knn p grid = Ok t -> p_how p = Each l -> NoDup (map fst l) -> In (c, m) l -> well_scaled (p_out_scaling p) (length (p_out_keys p)) c (used (p_in_q p) grid) -> (0 < length (p_out_keys p))%nat ->
    In r (used (p_in_q p) grid) -> g_c r = c -> classify t (g_in r) = Ok c ->
    (forall T a b, data_of t c (used (p_in_q p) grid) T -> In (a, b) T -> (forall b', In (a, b') T -> b' = b) -> lin T a = b /\ nn T a = b) ->
    (forall r', In r' (used (p_in_q p) grid) -> g_c r' = c -> normalize (t_in t) (Some c) (g_in r') = normalize (t_in t) (Some c) (g_in r) -> g_out r' = g_out r) ->
    test_interpolator nn lin sanitize t (g_in r) = Ok (sanitize (p_out_keys p) (g_out r)).
  Proof.
    intros p grid t l c m r T H ND IM WS NP IR C CL EX SEP. destruct (train_inv p grid t l T H) as (TP & _ & _ & METH). pose proof (class_trained p grid t l c T H) as CT. destruct (class_scaler p grid t l c T H WS) as (norms & Y & ms & O & S & M & NO & DE).
    assert (IR' : In r (runs_of c (used (p_in_q p) grid))) by (apply runs_of_in; split; assumption). destruct (forall2_in_l _ _ _ r CT IR') as ([xn yn] & ID & NX & NY). cbn [fst snd] in NX, NY. rewrite C in NX, NY.
    destruct (out_row _ _ r O IR') as (y & IY & EY). destruct (scale_back _ _ _ _ y S M IY) as (w & LW & SW & UW). rewrite NO, EY, SW in NY. assert (yn = map Some w) by congruence. subst yn.
    assert (FN : forall b', In (xn, b') (class_data c (t_data t)) -> b' = map Some w).
    { intros b' IB. destruct (forall2_in_r _ _ _ _ CT IB) as (r' & IR2 & NX2 & NY2). cbn [fst snd] in NX2, NY2. apply runs_of_in in IR2 as [IR2 C2]. rewrite C2 in NX2, NY2. rewrite (SEP r' IR2 C2 ltac:(congruence)), NO, EY, SW in NY2. congruence. }
    destruct (EX _ _ _ (class_data_of p grid t l c T H) ID FN) as [EL EN]. unfold test_interpolator. rewrite CL. cbn [rbind]. unfold predict. rewrite TP, H, NX. cbn [rbind]. rewrite (predict_each_in l _ c m xn _ ND IM).
    assert (P1 : predict1 nn lin m (class_data c (t_data t)) true xn = Ok (map Some w)). { unfold predict1. rewrite EL, EN. destruct (METH c m IM) as [-> | ->]; [|reflexivity]. cbn [String.eqb Ascii.eqb Bool.eqb]. destruct w as [|a w]; [cbn in LW; lia|]. reflexivity. }
    rewrite P1. cbn [rbind]. rewrite DE, UW. cbn [rbind]. rewrite EY. reflexivity.
  Qed.

  (** Elsewhere values between those of runs of the class; outside of the hull or for the nearest those of one run *)
  Theorem C141_between : forall p grid t l c m x xn, train knn p grid = Ok t -> p_how p = Each l -> NoDup (map fst l) -> In (c, m) l -> well_scaled (p_out_scaling p) (length (p_out_keys p)) c (used (p_in_q p) grid) ->
    (exists r, In r (used (p_in_q p) grid) /\ g_c r = c) -> classify t x = Ok c -> normalize (t_in t) (Some c) x = Ok xn ->
    (forall T a, T <> [] -> exists q, In q T /\ nn T a = snd q) ->
    (forall T a, data_of t c (used (p_in_q p) grid) T -> is_nan (hd None (lin T a)) = false -> length (lin T a) = length (p_out_keys p) /\ forall i, (i < length (p_out_keys p))%nat -> exists q1 q2 b1 b b2, In q1 T /\ In q2 T /\ nth i (snd q1) None = Some b1 /\ nth i (lin T a) None = Some b /\ nth i (snd q2) None = Some b2 /\ b1 <= b <= b2) ->
    exists v, test_interpolator nn lin sanitize t x = Ok (sanitize (p_out_keys p) (map Some v)) /\ length v = length (p_out_keys p) /\
      (forall i, (i < length (p_out_keys p))%nat -> exists r1 r2 y1 y2, In r1 (used (p_in_q p) grid) /\ g_c r1 = c /\ nth i (g_out r1) None = Some y1 /\ In r2 (used (p_in_q p) grid) /\ g_c r2 = c /\ nth i (g_out r2) None = Some y2 /\ y1 <= nth i v 0 <= y2) /\
      ((m = "1NN" \/ forall T, data_of t c (used (p_in_q p) grid) T -> hd None (lin T xn) = None) -> exists r, In r (used (p_in_q p) grid) /\ g_c r = c /\ g_out r = map Some v).
  Proof.
    intros p grid t l c m x xn T H ND IM WS [r0 [I0 C0]] CL NX NNH LINH. destruct (train_inv p grid t l T H) as (TP & _ & _ & METH). pose proof (class_trained p grid t l c T H) as CT. destruct (class_scaler p grid t l c T H WS) as (norms & Y & ms & O & S & M & NO & DE). set (D := class_data c (t_data t)) in *.
    assert (NE : D <> []). { intro C. assert (J : In r0 (runs_of c (used (p_in_q p) grid))) by (apply runs_of_in; auto). destruct (forall2_in_l _ _ _ _ CT J) as (q & Q & _). rewrite C in Q. contradiction. }
    assert (ROW : forall q, In q D -> exists r y, In r (used (p_in_q p) grid) /\ g_c r = c /\ In y Y /\ g_out r = map Some y /\ scale_row ms (map Some y) = Ok (snd q) /\ unscale_row ms (snd q) = Ok (map Some y) /\ length (snd q) = length (p_out_keys p) /\ length y = length (p_out_keys p)).
    { intros q Q. destruct (forall2_in_r _ _ _ _ CT Q) as (r & IR & _ & NY). destruct (out_row _ _ r O IR) as (y & IY & EY). pose proof IR as IR'. apply runs_of_in in IR' as [IU C]. rewrite C, NO, EY in NY. destruct (scale_back _ _ _ _ y S M IY) as (w & LW & SW & UW). assert (E : snd q = map Some w) by congruence. exists r, y. rewrite E, map_length. repeat split; try assumption. destruct S as (_ & F & _). rewrite Forall_forall in F. apply F. exact IY. }
    assert (NEAR : exists r y, In r (used (p_in_q p) grid) /\ g_c r = c /\ g_out r = map Some y /\ unscale_row ms (nn D xn) = Ok (map Some y) /\ length y = length (p_out_keys p)).
    { destruct (NNH D xn NE) as (q & Q & E). destruct (ROW q Q) as (r & y & A1 & A2 & _ & A3 & _ & A4 & _ & A5). exists r, y. rewrite E. repeat split; assumption. }
    assert (OUT : forall y, predict1 nn lin m D true xn = Ok y -> test_interpolator nn lin sanitize t x = rbind (unscale_row ms y) (fun y => Ok (sanitize (p_out_keys p) y))). { intros y P1. unfold test_interpolator. rewrite CL. cbn [rbind]. unfold predict. rewrite TP, H, NX. cbn [rbind]. rewrite (predict_each_in l _ c m xn _ ND IM). fold D. rewrite P1. cbn [rbind]. rewrite DE. reflexivity. }
    assert (CASE : predict1 nn lin m D true xn = Ok (nn D xn) \/ (m = "linear" /\ is_nan (hd None (lin D xn)) = false /\ predict1 nn lin m D true xn = Ok (lin D xn))).
    { destruct (METH c m IM) as [-> | ->]; unfold predict1; cbn [String.eqb Ascii.eqb Bool.eqb]; [|left; reflexivity]. destruct (is_nan (hd None (lin D xn))); [left; reflexivity|right; auto]. }
    destruct CASE as [P1|(EM & NAN & P1)].
    - destruct NEAR as (r & y & A1 & A2 & A3 & A4 & A5). exists y. rewrite (OUT _ P1), A4. cbn [rbind]. split; [reflexivity|]. split; [exact A5|]. split.
      + intros i J. exists r, r, (nth i y 0), (nth i y 0). assert (E : nth i (g_out r) None = Some (nth i y 0)) by (rewrite A3; apply nth_some; lia). repeat split; try assumption; lra.
      + intros _. exists r. auto.
    - destruct (LINH D xn (class_data_of p grid t l c T H) NAN) as [LL HB].
      destruct (unscale_between norms _ Y ms (lin D xn) S M LL) as (v & LV & UV & BV).
      { intros i J. destruct (HB i J) as (q1 & q2 & b1 & b & b2 & Q1 & Q2 & E1 & E & E2 & B). destruct (ROW q1 Q1) as (_ & y1 & _ & _ & IY1 & _ & SC1 & _). destruct (ROW q2 Q2) as (_ & y2 & _ & _ & IY2 & _ & SC2 & _). exists y1, y2, (snd q1), (snd q2), b. repeat split; try assumption. exists b1, b2. auto. }
      exists v. rewrite (OUT _ P1), UV. cbn [rbind]. split; [reflexivity|]. split; [exact LV|]. split.
      + intros i J. destruct (BV i J) as (y1 & y2 & IY1 & IY2 & B). destruct (row_out _ _ y1 O IY1) as (r1 & R1 & E1). destruct (row_out _ _ y2 O IY2) as (r2 & R2 & E2). apply runs_of_in in R1 as [U1 C1]. apply runs_of_in in R2 as [U2 C2]. destruct S as (_ & F & _). rewrite Forall_forall in F. pose proof (F _ IY1). pose proof (F _ IY2). exists r1, r2, (nth i y1 0), (nth i y2 0). rewrite E1, E2, !nth_some by lia. repeat split; try assumption; lra.
      + intros [C|C]; [congruence|]. exfalso. rewrite (C D (class_data_of p grid t l c T H)) in NAN. discriminate NAN.
  Qed.

  (** Classes without an interpolator: nothing is predicted *)
  Theorem C141_other : forall p grid t l c x per all, train knn p grid = Ok t -> p_how p = Each l -> ~ In c (map fst l) -> classify t x = Ok c -> (exists xn, normalize (t_in t) (Some c) x = Ok xn) -> p_out_scaling p = ByClass per all -> ~ In c (map fst per) -> c <> "None" ->
    test_interpolator nn lin sanitize t x = Ok (sanitize (p_out_keys p) (repeat None (length (p_out_keys p)))).
  Proof.
    intros p grid t l c x per all T H NI CL [xn NX] OS NP NN. destruct (train_inv p grid t l T H) as (TP & B & _ & _). rewrite OS in B. unfold test_interpolator. rewrite CL. cbn [rbind]. unfold predict. rewrite TP, H, NX. cbn [rbind]. rewrite predict_each_out by exact NI. cbn [rbind]. rewrite (proj2 (C140_unknown per all _ _ _ _ c _ B NP NN)). reflexivity.
  Qed.
  (** Binaries with mass transfer at the beginning: NaN for everything *)
  Theorem C141_initial : forall t x d c, evaluate nn lin sanitize t x = Ok (d, c) -> p_class_method (t_params t) <> "1NN" -> c = "initial_MT" -> forall k v, dget String.eqb d k = Some v -> v = None.
  Proof.
    intros t x d c E NN -> k v G. unfold evaluate in E. destruct (negb (Nat.eqb (length x) (p_n_in (t_params t)))); [discriminate|]. destruct (test_interpolator nn lin sanitize t x) as [y|]; cbn [rbind] in E; [|discriminate]. destruct (classify t x) as [c'|]; cbn [rbind] in E; [|discriminate].
    match type of E with Ok (?a, ?b) = _ => assert (ED : d = a) by congruence; assert (EC : b = "initial_MT") by congruence end. subst d. rewrite EC in G. apply String.eqb_neq in NN. rewrite NN in G. change (negb false && String.eqb "initial_MT" "initial_MT") with true in G. cbv iota in G.
    set (y1 := map (fun _ : fl => None) y) in G. set (y2 := match p_how (t_params t) with Single "1NN" => map (fun v => if is_minus_100 v then None else v) y1 | _ => y1 end) in G.
    assert (Y1 : forall v, In v y1 -> v = None) by (intros w I; apply in_map_iff in I as (? & <- & _); reflexivity). assert (Y2 : forall v, In v y2 -> v = None). { assert (Z : forall w, In w (map (fun v => if is_minus_100 v then None else v) y1) -> w = None) by (intros w I; apply in_map_iff in I as (u & <- & I); apply Y1 in I; subst u; reflexivity). unfold y2. destruct (p_how (t_params t)) as [m|]; [|exact Y1]. repeat match goal with |- context [match ?a with _ => _ end] => destruct a; try exact Y1; try exact Z end. }
    clearbody y2. clear -G Y2.
    assert (Q : forall d (ps : list (string * fl)) , (forall k v, dget String.eqb d k = Some v -> v = None) -> (forall p, In p ps -> snd p = None) -> forall k v, dget String.eqb (dset_all String.eqb d ps) k = Some v -> v = None).
    { intros d ps. revert d. induction ps as [|[k0 v0] ps IH]; intros d D P; [exact D|]. unfold dset_all. cbn [fold_left]. apply IH; [|intros q I; apply P; right; exact I]. intros k' v' G'. rewrite (dget_dset String.eqb_spec) in G'. cbn [fst snd] in G'. destruct (String.eqb k' k0); [|exact (D _ _ G')]. specialize (P (k0, v0) (or_introl eq_refl)). cbn in P. congruence. }
    refine (Q _ _ (Q [] (combine (p_out_keys (t_params t)) y2) _ _) _ k v G).
    - discriminate.
    - intros [a b] I. apply in_combine_r in I. exact (Y2 _ I).
    - intros q I. apply in_map_iff in I as (? & <- & _). reflexivity.
  Qed.
End Predict.
Print Assumptions C141_exact.
Print Assumptions C141_between.
Print Assumptions C141_other.
Print Assumptions C141_initial.

(** A concrete case: an interpolator which knows just the runs, and two runs *)
Definition fl_dec (a b : fl) : {a = b} + {a <> b}.
Proof. decide equality. apply Req_EM_T. Defined.
Definition pick (T : list (row * row)) (x : row) : row := match find (fun q => if list_eq_dec fl_dec (fst q) x then true else false) T with Some q => snd q | None => [] end.
Definition pick_nn (T : list (row * row)) (x : row) : row := match find (fun q => if list_eq_dec fl_dec (fst q) x then true else false) T with Some q => snd q | None => match T with q :: _ => snd q | [] => [] end end.
Lemma pick_exact T a b : In (a, b) T -> (forall b', In (a, b') T -> b' = b) -> pick T a = b /\ pick_nn T a = b.
Proof.
  intros I U. unfold pick, pick_nn. match goal with |- context [find ?f T] => destruct (find f T) as [[a' b']|] eqn:F end.
  - apply find_some in F as [J E]. cbn [fst snd] in E |- *. destruct (list_eq_dec fl_dec a' a) as [->|]; [|discriminate]. split; apply U; exact J.
  - exfalso. pose proof (find_none _ _ F _ I) as C. cbn [fst] in C. destruct (list_eq_dec fl_dec a a); congruence.
Qed.
Lemma pick_nn_in T a : T <> [] -> exists q, In q T /\ pick_nn T a = snd q.
Proof. intro N. unfold pick_nn. match goal with |- context [find ?f T] => destruct (find f T) as [q|] eqn:F end; [apply find_some in F as [J _]; exists q; auto|]. destruct T as [|q T]; [congruence|]. exists q. split; [left; reflexivity|reflexivity]. Qed.
Definition two_runs : list grun := [GRun [Some 1] [Some 0] "no_MT" "no_MT"; GRun [Some 2] [Some 10] "no_MT" "no_MT"].
Definition each_params : params := Params (Each [("no_MT", "linear")]) "kNN" (ByClass [("no_MT", ["none"])] ["none"]) (ByClass [("no_MT", ["min_max"])] ["min_max"]) ["S1_mass"] ["S2_mass"] false 1.
Definition single_params : params := Params (Single "linear") "kNN" (Uniform ["none"] ["none"]) (Uniform ["min_max"] ["min_max"]) ["S1_mass"] [] false 1.
Definition no_MT_always (_ : list (row * string)) (_ : row) : string := "no_MT".
Lemma two_runs_scaled : well_scaled (p_out_scaling each_params) 1 "no_MT" two_runs.
Proof.
  exists [("no_MT", ["min_max"])], ["min_max"], ["min_max"], [[0]; [10]]. split; [reflexivity|]. split; [repeat constructor; intros []|]. split; [discriminate|]. split; [left; reflexivity|]. split; [reflexivity|]. split; [reflexivity|]. split; [repeat constructor|]. intros i I. assert (i = 0%nat) by lia. subst i. exists Range, Value. split; [reflexivity|]. split; [repeat constructor|]. exists 0, 10. cbn. split; [auto|]. split; [auto|lra].
Qed.
Lemma min_max_0_10 : exists s, fit1 "min_max" [Some 0; Some 10] = Ok s /\ transform s [Some 0] = Ok [Some (-1)] /\ transform s [Some 10] = Ok [Some 1].
Proof. destruct (fit1_min_max 0 10 ltac:(lra)) as (s & F & T). exists s. split; [exact F|]. rewrite !T. split; do 3 f_equal; lra. Qed.
Example C141_case : exists t, train no_MT_always each_params two_runs = Ok t /\
  test_interpolator pick_nn pick (fun _ y => y) t [Some 2] = Ok [Some 10] /\ test_interpolator pick_nn pick (fun _ y => y) t [Some 1] = Ok [Some 0] /\
  exists r, In r two_runs /\ test_interpolator pick_nn pick (fun _ y => y) t [Some 5] = Ok (g_out r).
Proof.
  destruct min_max_0_10 as (s & F & T0 & T1).
  assert (TR : exists t, train no_MT_always each_params two_runs = Ok t /\ (forall x, classify t [Some x] = Ok "no_MT") /\ (forall x, normalize (t_in t) (Some "no_MT") [Some x] = Ok [Some x])).
  { unfold train. change (used (p_in_q each_params) two_runs) with two_runs. change (kept (p_in_q each_params) two_runs) with two_runs. unfold each_params at 1 2. cbn [p_in_scaling p_n_in]. match goal with |- context [build_scaler ?a ?b ?c ?d] => let e := eval vm_compute in (build_scaler a b c d) in change (build_scaler a b c d) with e end. cbn [rbind].
    unfold build_scaler, matrix_scaler. cbn -[fit1 normalize one]. rewrite F. cbn -[fit1 normalize one]. unfold normalize, apply_scaler, lookup, scale_row. cbn -[fit1 one transform]. unfold one. rewrite T0, T1. cbn. eexists. split; [reflexivity|]. split; intro x; reflexivity. }
  destruct TR as (t & TR & CL & NX). exists t. split; [exact TR|]. pose proof two_runs_scaled as WS.
  assert (EX : forall r, In r two_runs -> test_interpolator pick_nn pick (fun _ y => y) t (g_in r) = Ok (g_out r)).
  { intros r I. apply (C141_exact no_MT_always pick_nn pick (fun _ y => y) each_params two_runs t [("no_MT", "linear")] "no_MT" "linear" r TR); try reflexivity; try assumption.
    - repeat constructor. intros [].
    - left; reflexivity.
    - cbn. lia.
    - destruct I as [<-|[<-|[]]]; reflexivity.
    - destruct I as [<-|[<-|[]]]; apply CL.
    - intros T a b _. apply pick_exact.
    - intros r' I' _. destruct I as [<-|[<-|[]]]; destruct I' as [<-|[<-|[]]]; cbn [g_in g_out]; rewrite !NX; intro C; try reflexivity; exfalso; assert (1 = 2) by congruence; lra. }
  split; [exact (EX _ (or_intror (or_introl eq_refl)))|]. split; [exact (EX _ (or_introl eq_refl))|].
  destruct (C141_between no_MT_always pick_nn pick (fun _ y => y) each_params two_runs t [("no_MT", "linear")] "no_MT" "linear" [Some 5] [Some 5] TR eq_refl) as (v & TE & _ & _ & H).
  - repeat constructor. intros [].
  - left; reflexivity.
  - exact WS.
  - exists (GRun [Some 1] [Some 0] "no_MT" "no_MT"). split; [left; reflexivity|reflexivity].
  - apply CL.
  - apply NX.
  - apply pick_nn_in.
  - intros T a D N. unfold pick in N |- *. match goal with |- context [find ?f T] => destruct (find f T) as [q|] eqn:FI end; [|discriminate]. apply find_some in FI as [IQ _]. destruct (D q IQ) as (r & IR & CR & NI & NO). change (used (p_in_q each_params) two_runs) with two_runs in IR.
    destruct (snd q) as [|[b|] [|? ?]] eqn:SQ; try discriminate N.
    + split; [reflexivity|]. intros i I. cbn in I. assert (i = 0%nat) by lia. subst i. exists q, q, b, b, b. assert (SQ' : nth 0 (snd (q : row * row)) None = Some b) by (change (nth 0 (snd q) None = Some b); rewrite SQ; reflexivity). repeat split; try assumption; lra.
    + exfalso. pose proof (class_scaler no_MT_always each_params two_runs t _ "no_MT" TR eq_refl WS) as (norms & Y & ms & _ & S & M & NOR & _). rewrite NOR in NO. apply scale_iff in NO as (L1 & L2 & _). destruct (matrix_fits _ _ _ _ S M) as [L3 _]. rewrite L3 in L2. assert (L4 : length (snd q) = 1%nat) by exact L2. rewrite SQ in L4. discriminate L4.
  - destruct H as (r & IR & _ & ER); [right|exists r; split; [exact IR|rewrite TE; f_equal; symmetry; exact ER]]. intros T D. unfold pick. match goal with |- context [find ?f T] => destruct (find f T) as [q|] eqn:FI end; [|reflexivity]. apply find_some in FI as [IQ E]. destruct (list_eq_dec fl_dec (fst q) [Some 5]) as [Q|]; [|discriminate]. destruct (D q IQ) as (r & IR & _ & NI & _). change (used (p_in_q each_params) two_runs) with two_runs in IR. exfalso. assert (NI' : normalize (t_in t) (Some "no_MT") (g_in r) = Ok [Some 5]) by (rewrite NI; f_equal; exact Q). destruct IR as [<-|[<-|[]]]; cbn [g_in] in NI'; rewrite NX in NI'; [assert (1 = 5) by congruence|assert (2 = 5) by congruence]; lra.
Qed.
(** With one interpolator for all classes the values are left scaled, and outside of the hull there is an exception. *)
Theorem C141_single_refuted : exists t, train no_MT_always single_params two_runs = Ok t /\
  (forall nn lin, (forall T a b, In (a, b) T -> (forall b', In (a, b') T -> b' = b) -> lin T a = b) -> test_interpolator nn lin (fun _ y => y) t [Some 2] = Ok [Some 1] /\ test_interpolator nn lin (fun _ y => y) t [Some 1] = Ok [Some (-1)]) /\
  (forall nn lin x, (forall T, hd None (lin T [Some x]) = None) -> test_interpolator nn lin (fun _ y => y) t [Some x] = Raise AttributeError).
Proof.
  destruct min_max_0_10 as (s & F & T0 & T1). unfold train. change (used (p_in_q single_params) two_runs) with two_runs. change (kept (p_in_q single_params) two_runs) with two_runs. unfold single_params at 1 2. cbn [p_in_scaling p_n_in]. match goal with |- context [build_scaler ?a ?b ?c ?d] => let e := eval vm_compute in (build_scaler a b c d) in change (build_scaler a b c d) with e end. cbn [rbind].
  unfold build_scaler, matrix_scaler. cbn -[fit1 normalize one]. rewrite F. cbn -[fit1 normalize one]. unfold normalize, apply_scaler, lookup, scale_row. cbn -[fit1 one transform]. unfold one. rewrite T0, T1. cbn. eexists. split; [reflexivity|]. split.
  - intros nn lin EX. unfold test_interpolator. cbn. unfold predict1. cbn. match goal with |- context [lin ?T [Some 2]] => rewrite (EX T [Some 2] [Some 1]), (EX T [Some 1] [Some (-1)]) end.
    + split; reflexivity.
    + left; reflexivity.
    + intros b' [C|[C|[]]]; [congruence|]. exfalso. assert (2 = 1) by congruence. lra.
    + right; left; reflexivity.
    + intros b' [C|[C|[]]]; [|congruence]. exfalso. assert (1 = 2) by congruence. lra.
  - intros nn lin x H. unfold test_interpolator. cbn. unfold predict1. cbn. rewrite H. reflexivity.
Qed.
Print Assumptions C141_single_refuted.

(** ** C142: the dictionary of results *)
Lemma last_write_combine (ks : list string) (ys : list fl) k i : NoDup ks -> length ys = length ks -> nth_error ks i = Some k -> dget String.eqb (dset_all String.eqb [] (combine ks ys)) k = Some (nth i ys None).
Proof.
  intros ND. assert (G : forall (ys : list fl) i d, length ys = length ks -> nth_error ks i = Some k -> dget String.eqb (dset_all String.eqb d (combine ks ys)) k = Some (nth i ys None)).
  { clear ys i. induction ks as [|k0 ks IH]; intros [|y ys] i d L N; cbn in L; try lia; [destruct i; discriminate N|]. inversion ND as [|? ? N1 N2]; subst. unfold dset_all. cbn [combine fold_left fst snd]. fold (@dset_all string fl String.eqb). destruct i as [|i]; cbn in N |- *.
    - assert (k0 = k) by congruence. subst k0. assert (K : forall d, dget String.eqb d k = Some y -> dget String.eqb (dset_all String.eqb d (combine ks ys)) k = Some y).
      { clear IH L ND N2 N. revert ys. induction ks as [|k1 ks IH]; intros [|z ys] d' D; try exact D. unfold dset_all. cbn [combine fold_left fst snd]. apply IH; [intro C; apply N1; right; exact C|]. rewrite (dget_dset String.eqb_spec). destruct (String.eqb_spec k k1) as [->|]; [exfalso; apply N1; left; reflexivity|exact D]. }
      apply K. rewrite (dget_dset String.eqb_spec), String.eqb_refl. reflexivity.
    - apply IH; [exact N2|lia|exact N]. }
  intros L N. apply G; assumption.
Qed.
Lemma dset_all_other {V} (d : list (string * V)) ps k : ~ In k (map fst ps) -> dget String.eqb (dset_all String.eqb d ps) k = dget String.eqb d k.
Proof.
  revert d. induction ps as [|[k0 v0] ps IH]; intros d N; [reflexivity|]. unfold dset_all. cbn [fold_left fst snd]. etransitivity; [apply IH; intro C; apply N; right; exact C|]. rewrite (dget_dset String.eqb_spec). destruct (String.eqb_spec k k0) as [->|]; [exfalso; apply N; left; reflexivity|reflexivity].
Qed.
Lemma dset_all_const (d : list (string * fl)) (ks : list string) k : In k ks -> dget String.eqb (dset_all String.eqb d (map (fun k => (k, None)) ks)) k = Some None.
Proof.
  revert d. induction ks as [|k0 ks IH]; intros d I; [contradiction|]. unfold dset_all. cbn [map fold_left fst snd]. destruct (in_dec string_dec k ks) as [J|J]; [apply IH; exact J|]. etransitivity; [apply dset_all_other; rewrite map_map, map_id; exact J|]. destruct I as [->|I]; [|contradiction]. rewrite (dget_dset String.eqb_spec), String.eqb_refl. reflexivity.
Qed.
Theorem C142_keys : forall nn lin sanitize t x d c, evaluate nn lin sanitize t x = Ok (d, c) -> NoDup (p_out_keys (t_params t)) -> (forall ks y, length (sanitize ks y) = length y) -> 
  length x = p_n_in (t_params t) /\ classify t x = Ok c /\ exists y, test_interpolator nn lin sanitize t x = Ok y /\
  (forall k, In k (p_nan_keys (t_params t)) -> dget String.eqb d k = Some None) /\
  (forall k, ~ In k (p_nan_keys (t_params t)) -> ~ In k (p_out_keys (t_params t)) -> dget String.eqb d k = None) /\
  (forall k i, ~ In k (p_nan_keys (t_params t)) -> nth_error (p_out_keys (t_params t)) i = Some k -> length y = length (p_out_keys (t_params t)) ->
     (p_class_method (t_params t) = "1NN" \/ c <> "initial_MT") ->
     (p_how (t_params t) <> Single "1NN" -> dget String.eqb d k = Some (nth i y None)) /\
     (p_how (t_params t) = Single "1NN" -> dget String.eqb d k = Some (if fl_dec (nth i y None) (Some (-100)) then None else nth i y None))).
Proof.
  intros nn lin sanitize t x d c E ND LS. unfold evaluate in E. destruct (Nat.eqb (length x) (p_n_in (t_params t))) eqn:L; cbn [negb] in E; [|discriminate]. apply Nat.eqb_eq in L. destruct (test_interpolator nn lin sanitize t x) as [y|]; cbn [rbind] in E; [|discriminate]. destruct (classify t x) as [c'|]; cbn [rbind] in E; [|discriminate].
  match type of E with Ok (?a, ?b) = _ => assert (ED : d = a) by congruence; assert (EC : c' = c) by congruence end. subst c'. clear E. split; [exact L|]. split; [reflexivity|]. exists y. split; [reflexivity|]. subst d. split; [|split].
  - intros k I. apply dset_all_const. exact I.
  - intros k N1 N2. rewrite dset_all_other by (rewrite map_map, map_id; exact N1). rewrite dset_all_other; [reflexivity|]. intro C. apply in_map_iff in C as ([k' v] & EK & C). apply in_combine_l in C. cbn in EK. congruence.
  - intros k i N I LY CM. assert (B : negb (String.eqb (p_class_method (t_params t)) "1NN") && String.eqb c "initial_MT" = false) by (destruct CM as [->|CM]; [reflexivity|]; apply String.eqb_neq in CM; rewrite CM; apply andb_false_r). rewrite B. rewrite dset_all_other by (rewrite map_map, map_id; exact N). split; intro H.
    + match goal with |- context [combine ?a ?z] => assert (Y : z = y) end. { destruct (p_how (t_params t)) as [m|]; [|reflexivity]. repeat match goal with |- context [match ?a with _ => _ end] => is_var a; destruct a; try reflexivity; try congruence end. }
      rewrite Y. apply last_write_combine; assumption.
    + rewrite H. rewrite (last_write_combine _ _ k i ND); [|rewrite map_length; exact LY|exact I]. f_equal. assert (J : (i < length y)%nat) by (rewrite LY; apply nth_error_Some; congruence). rewrite nth_indep with (d' := if is_minus_100 None then None else None) by (rewrite map_length; exact J). rewrite (map_nth (fun v => if is_minus_100 v then None else v)). destruct (nth i y None) as [a|]; cbn [is_minus_100].
      * destruct (Req_EM_T a (-100)) as [->|NE]; destruct (fl_dec _ _) as [Q|Q]; try reflexivity; congruence.
      * destruct (fl_dec None (Some (-100))); reflexivity.
Qed.
Print Assumptions C142_keys.

(** Several interpolators: accepted exactly if each lists its keys and no key occurs twice *)
Lemma add_keys_iff l : forall seen seen', NoDup seen -> (add_keys seen l = Ok seen' <-> NoDup (seen ++ l) /\ seen' = seen ++ l).
Proof.
  induction l as [|k l IH]; intros seen seen' ND; cbn [add_keys]; [rewrite app_nil_r; split; [intro H; split; [exact ND|congruence]|intros [_ ->]; reflexivity]|]. replace (seen ++ k :: l) with ((seen ++ [k]) ++ l) by (rewrite <- app_assoc; reflexivity). destruct (IFModel.inb k seen) eqn:I.
  - apply inb_iff in I. split; [discriminate|]. intros [C _]. exfalso. rewrite <- app_assoc in C. apply NoDup_remove_2 in C. apply C. apply in_or_app. left. exact I.
  - apply inb_no in I. apply IH. apply (Permutation_NoDup (l := k :: seen)); [apply Permutation_cons_append|constructor; assumption].
Qed.
Lemma nodup_front {A} (l l' : list A) : NoDup (l ++ l') -> NoDup l.
Proof. induction l as [|a l IH]; intro N; [constructor|]. inversion N as [|? ? N1 N2]; subst. constructor; [intro C; apply N1; apply in_or_app; left; exact C|exact (IH N2)]. Qed.
Lemma check_keys_iff several l : forall seen, NoDup seen -> (check_keys several seen l = Ok tt <-> (several = true -> Forall (fun o => o <> None) l) /\ NoDup (seen ++ concat (map (fun o => match o with Some ks => ks | None => [] end) l))).
Proof.
  induction l as [|[ks|] l IH]; intros seen ND; cbn [check_keys map concat]; [rewrite app_nil_r; split; [intros _; split; [constructor|exact ND]|reflexivity]| |].
  - rewrite app_assoc. destruct (add_keys seen ks) as [s'|e] eqn:A; cbn [rbind].
    + apply add_keys_iff in A as [N ->]; [|exact ND]. rewrite (IH _ N). split; intros [H1 H2]; (split; [|exact H2]); intro T; [constructor; [discriminate|auto]|specialize (H1 T); inversion H1; assumption].
    + split; [discriminate|]. intros [_ C]. exfalso. apply nodup_front in C. pose proof (proj2 (add_keys_iff ks seen _ ND) (conj C eq_refl)). congruence.
  - destruct several; [split; [discriminate|intros [H _]; specialize (H eq_refl); inversion H; congruence]|]. rewrite (IH seen ND). split; intros [_ H]; (split; [discriminate|exact H]).
Qed.
Theorem C142_check : forall l, construct_check l = Ok tt <-> ((1 < length l)%nat -> Forall (fun o => o <> None) l) /\ NoDup (concat (map (fun o => match o with Some ks => ks | None => [] end) l)).
Proof. intro l. unfold construct_check. rewrite (check_keys_iff _ l [] ltac:(constructor)). rewrite Nat.ltb_lt. reflexivity. Qed.
Print Assumptions C142_check.
Theorem C142_union : forall ds1 d ds2 k v, dget String.eqb d k = Some v -> NoDup (map fst d) -> (forall d', In d' ds2 -> dget String.eqb d' k = None) -> dget String.eqb (union (ds1 ++ d :: ds2)) k = Some v.
Proof.
  intros ds1 d ds2 k v G ND O. unfold union. rewrite fold_left_app. cbn [fold_left]. match goal with |- context [dset_all String.eqb ?z d] => generalize z; intro e end. clear ds1. assert (B : dget String.eqb (dset_all String.eqb e d) k = Some v).
  { rewrite (dget_dset_all String.eqb_spec). assert (LWK : last_write String.eqb d k = Some v); [|rewrite LWK; reflexivity]. revert ND G. clear O. induction d as [|[k0 v0] d IH]; intros ND G; [discriminate|]. inversion ND as [|? ? N1 N2]; subst. cbn [dget] in G. rewrite last_write_cons. destruct (String.eqb_spec k k0) as [->|NE].
    - assert (v0 = v) by congruence. subst v0. destruct (last_write String.eqb d k0) as [w|] eqn:LW; [|reflexivity]. exfalso. apply N1. destruct (in_dec string_dec k0 (map fst d)) as [I|I]; [exact I|]. exfalso. pose proof (dset_all_other (V := fl) [] d k0 I) as C. rewrite (dget_dset_all String.eqb_spec), LW in C. discriminate C.
    - rewrite (IH N2 G). reflexivity. }
  clear G ND. revert B. generalize (dset_all String.eqb e d). clear e d. induction ds2 as [|d' ds2 IH]; intros e B; [exact B|]. cbn [fold_left]. apply IH; [intros d'' I; apply O; right; exact I|]. rewrite dset_all_other; [exact B|]. intro C. apply (dget_None_notin String.eqb_spec) in C; [exact C|]. apply O. left. reflexivity.
Qed.
Print Assumptions C142_union.
Example C142_case : construct_check [Some ["a"; "b"]; Some ["c"]] = Ok tt /\ construct_check [Some ["a"; "b"]; Some ["b"]] = Raise ValueError /\ construct_check [Some ["a"]; None] = Raise ValueError /\
  union [[("a", Some 1); ("b", None)]; [("c", Some 2)]] = [("a", Some 1); ("b", None); ("c", Some 2)].
Proof. repeat split. Qed.
