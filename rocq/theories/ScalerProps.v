(** C63: scaling of data and its inverse. *)
From Coq Require Import String List Bool Reals Lra Lia.
From Verif Require Import PyBase ScalerModel.
Import ListNotations.
Open Scope string_scope.
Open Scope R_scope.
Open Scope list_scope.

(** ** Specification *)
Inductive shape := Range | MaxAbs | Standard | Plain.
Inductive key := Value | Log | NegLog.
Definition method_name (s : shape) (k : key) : option string :=
  match s, k with
  | Range, Value => Some "min_max" | Range, Log => Some "log_min_max" | Range, NegLog => Some "neg_log_min_max"
  | MaxAbs, Value => Some "max_abs" | MaxAbs, Log => Some "log_max_abs" | MaxAbs, NegLog => None
  | Standard, Value => Some "standarize" | Standard, Log => Some "log_standarize" | Standard, NegLog => Some "neg_log_standarize"
  | Plain, Value => Some "none" | Plain, Log => Some "log" | Plain, NegLog => None
  end.
(** What is scaled: the value, the decimal logarithm, or that of the value without its sign. *)
Definition quantity (k : key) (v : R) : R :=
  match k with Value => v | Log => ln v / ln 10 | NegLog => ln (- v) / ln 10 end.
Definition allowed (k : key) (v : R) : Prop := match k with Value => True | Log => 0 < v | NegLog => v < 0 end.
(** Data with which the method can be fitted. *)
Definition usable (s : shape) (k : key) (x : list R) : Prop :=
  Forall (allowed k) x /\
  match s with
  | Range | Standard => exists a b, In a x /\ In b x /\ a <> b
  | MaxAbs => exists a, In a x /\ quantity k a <> 0
  | Plain => True
  end.
Definition total (l : list R) : R := fold_right Rplus 0 l.
(** What the scaled fitted data look like. *)
Definition normalised (s : shape) (lo hi c : R) (ys : list R) : Prop :=
  match s with
  | Range => Forall (fun y => lo <= y <= hi) ys /\ In lo ys /\ In hi ys
  | MaxAbs => c = 0 /\ Forall (fun y => -1 <= y <= 1) ys /\ (In 1 ys \/ In (-1) ys)
  | Standard => total ys = 0 /\ total (map (fun y => y ^ 2) ys) = INR (length ys)
  | Plain => True
  end.

(** ** Lemmas *)
Lemma ln10_pos : 0 < ln 10.
Proof. rewrite <- ln_1. apply ln_increasing; lra. Qed.
Lemma log10_some v : 0 < v -> log10 (Some v) = Some (ln v / ln 10).
Proof. intros V. unfold log10. destruct (Rlt_dec 0 v); [reflexivity|lra]. Qed.
Lemma pow10_log v : 0 < v -> Rpower 10 (ln v / ln 10) = v.
Proof.
  intros V. unfold Rpower. pose proof ln10_pos. replace (ln v / ln 10 * ln 10) with (ln v) by (field; lra). apply exp_ln. exact V.
Qed.
Lemma quantity_inj k a b : allowed k a -> allowed k b -> quantity k a = quantity k b -> a = b.
Proof.
  pose proof ln10_pos as L. destruct k; cbn; intros A B E; [exact E| |].
  - assert (ln a = ln b) by (apply (Rmult_eq_reg_r (/ ln 10)); [exact E|apply Rinv_neq_0_compat; lra]).
    apply ln_inv; assumption.
  - assert (ln (- a) = ln (- b)) by (apply (Rmult_eq_reg_r (/ ln 10)); [exact E|apply Rinv_neq_0_compat; lra]).
    assert (- a = - b) by (apply ln_inv; lra). lra.
Qed.
Definition keyed (k : key) (v : fl) : fl := match k with Value => v | Log => log10 v | NegLog => log10 (fopp v) end.
Lemma keyed_ok k v : allowed k v -> keyed k (Some v) = Some (quantity k v).
Proof. destruct k; cbn [keyed allowed quantity fopp option_map]; intros A; [reflexivity| |]; apply log10_some; lra. Qed.
Lemma keyed_map k l : Forall (allowed k) l -> map (keyed k) (map Some l) = map Some (map (quantity k) l).
Proof. intros F. rewrite !map_map. apply map_ext_in. intros v V. rewrite Forall_forall in F. apply keyed_ok. auto. Qed.
Lemma ln_le_10 a b : 0 < a -> a <= b -> ln a / ln 10 <= ln b / ln 10.
Proof.
  intros A B. pose proof ln10_pos. apply Rmult_le_compat_r; [left; apply Rinv_0_lt_compat; lra|].
  destruct (Req_dec a b) as [->|N]; [lra|]. left. apply ln_increasing; lra.
Qed.

Lemma np_min_go : forall l x, exists m, fold_left (lift2 Rmin) (map Some l) (Some x) = Some m /\ (m = x \/ In m l) /\ m <= x /\ forall y, In y l -> m <= y.
Proof.
  induction l as [|z l IH]; intros x; cbn [map fold_left].
  - exists x. repeat split; [auto|lra|easy].
  - destruct (IH (Rmin x z)) as (m & E & I & A & B). exists m. split; [exact E|]. pose proof (Rmin_l x z). pose proof (Rmin_r x z).
    split; [destruct I as [->|I]; [unfold Rmin; destruct (Rle_dec x z); cbn; auto|cbn; auto]|].
    split; [lra|]. intros y [<-|Y]; [lra|auto].
Qed.
Lemma np_max_go : forall l x, exists m, fold_left (lift2 Rmax) (map Some l) (Some x) = Some m /\ (m = x \/ In m l) /\ x <= m /\ forall y, In y l -> y <= m.
Proof.
  induction l as [|z l IH]; intros x; cbn [map fold_left].
  - exists x. repeat split; [auto|lra|easy].
  - destruct (IH (Rmax x z)) as (m & E & I & A & B). exists m. split; [exact E|]. pose proof (Rmax_l x z). pose proof (Rmax_r x z).
    split; [destruct I as [->|I]; [unfold Rmax; destruct (Rle_dec x z); cbn; auto|cbn; auto]|].
    split; [lra|]. intros y [<-|Y]; [lra|auto].
Qed.
Lemma np_min_spec l : l <> [] -> exists m, np_min (map Some l) = Ok (Some m) /\ In m l /\ forall y, In y l -> m <= y.
Proof.
  destruct l as [|x l]; [easy|]. intros _. cbn [map np_min]. destruct (np_min_go l x) as (m & E & I & A & B). exists m. rewrite E.
  split; [reflexivity|]. split; [destruct I; cbn; auto|]. intros y [<-|Y]; auto.
Qed.
Lemma np_max_spec l : l <> [] -> exists m, np_max (map Some l) = Ok (Some m) /\ In m l /\ forall y, In y l -> y <= m.
Proof.
  destruct l as [|x l]; [easy|]. intros _. cbn [map np_max]. destruct (np_max_go l x) as (m & E & I & A & B). exists m. rewrite E.
  split; [reflexivity|]. split; [destruct I; cbn; auto|]. intros y [<-|Y]; auto.
Qed.

(** Least and greatest logarithm. *)
Definition extremes (u : list R) (p0 p1 : R) : Prop := In p0 u /\ In p1 u /\ forall y, In y u -> p0 <= y <= p1.
Lemma range_params k x : x <> [] -> Forall (allowed k) x ->
  exists p0 p1, extremes (map (quantity k) x) p0 p1 /\
  match k with
  | Value => np_min (map Some x) = Ok (Some p0) /\ np_max (map Some x) = Ok (Some p1)
  | Log => rmap log10 (np_min (map Some x)) = Ok (Some p0) /\ rmap log10 (np_max (map Some x)) = Ok (Some p1)
  | NegLog => rmap log10 (np_min (map fopp (map Some x))) = Ok (Some p0) /\ rmap log10 (np_max (map fopp (map Some x))) = Ok (Some p1)
  end.
Proof.
  intros N F. rewrite Forall_forall in F. destruct k; cbn [allowed quantity] in *.
  - destruct (np_min_spec x N) as (a & A1 & A2 & A3). destruct (np_max_spec x N) as (b & B1 & B2 & B3).
    exists a, b. split; [|auto]. unfold extremes. rewrite map_id. split; [exact A2|split; [exact B2|auto]].
  - destruct (np_min_spec x N) as (a & A1 & A2 & A3). destruct (np_max_spec x N) as (b & B1 & B2 & B3).
    exists (ln a / ln 10), (ln b / ln 10). rewrite A1, B1. unfold rmap. cbn [rbind]. rewrite !log10_some by (apply F; assumption).
    split; [|auto]. split; [apply (in_map (fun v => ln v / ln 10)); exact A2|]. split; [apply (in_map (fun v => ln v / ln 10)); exact B2|].
    intros y Y. apply in_map_iff in Y as (v & <- & V). pose proof (F v V). pose proof (F a A2). split; apply ln_le_10; auto.
  - replace (map fopp (map Some x)) with (map Some (map Ropp x)) by (rewrite !map_map; reflexivity).
    assert (N' : map Ropp x <> []) by (destruct x; easy).
    destruct (np_min_spec (map Ropp x) N') as (a & A1 & A2 & A3). destruct (np_max_spec (map Ropp x) N') as (b & B1 & B2 & B3).
    apply in_map_iff in A2 as (a' & <- & A2). apply in_map_iff in B2 as (b' & <- & B2). pose proof (F a' A2). pose proof (F b' B2).
    exists (ln (- a') / ln 10), (ln (- b') / ln 10). rewrite A1, B1. unfold rmap. cbn [rbind]. rewrite !log10_some by lra.
    split; [|auto]. split; [apply (in_map (fun v => ln (- v) / ln 10)); exact A2|]. split; [apply (in_map (fun v => ln (- v) / ln 10)); exact B2|].
    intros y Y. apply in_map_iff in Y as (v & <- & V). pose proof (F v V).
    split; (apply ln_le_10; [lra|]); [apply A3|apply B3]; apply (in_map Ropp); exact V.
Qed.

Lemma np_sum_some u : np_sum (map Some u) = Some (total u).
Proof. induction u as [|x u IH]; [reflexivity|]. cbn [map np_sum fold_right]. unfold np_sum in IH. rewrite IH. reflexivity. Qed.
Lemma np_mean_some u : u <> [] -> np_mean (map Some u) = Some (total u / INR (length u)).
Proof.
  intros N. unfold np_mean. rewrite np_sum_some, map_length. cbn [fdiv].
  destruct (Req_EM_T (INR (length u)) 0) as [E|_]; [|reflexivity].
  destruct u; [easy|]. exfalso. pose proof (lt_0_INR (length (r :: u)) ltac:(cbn; lia)). lra.
Qed.
Definition variance (u : list R) : R :=
  total (map (fun x => (x - total u / INR (length u)) * (x - total u / INR (length u))) u) / INR (length u).
Lemma np_std_some u : u <> [] -> np_std (map Some u) = Some (sqrt (variance u)).
Proof.
  intros N. unfold np_std. rewrite (np_mean_some u N). rewrite map_map. cbn [fsub lift2 fmul].
  set (m := total u / INR (length u)).
  assert (E : map (fun x => fmul (fsub (Some x) (Some m)) (fsub (Some x) (Some m))) u = map Some (map (fun x => (x - m) * (x - m)) u)).
  { rewrite map_map. reflexivity. }
  unfold fmul, fsub, lift2 in E. cbn in E. rewrite E. rewrite np_mean_some by (destruct u; easy).
  rewrite map_length. reflexivity.
Qed.
Lemma total_nonneg u : Forall (fun x => 0 <= x) u -> 0 <= total u.
Proof. induction 1 as [|x u X F IH]; unfold total in *; cbn [fold_right]; lra. Qed.
Lemma total_member u x : Forall (fun x => 0 <= x) u -> In x u -> x <= total u.
Proof.
  induction 1 as [|y u Y F IH]; [easy|]. cbn. intros [<-|I]; [pose proof (total_nonneg u F); unfold total in *; lra|].
  specialize (IH I). unfold total in *. lra.
Qed.
Lemma variance_pos u a b : In a u -> In b u -> a <> b -> 0 < variance u.
Proof.
  intros A B N. unfold variance. set (m := total u / INR (length u)).
  assert (L : 0 < INR (length u)) by (apply lt_0_INR; destruct u; [easy|cbn; lia]).
  apply Rdiv_lt_0_compat; [|exact L].
  assert (F : Forall (fun x => 0 <= x) (map (fun x => (x - m) * (x - m)) u)).
  { apply Forall_forall. intros y Y. apply in_map_iff in Y as (x & <- & _). pose proof (Rle_0_sqr (x - m)). unfold Rsqr in *. lra. }
  assert (S : exists x, In x u /\ x <> m). { destruct (Req_dec a m); [exists b; split; [exact B|congruence]|exists a; auto]. }
  destruct S as (x & X1 & X2). assert (P : 0 < (x - m) * (x - m)) by (assert (x - m <> 0) by lra; pose proof (Rsqr_pos_lt (x - m) H); unfold Rsqr in *; lra).
  eapply Rlt_le_trans; [exact P|]. apply total_member; [exact F|]. apply (in_map (fun x => (x - m) * (x - m))). exact X1.
Qed.
Lemma total_affine k c : forall u, total (map (fun v => k * v + c) u) = k * total u + c * INR (length u).
Proof.
  induction u as [|x u IH]; [cbn; lra|]. cbn [map total fold_right length]. unfold total in IH. rewrite IH, S_INR. lra.
Qed.
Lemma total_scale k (f : R -> R) : forall u, total (map (fun v => k * f v) u) = k * total (map f u).
Proof. induction u as [|x u IH]; cbn in *; [lra|]. unfold total in IH. rewrite IH. lra. Qed.

(** ** Fitted scalers *)
Definition fitted (s : shape) (m : string) (ps : list R) (lo hi : R) (sc : scaler) : Prop :=
  method sc = Some m /\ params sc = Some (map Some ps) /\ (s = Range -> lower sc = Some lo /\ upper sc = Some hi).

Lemma transform_fitted s k m sc : method_name s k = Some m -> method sc = Some m ->
  (forall x, transform sc x = match s with
    | Range => to_range sc (map (keyed k) x) | MaxAbs => relative sc (map (keyed k) x)
    | Standard => standard sc (map (keyed k) x) | Plain => Ok (map (keyed k) x) end) /\
  (forall y, inv_transform sc y =
    let z := match s with Range => from_range sc y | MaxAbs => unrelative sc y | Standard => unstandard sc y | Plain => Ok y end in
    match k with Value => z | Log => lmap pow10 z | NegLog => lmap (fun v => fopp (pow10 v)) z end).
Proof.
  intros N M. unfold transform, inv_transform. rewrite M.
  destruct s, k; cbn in N; try discriminate; injection N as <-; cbn [String.eqb Ascii.eqb Bool.eqb];
    (split; intros; unfold keyed; rewrite ?map_id; try reflexivity).
Qed.

(** ** C63 *)
Theorem C63_scaled : forall s k m sc x lo hi, method_name s k = Some m -> usable s k x -> lo < hi ->
  exists sc' a c, fit sc (Array1 (map Some x)) m lo hi = (sc', None) /\ 0 < a /\
    (forall v, Forall (allowed k) v ->
       transform sc' (map Some v) = Ok (map (fun z => Some (a * quantity k z + c)) v) /\
       inv_transform sc' (map (fun z => Some (a * quantity k z + c)) v) = Ok (map Some v)) /\
    normalised s lo hi c (map (fun z => a * quantity k z + c) x).
Proof.
  intros s k m sc x lo hi NM [AL US] LH.
  (* the inverse, once the affine map can be undone *)
  assert (BACK : forall v, Forall (allowed k) v ->
     forall z, z = Ok (map (fun w => Some (quantity k w)) v) ->
     match k with Value => z | Log => lmap pow10 z | NegLog => lmap (fun w => fopp (pow10 w)) z end = Ok (map Some v)).
  { intros v F z ->. rewrite Forall_forall in F. destruct k; cbn [quantity allowed] in *; [reflexivity| |];
      cbn [lmap rbind]; f_equal; rewrite map_map; apply map_ext_in; intros w W; cbn; specialize (F w W).
    - rewrite pow10_log by lra. reflexivity.
    - rewrite pow10_log by lra. rewrite Ropp_involutive. reflexivity. }
  destruct s.
  - (* Range *)
    destruct US as (v0 & w0 & V0 & W0 & NE). assert (NX : x <> []) by (intros ->; easy).
    destruct (range_params k x NX AL) as (p0 & p1 & (E1 & E2 & E3) & PS).
    assert (P01 : p0 < p1).
    { pose proof (E3 _ (in_map (quantity k) _ _ V0)) as Q1. pose proof (E3 _ (in_map (quantity k) _ _ W0)) as Q2.
      destruct (Rle_lt_or_eq_dec p0 p1) as [L|L]; [lra|exact L|]. exfalso. apply NE. rewrite Forall_forall in AL.
      apply (quantity_inj k); auto. lra. }
    set (sc' := {| params := Some [Some p0; Some p1]; method := Some m; lower := Some lo; upper := Some hi |}).
    assert (FT : fit sc (Array1 (map Some x)) m lo hi = (sc', None)).
    { unfold fit. destruct k; cbn in NM; injection NM as <-; cbn [String.eqb Ascii.eqb Bool.eqb]; unfold fit_range;
        (destruct (Rlt_dec lo hi); [|lra]); destruct PS as [-> ->]; reflexivity. }
    set (a := (hi - lo) / (p1 - p0)). set (c := lo - p0 * a).
    assert (A : 0 < a) by (apply Rdiv_lt_0_compat; lra).
    exists sc', a, c. split; [exact FT|]. split; [exact A|]. split.
    + intros v F. destruct (transform_fitted Range k m sc' NM eq_refl) as [T I]. split.
      * rewrite T, (keyed_map k v F). unfold to_range, sc', param, limit. cbn [params nth_error rbind lower upper]. rewrite !map_map.
        f_equal. apply map_ext. intros z. cbn [fsub lift2 fdiv]. destruct (Req_EM_T (p1 - p0) 0); [lra|]. cbn. f_equal. unfold c, a. field. lra.
      * rewrite I. cbv zeta. apply BACK; [exact F|]. unfold from_range, sc', param, limit. cbn [params nth_error rbind lower upper]. rewrite map_map.
        f_equal. apply map_ext. intros z. cbn [fsub lift2 fdiv]. destruct (Req_EM_T (hi - lo) 0); [lra|]. cbn. f_equal. unfold c, a. field. lra.
    + replace (map (fun z => a * quantity k z + c) x) with (map (fun q => a * q + c) (map (quantity k) x)) by (rewrite map_map; reflexivity).
      assert (F0 : a * p0 + c = lo) by (unfold c; ring). assert (F1 : a * p1 + c = hi) by (unfold c, a; field; lra).
      split; [|split].
      * apply Forall_forall. intros y Y. apply in_map_iff in Y as (q & <- & Q). specialize (E3 q Q). nra.
      * rewrite <- F0. apply (in_map (fun q => a * q + c)). exact E1.
      * rewrite <- F1 at 1. apply (in_map (fun q => a * q + c)). exact E2.
  - (* MaxAbs *)
    destruct US as (v0 & V0 & NE). assert (NX : x <> []) by (intros ->; easy).
    assert (PS : exists p, np_max (map (fun v => fabs (keyed k v)) (map Some x)) = Ok (Some p) /\
       (exists v, In v x /\ p = Rabs (quantity k v)) /\ forall v, In v x -> Rabs (quantity k v) <= p).
    { replace (map (fun v => fabs (keyed k v)) (map Some x)) with (map Some (map (fun v => Rabs (quantity k v)) x)).
      - destruct (np_max_spec (map (fun v => Rabs (quantity k v)) x)) as (p & P1 & P2 & P3); [destruct x; easy|].
        exists p. split; [exact P1|]. split.
        + apply in_map_iff in P2 as (v & <- & V). eauto.
        + intros v V. apply P3. apply (in_map (fun v => Rabs (quantity k v))). exact V.
      - rewrite !map_map. apply map_ext_in. intros v V. rewrite Forall_forall in AL. rewrite (keyed_ok k v) by auto. reflexivity. }
    destruct PS as (p & P1 & (v1 & V1 & P2) & P3).
    assert (PP : 0 < p). { specialize (P3 v0 V0). pose proof (Rabs_pos_lt _ NE). lra. }
    set (sc' := {| params := Some [Some p]; method := Some m; lower := lower sc; upper := upper sc |}).
    assert (FT : fit sc (Array1 (map Some x)) m lo hi = (sc', None)).
    { unfold fit. destruct k; cbn in NM; try discriminate; injection NM as <-; cbn [String.eqb Ascii.eqb Bool.eqb]; unfold fit_one;
        cbn [keyed] in P1; (change (fun v : fl => fabs v) with fabs in P1 || idtac); rewrite P1; reflexivity. }
    exists sc', (/ p), 0. split; [exact FT|]. split; [apply Rinv_0_lt_compat; exact PP|]. split.
    + intros v F. destruct (transform_fitted MaxAbs k m sc' NM eq_refl) as [T I]. split.
      * rewrite T, (keyed_map k v F). unfold relative, sc', param. cbn [params nth_error rbind]. rewrite !map_map.
        f_equal. apply map_ext. intros z. cbn [fdiv]. destruct (Req_EM_T p 0); [lra|]. f_equal. field. lra.
      * rewrite I. cbv zeta. apply BACK; [exact F|]. unfold unrelative, sc', param. cbn [params nth_error rbind]. rewrite map_map.
        f_equal. apply map_ext. intros z. cbn. f_equal. field. lra.
    + split; [reflexivity|]. assert (E : forall z, / p * quantity k z + 0 = quantity k z / p) by (intros; field; lra).
      rewrite (map_ext _ _ E). split.
      * apply Forall_forall. intros y Y. apply in_map_iff in Y as (v & <- & V). specialize (P3 v V).
        assert (B : Rabs (quantity k v / p) <= 1).
        { unfold Rdiv. rewrite Rabs_mult, (Rabs_right (/ p)) by (left; apply Rinv_0_lt_compat; exact PP).
          apply (Rmult_le_reg_r p); [exact PP|]. replace (Rabs (quantity k v) * / p * p) with (Rabs (quantity k v)) by (field; lra). lra. }
        destruct (Rabs_def2 (quantity k v / p) 2 ltac:(lra)). revert B. unfold Rabs. destruct (Rcase_abs (quantity k v / p)); lra.
      * assert (J : In (quantity k v1 / p) (map (fun v => quantity k v / p) x)) by (apply (in_map (fun v => quantity k v / p)); exact V1).
        rewrite P2 in *. clear P2. unfold Rabs in *. destruct (Rcase_abs (quantity k v1)) as [C|C].
        -- right. replace (-1) with (quantity k v1 / - quantity k v1) by (field; lra). exact J.
        -- left. replace 1 with (quantity k v1 / quantity k v1) at 1 by (field; lra). exact J.
  - (* Standard *)
    destruct US as (v0 & w0 & V0 & W0 & NE). assert (NX : x <> []) by (intros ->; easy).
    set (u := map (quantity k) x). assert (NU : u <> []) by (unfold u; destruct x; easy).
    set (mu := total u / INR (length u)). set (sd := sqrt (variance u)).
    assert (VP : 0 < variance u).
    { apply (variance_pos u (quantity k v0) (quantity k w0)); [apply in_map; exact V0|apply in_map; exact W0|].
      rewrite Forall_forall in AL. intros E. apply NE. apply (quantity_inj k); auto. }
    assert (SP : 0 < sd) by (apply sqrt_lt_R0; exact VP).
    assert (LP : 0 < INR (length u)) by (apply lt_0_INR; destruct u; [easy|cbn; lia]).
    set (sc' := {| params := Some [Some mu; Some sd]; method := Some m; lower := lower sc; upper := upper sc |}).
    assert (FT : fit sc (Array1 (map Some x)) m lo hi = (sc', None)).
    { assert (PP : [np_mean (map (keyed k) (map Some x)); np_std (map (keyed k) (map Some x))] = [Some mu; Some sd]).
      { rewrite (keyed_map k x AL). fold u. rewrite (np_mean_some u NU), (np_std_some u NU). reflexivity. }
      unfold fit. destruct k; cbn in NM; injection NM as <-; cbn [String.eqb Ascii.eqb Bool.eqb]; cbn [keyed] in PP.
      - unfold keyed in PP. rewrite map_id in PP. rewrite PP. reflexivity.
      - change (keyed Log) with log10 in PP. rewrite PP. reflexivity.
      - change (keyed NegLog) with (fun v => log10 (fopp v)) in PP. rewrite PP. reflexivity. }
    exists sc', (/ sd), (- mu / sd). split; [exact FT|]. split; [apply Rinv_0_lt_compat; exact SP|]. split.
    + intros v F. destruct (transform_fitted Standard k m sc' NM eq_refl) as [T I]. split.
      * rewrite T, (keyed_map k v F). unfold standard, sc', param. cbn [params nth_error rbind]. rewrite !map_map.
        f_equal. apply map_ext. intros z. cbn [fsub lift2 fdiv]. destruct (Req_EM_T sd 0); [lra|]. f_equal. field. lra.
      * rewrite I. cbv zeta. apply BACK; [exact F|]. unfold unstandard, sc', param. cbn [params nth_error rbind]. rewrite map_map.
        f_equal. apply map_ext. intros z. cbn. f_equal. field. lra.
    + replace (map (fun z => / sd * quantity k z + - mu / sd) x) with (map (fun q => / sd * q + - mu / sd) u) by (unfold u; rewrite map_map; reflexivity).
      split.
      * rewrite total_affine. unfold mu. field. split; lra.
      * rewrite map_length, map_map.
        assert (E : forall q, (/ sd * q + - mu / sd) ^ 2 = / (sd * sd) * ((q - mu) * (q - mu))) by (intros; field; lra).
        rewrite (map_ext _ _ E), total_scale. unfold sd. rewrite sqrt_sqrt by lra.
        assert (Q : total (map (fun q => (q - mu) * (q - mu)) u) = variance u * INR (length u)) by (unfold variance; fold mu; field; lra).
        rewrite Q. field. lra.
  - (* Plain *)
    set (sc' := {| params := Some []; method := Some m; lower := lower sc; upper := upper sc |}).
    assert (FT : fit sc (Array1 (map Some x)) m lo hi = (sc', None)).
    { unfold fit. destruct k; cbn in NM; try discriminate; injection NM as <-; reflexivity. }
    exists sc', 1, 0. split; [exact FT|]. split; [lra|]. split; [|exact I].
    intros v F. destruct (transform_fitted Plain k m sc' NM eq_refl) as [T J]. split.
    + rewrite T, (keyed_map k v F), map_map. f_equal. apply map_ext. intros z. f_equal. ring.
    + rewrite J. cbv zeta. apply BACK; [exact F|]. f_equal. apply map_ext. intros z. f_equal. ring.
Qed.
Print Assumptions C63_scaled.

(** The usual call fits and transforms. *)
Theorem C63_fit_and_transform : forall s k m sc x lo hi, method_name s k = Some m -> usable s k x -> lo < hi ->
  exists sc' ys, fit_and_transform sc (map Some x) m lo hi = (sc', Ok (map Some ys)) /\
    inv_transform sc' (map Some ys) = Ok (map Some x) /\ length ys = length x.
Proof.
  intros s k m sc x lo hi NM US LH. destruct (C63_scaled s k m sc x lo hi NM US LH) as (sc' & a & c & F & _ & T & _).
  destruct US as [AL _]. destruct (T x AL) as [T1 T2]. exists sc', (map (fun z => a * quantity k z + c) x).
  unfold fit_and_transform. rewrite F, T1, map_length, !map_map. split; [reflexivity|]. split; [exact T2|reflexivity].
Qed.
Print Assumptions C63_fit_and_transform.

(** Nothing is computed before a fit, and a refused argument leaves the object as it was. *)
Theorem C63_refused : forall sc,
  (forall x, method sc = None -> transform sc x = Raise (OtherError "AssertionError") /\
                                inv_transform sc x = Raise (OtherError "AssertionError")) /\
  (forall m lo hi, fit sc OtherArg m lo hi = (sc, Some (OtherError "AssertionError"))) /\
  (forall m l lo hi, (forall s k, method_name s k <> Some m) -> snd (fit sc (Array1 l) m lo hi) = Some ValueError) /\
  (forall k m l lo hi, method_name Range k = Some m -> hi <= lo ->
     snd (fit sc (Array1 l) m lo hi) = Some (OtherError "AssertionError") /\
     params (fst (fit sc (Array1 l) m lo hi)) = params sc) /\
  (forall s k m lo hi, s = Range \/ s = MaxAbs -> method_name s k = Some m -> lo < hi ->
     snd (fit sc (Array1 []) m lo hi) = Some ValueError).
Proof.
  intros sc. split; [|split; [|split; [|split]]].
  - intros x M. unfold transform, inv_transform. rewrite M. auto.
  - reflexivity.
  - intros m l lo hi U. unfold fit.
    repeat match goal with |- context [String.eqb m ?n] => destruct (String.eqb_spec m n) as [->|?];
      [exfalso; first [apply (U Range Value); reflexivity|apply (U Range Log); reflexivity|apply (U Range NegLog); reflexivity
        |apply (U MaxAbs Value); reflexivity|apply (U MaxAbs Log); reflexivity|apply (U Standard Value); reflexivity
        |apply (U Standard Log); reflexivity|apply (U Standard NegLog); reflexivity|apply (U Plain Value); reflexivity
        |apply (U Plain Log); reflexivity]|] end.
    reflexivity.
  - intros k m l lo hi N L. unfold fit. destruct k; cbn in N; injection N as <-; cbn [String.eqb Ascii.eqb Bool.eqb];
      unfold fit_range; (destruct (Rlt_dec lo hi); [lra|]); split; reflexivity.
  - intros s k m lo hi S N L. unfold fit. destruct S as [-> | ->]; destruct k; cbn in N; try discriminate; injection N as <-;
      cbn [String.eqb Ascii.eqb Bool.eqb]; unfold fit_range, fit_one; cbn; try (destruct (Rlt_dec lo hi); [|lra]); reflexivity.
Qed.
Print Assumptions C63_refused.

(** After refused limits a scaler that was never fitted cannot be used either. *)
Theorem C63_never_fitted : forall k m l lo hi x, method_name Range k = Some m -> hi <= lo ->
  transform (fst (fit new_scaler (Array1 l) m lo hi)) x = Raise TypeError /\
  inv_transform (fst (fit new_scaler (Array1 l) m lo hi)) x = Raise TypeError.
Proof.
  intros k m l lo hi x N L. unfold fit. destruct k; cbn in N; injection N as <-; cbn [String.eqb Ascii.eqb Bool.eqb];
    unfold fit_range; (destruct (Rlt_dec lo hi); [lra|]); split; reflexivity.
Qed.
Print Assumptions C63_never_fitted.

(** No data: the methods that look for an extreme raise, and the object stays unusable. *)
Theorem C63_no_data : forall m lo hi x, In m [ "min_max"; "log_min_max"; "neg_log_min_max"; "max_abs"; "log_max_abs" ]%string -> lo < hi ->
  snd (fit new_scaler (Array1 []) m lo hi) = Some ValueError /\
  transform (fst (fit new_scaler (Array1 []) m lo hi)) x = Raise TypeError /\
  inv_transform (fst (fit new_scaler (Array1 []) m lo hi)) x = Raise TypeError.
Proof.
  intros m lo hi x I L. repeat (destruct I as [<-|I]; [unfold fit; cbn [String.eqb Ascii.eqb Bool.eqb]; unfold fit_range, fit_one;
    try (destruct (Rlt_dec lo hi); [|lra]); repeat split; reflexivity|]). destruct I.
Qed.
Print Assumptions C63_no_data.

(** Constant data: every value becomes NaN, and cannot be recovered. *)
Theorem C63_constant_refuted : forall k m sc x lo hi v, method_name Range k = Some m -> allowed k v -> lo < hi ->
  exists sc', fit sc (Array1 (map Some (repeat v (S x)))) m lo hi = (sc', None) /\
    transform sc' [Some v] = Ok [None] /\ inv_transform sc' [None] = Ok [None].
Proof.
  intros k m sc x lo hi v NM A L.
  assert (AL : Forall (allowed k) (repeat v (S x))). { apply Forall_forall. intros y Y. apply repeat_spec in Y as ->. exact A. }
  destruct (range_params k (repeat v (S x)) ltac:(easy) AL) as (p0 & p1 & (E1 & E2 & _) & PS).
  assert (E : p1 = p0).
  { apply in_map_iff in E1 as (a & <- & I1). apply in_map_iff in E2 as (b & <- & I2).
    apply repeat_spec in I1 as ->. apply repeat_spec in I2 as ->. reflexivity. }
  subst p1. set (sc' := {| params := Some [Some p0; Some p0]; method := Some m; lower := Some lo; upper := Some hi |}).
  exists sc'. split.
  - unfold fit. destruct k; cbn in NM; injection NM as <-; cbn [String.eqb Ascii.eqb Bool.eqb]; unfold fit_range;
      (destruct (Rlt_dec lo hi); [|lra]); destruct PS as [-> ->]; reflexivity.
  - destruct (transform_fitted Range k m sc' NM eq_refl) as [T I]. rewrite T, I. cbn [map]. rewrite (keyed_ok k v A).
    unfold to_range, from_range, sc', param, limit. cbn [params nth_error rbind lower upper map fsub lift2 fdiv].
    destruct (Req_EM_T (p0 - p0) 0); [|lra]. split; [reflexivity|]. destruct k; reflexivity.
Qed.
Print Assumptions C63_constant_refuted.

(** A fit that raised leaves an object that is used without complaint: with an unknown method the values come
    back unscaled, and with wrong limits the parameters of the earlier method are used with the new one. *)
Theorem C63_failed_fit_refuted :
  (forall sc l lo hi x, exists sc', fit sc (Array1 l) "minmax" lo hi = (sc', Some ValueError) /\
     transform sc' x = Ok x /\ inv_transform sc' x = Ok x) /\
  (exists sc sc', fit new_scaler (Array1 [Some 1; Some 3]) "min_max" 0 1 = (sc, None) /\
     fit sc (Array1 [Some 1; Some 3]) "log_min_max" 1 1 = (sc', Some (OtherError "AssertionError")) /\
     transform sc' [Some 10] = Ok [Some 0]).
Proof.
  split.
  - intros sc l lo hi x. exists (set_method "minmax" sc). repeat split.
  - exists {| params := Some [Some 1; Some 3]; method := Some "min_max"; lower := Some 0; upper := Some 1 |},
           {| params := Some [Some 1; Some 3]; method := Some "log_min_max"; lower := Some 0; upper := Some 1 |}.
    split; [|split].
    + unfold fit. cbn [String.eqb Ascii.eqb Bool.eqb]. unfold fit_range. destruct (Rlt_dec 0 1); [|lra]. cbn.
      unfold Rmin, Rmax. destruct (Rle_dec 1 3); [reflexivity|lra].
    + unfold fit. cbn [String.eqb Ascii.eqb Bool.eqb]. unfold fit_range. destruct (Rlt_dec 1 1); [lra|]. reflexivity.
    + unfold transform. cbn [method String.eqb Ascii.eqb Bool.eqb map]. rewrite log10_some by lra.
      unfold to_range, param, limit. cbn [params nth_error rbind lower upper map fsub lift2 fdiv].
      destruct (Req_EM_T (3 - 1) 0); [lra|]. cbn. do 3 f_equal. pose proof ln10_pos. field. lra.
Qed.
Print Assumptions C63_failed_fit_refuted.

(** Cases meeting the hypotheses. *)
Example C63_runs :
  usable Range Value [2; 5; 3] /\ usable Range Log [1; 100] /\ usable Standard NegLog [-1; -10] /\ usable MaxAbs Log [1; 10] /\
  (exists sc, fit new_scaler (Array1 [Some 2; Some 5; Some 3]) "min_max" (-1) 1 = (sc, None) /\
     transform sc [Some 2; Some 5; Some (7/2)] = Ok [Some (-1); Some 1; Some 0]).
Proof.
  repeat apply conj.
  - repeat constructor.
  - exists 2, 5. cbn. repeat split; auto. lra.
  - repeat constructor; cbn; lra.
  - exists 1, 100. cbn. repeat split; auto. lra.
  - repeat constructor; cbn; lra.
  - exists (-1), (-10). cbn. repeat split; auto. lra.
  - repeat constructor; cbn; lra.
  - exists 10. split; [cbn; auto|]. cbn. pose proof ln10_pos. replace (ln 10 / ln 10) with 1 by (field; lra). lra.
  - exists {| params := Some [Some 2; Some 5]; method := Some "min_max"; lower := Some (-1); upper := Some 1 |}. split.
    + unfold fit. cbn [String.eqb Ascii.eqb Bool.eqb]. unfold fit_range. destruct (Rlt_dec (-1) 1); [|lra]. cbn.
      unfold Rmin, Rmax. destruct (Rle_dec 2 5); [|lra]. destruct (Rle_dec 2 3); [|lra]. destruct (Rle_dec 5 3); [lra|]. reflexivity.
    + unfold transform. cbn [method String.eqb Ascii.eqb Bool.eqb map]. unfold to_range, param, limit.
      cbn [params nth_error rbind lower upper map fsub lift2 fdiv].
      destruct (Req_EM_T (5 - 2) 0); [lra|]. cbn.
      replace ((2 - 2) / (5 - 2) * (1 - -1) + -1) with (-1) by lra. replace ((5 - 2) / (5 - 2) * (1 - -1) + -1) with 1 by lra.
      replace ((7 / 2 - 2) / (5 - 2) * (1 - -1) + -1) with 0 by lra. reflexivity.
Qed.
