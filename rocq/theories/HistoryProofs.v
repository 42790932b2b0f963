(** Proofs about history alignment, restore, flip_stars and existence flags. *)
From Coq Require Import String List Bool ZArith Lia.
From Verif Require Import PyBase FlowChartModel FlowChartSpec BinaryModel BinarySpec EvolveProofs.
Import ListNotations.
Open Scope string_scope.
Open Scope list_scope.

Lemma upd_same : forall A (f : string -> A) p v, upd f p v p = v.
Proof. intros. unfold upd. rewrite String.eqb_refl. reflexivity. Qed.
Lemma upd_other : forall A (f : string -> A) p q v, q <> p -> upd f p v q = f q.
Proof. intros. unfold upd. destruct (String.eqb_spec q p); congruence. Qed.

Fixpoint nodupb (l : list string) : bool :=
  match l with [] => true | x :: l' => negb (existsb (String.eqb x) l') && nodupb l' end.
Lemma nodupb_ok : forall l, nodupb l = true -> NoDup l.
Proof.
  induction l as [|x l IH]; intro H; [constructor|].
  cbn in H. apply andb_true_iff in H as [H1 H2]. constructor; [|auto].
  intro I. apply negb_true_iff in H1. rewrite <- not_true_iff_false in H1. apply H1.
  apply existsb_exists. exists x. split; [assumption|apply String.eqb_refl].
Qed.
Lemma BP_nodup : NoDup BINARYPROPERTIES.
Proof. apply nodupb_ok. reflexivity. Qed.
Lemma SP_nodup : NoDup STARPROPERTIES.
Proof. apply nodupb_ok. reflexivity. Qed.

(** ** Closed forms *)
Lemma append_cur : forall props c, cur (append_comp props c) = cur c.
Proof.
  unfold append_comp. induction props as [|p ps IH]; intro c; [reflexivity|].
  cbn [fold_left]. rewrite IH. reflexivity.
Qed.
Lemma append_cols : forall props c, cols (append_comp props c) = cols c.
Proof.
  unfold append_comp. induction props as [|p ps IH]; intro c; [reflexivity|].
  cbn [fold_left]. rewrite IH. reflexivity.
Qed.
Lemma append_hist_out : forall props c p, ~ In p props -> hist (append_comp props c) p = hist c p.
Proof.
  unfold append_comp. induction props as [|q ps IH]; intros c p H; [reflexivity|].
  cbn [fold_left]. rewrite IH by (intro; apply H; right; assumption).
  cbn [hist set_hist]. apply upd_other. intro; subst; apply H; left; reflexivity.
Qed.
Lemma append_hist_in : forall props c p, NoDup props -> In p props ->
  hist (append_comp props c) p = hist c p ++ [cur c p].
Proof.
  induction props as [|q ps IH]; intros c p ND H; [destruct H|].
  inversion ND as [|? ? Hn ND']; subst.
  change (append_comp (q :: ps) c) with (append_comp ps (set_hist c q (hist c q ++ [cur c q]))).
  destruct H as [->|H].
  - rewrite append_hist_out by assumption. cbn. apply upd_same.
  - rewrite IH by assumption. cbn [hist cur set_hist].
    rewrite upd_other by (intro; subst; contradiction). reflexivity.
Qed.

Lemma new_comp_spec : forall props v p, NoDup props -> In p props ->
  cur (new_comp props v) p = v p /\ hist (new_comp props v) p = [v p].
Proof.
  intros props v p ND HI. unfold new_comp.
  set (c0 := Comp (fun _ => VNone) (fun _ => []) (fun _ => None)). clearbody c0.
  revert c0. induction props as [|q ps IH]; intro c0; [destruct HI|].
  inversion ND as [|? ? Hn ND']; subst. cbn [fold_left]. destruct HI as [->|HI].
  - assert (O : forall l c, ~ In p l ->
      cur (fold_left (fun c q => set_hist (set_cur c q (v q)) q [v q]) l c) p = cur c p
      /\ hist (fold_left (fun c q => set_hist (set_cur c q (v q)) q [v q]) l c) p = hist c p).
    { induction l as [|x l IHl]; intros c N; [auto|]. cbn [fold_left].
      destruct (IHl (set_hist (set_cur c x (v x)) x [v x])) as [A B];
        [intro; apply N; right; assumption|].
      rewrite A, B. cbn. assert (p <> x) by (intro; subst; apply N; left; reflexivity).
      rewrite !upd_other by assumption. auto. }
    destruct (O ps (set_hist (set_cur c0 p (v p)) p [v p]) Hn) as [A B]. rewrite A, B. cbn.
    rewrite !upd_same. auto.
  - apply IH; assumption.
Qed.

(** ** Indices *)
Lemma py_nth_valid : forall A (l : list A) i, valid_index (length l) i ->
  exists v, py_nth l i = Some v /\ nth_error l (pos (length l) i) = Some v.
Proof.
  intros A l i [H1 H2]. unfold py_nth, pos.
  assert (E : (if i <? 0 then i + Z.of_nat (length l) else i)%Z = Z.of_nat (Z.to_nat (if i <? 0 then i + Z.of_nat (length l) else i)%Z)).
  { destruct (i <? 0)%Z eqn:N; [apply Z.ltb_lt in N|apply Z.ltb_ge in N]; rewrite Z2Nat.id; lia. }
  destruct ((if i <? 0 then i + Z.of_nat (length l) else i) <? 0)%Z eqn:N;
    [apply Z.ltb_lt in N; lia|].
  destruct (nth_error l (Z.to_nat (if i <? 0 then i + Z.of_nat (length l) else i)%Z)) eqn:F; [eauto|].
  apply nth_error_None in F. destruct (i <? 0)%Z eqn:N'; [apply Z.ltb_lt in N'|apply Z.ltb_ge in N']; lia.
Qed.
Lemma py_nth_invalid : forall A (l : list A) i, ~ valid_index (length l) i -> py_nth l i = None.
Proof.
  intros A l i H. unfold valid_index in H. unfold py_nth.
  destruct (i <? 0)%Z eqn:N; [apply Z.ltb_lt in N|apply Z.ltb_ge in N].
  - destruct (i + Z.of_nat (length l) <? 0)%Z eqn:M; [reflexivity|]. apply Z.ltb_ge in M. lia.
  - destruct (i <? 0)%Z; [reflexivity|]. apply nth_error_None. lia.
Qed.

(** What is kept by the slice [0:i+1]. *)
Definition kept (n : nat) (i : Z) : nat := if (i =? -1)%Z then 0 else S (pos n i).
Lemma py_prefix_kept : forall A (l : list A) i, valid_index (length l) i ->
  py_prefix l (i + 1) = firstn (kept (length l) i) l.
Proof.
  intros A l i [H1 H2]. unfold py_prefix, kept, pos.
  destruct (i =? -1)%Z eqn:E.
  - apply Z.eqb_eq in E. subst. reflexivity.
  - apply Z.eqb_neq in E. f_equal. destruct (i <? 0)%Z eqn:N; [apply Z.ltb_lt in N|apply Z.ltb_ge in N].
    + destruct (i + 1 <? 0)%Z eqn:M; [apply Z.ltb_lt in M; lia|apply Z.ltb_ge in M; lia].
    + destruct (i + 1 <? 0)%Z eqn:M; [apply Z.ltb_lt in M; lia|apply Z.ltb_ge in M; lia].
Qed.

Lemma restore_props_out : forall props i c c' r p, ~ In p props ->
  restore_props props i c = (c', r) -> cur c' p = cur c p /\ hist c' p = hist c p.
Proof.
  induction props as [|q ps IH]; intros i c c' r p N H; cbn in H; [inversion H; auto|].
  destruct (py_nth (hist c q) i); [|inversion H; auto].
  apply IH with (p := p) in H; [|intro; apply N; right; assumption].
  cbn in H. assert (p <> q) by (intro; subst; apply N; left; reflexivity).
  rewrite !upd_other in H by assumption. exact H.
Qed.
Lemma restore_props_cols : forall props i c c' r,
  restore_props props i c = (c', r) -> cols c' = cols c.
Proof.
  induction props as [|q ps IH]; intros i c c' r H; cbn in H; [inversion H; auto|].
  destruct (py_nth (hist c q) i); [|inversion H; auto].
  apply IH in H. exact H.
Qed.

Lemma restore_props_valid : forall props n i c,
  NoDup props -> comp_rows props n c -> valid_index n i ->
  exists c', restore_props props i c = (c', None)
    /\ (forall p, In p props -> nth_error (hist c p) (pos n i) = Some (cur c' p)
                               /\ hist c' p = firstn (kept n i) (hist c p)).
Proof.
  induction props as [|q ps IH]; intros n i c ND R V.
  - exists c. split; [reflexivity|]. intros p [].
  - inversion ND as [|? ? Hn ND']; subst. cbn [restore_props].
    assert (Lq : length (hist c q) = n) by (apply R; left; reflexivity).
    rewrite <- Lq in V. destruct (py_nth_valid _ _ _ V) as (v & E1 & E2). rewrite E1.
    rewrite py_prefix_kept by assumption. rewrite Lq in *.
    set (c1 := set_hist (set_cur c q v) q (firstn (kept n i) (hist c q))).
    assert (O : forall p, In p ps -> cur c1 p = cur c p /\ hist c1 p = hist c p).
    { intros p Hp. assert (p <> q) by (intro; subst; contradiction). unfold c1. cbn.
      rewrite !upd_other by assumption. auto. }
    destruct (IH n i c1 ND') as (c' & H & P); [|assumption|].
    { intros p Hp. destruct (O p Hp) as [_ ->]. apply R. right. assumption. }
    exists c'. split; [exact H|]. intros p [<-|Hp].
    + destruct (restore_props_out ps i c1 c' None q Hn H) as [-> ->]. unfold c1. cbn.
      rewrite !upd_same. auto.
    + destruct (P p Hp) as [A B]. destruct (O p Hp) as [_ E]. rewrite E in A, B. auto.
Qed.

Lemma restore_props_invalid : forall props n i c,
  props <> [] -> comp_rows props n c -> ~ valid_index n i ->
  restore_props props i c = (c, Some IndexError).
Proof.
  intros [|p ps] n i c NE R V; [congruence|]. cbn.
  rewrite py_nth_invalid; [reflexivity|]. rewrite (R p) by (left; reflexivity). assumption.
Qed.

Lemma restore_cols_ok : forall names i c, (forall p, In p names -> cols c p <> None) ->
  exists c', restore_cols names i c = (c', None) /\ cur c' = cur c /\ hist c' = hist c.
Proof.
  induction names as [|p ps IH]; intros i c P; [exists c; auto|].
  cbn. destruct (cols c p) as [l|] eqn:E; [|exfalso; apply (P p); [left; reflexivity|assumption]].
  destruct (IH i (set_col c p (py_prefix l (i + 1)))) as (c' & H & A & B).
  - intros q Hq. cbn. unfold upd. destruct (String.eqb q p); [discriminate|]. apply P. right. assumption.
  - exists c'. rewrite A, B. auto.
Qed.

Lemma restore_comp_valid : forall props names n i c,
  NoDup props -> comp_rows props n c -> valid_index n i ->
  (forall p, In p names -> cols c p <> None) ->
  exists c', restore_comp props names i c = (c', None)
    /\ (forall p, In p props -> nth_error (hist c p) (pos n i) = Some (cur c' p)
                               /\ hist c' p = firstn (kept n i) (hist c p)).
Proof.
  intros props names n i c ND R V P. unfold restore_comp.
  destruct (restore_props_valid props n i c ND R V) as (c1 & H & Q). rewrite H.
  pose proof (restore_props_cols _ _ _ _ _ H) as HC.
  destruct (restore_cols_ok names i c1) as (c2 & H2 & A & B).
  { intros p Hp. rewrite HC. auto. }
  exists c2. split; [exact H2|]. rewrite A, B. exact Q.
Qed.

Section R.
  Context {Ext : Type}.
  Implicit Types (pr : properties Ext).

  Lemma cols_present_b : forall pr b p, cols_present pr b ->
    In p (flat_map h_binary_cols (p_hooks pr)) -> cols (bc b) p <> None.
  Proof. intros pr b p [H _] HI. apply in_flat_map in HI as (h & Hh & Hp). eauto. Qed.
  Lemma cols_present_s1 : forall pr b p, cols_present pr b ->
    In p (flat_map h_star_cols (p_hooks pr)) -> cols (st1 b) p <> None.
  Proof. intros pr b p [_ H] HI. apply in_flat_map in HI as (h & Hh & Hp). eapply H; eauto. Qed.
  Lemma cols_present_s2 : forall pr b p, cols_present pr b ->
    In p (flat_map h_star_cols (p_hooks pr)) -> cols (st2 b) p <> None.
  Proof. intros pr b p [_ H] HI. apply in_flat_map in HI as (h & Hh & Hp). eapply H; eauto. Qed.

  Lemma restore_valid : forall pr n i b,
    rows n b -> valid_index n i -> cols_present pr b ->
    exists b', restore pr i b = (b', None) /\ is_record (pos n i) b b' /\ keeps (kept n i) b b'
      /\ verbose b' = verbose b.
  Proof.
    intros pr n i b (R0 & R1 & R2) V CP. unfold restore.
    destruct (restore_comp_valid BINARYPROPERTIES (flat_map h_binary_cols (p_hooks pr)) n i (bc b)
                BP_nodup R0 V (fun p => cols_present_b pr b p CP)) as (c & -> & P0).
    cbn [st1 st2 with_bc].
    destruct (restore_comp_valid STARPROPERTIES (flat_map h_star_cols (p_hooks pr)) n i (st1 b)
                SP_nodup R1 V (fun p => cols_present_s1 pr b p CP)) as (x & -> & P1).
    cbn [st2 with_stars].
    destruct (restore_comp_valid STARPROPERTIES (flat_map h_star_cols (p_hooks pr)) n i (st2 b)
                SP_nodup R2 V (fun p => cols_present_s2 pr b p CP)) as (y & -> & P2).
    eexists. split; [reflexivity|]. cbn.
    split; [|split]; [split; [|split]|split; [|split]|reflexivity]; cbn;
      intros p Hp; try (apply P0; assumption); try (apply P1; assumption); apply P2; assumption.
  Qed.

  Lemma binary_eta : forall b, with_bc b (bc b) = b.
  Proof. intros []. reflexivity. Qed.

  Lemma restore_invalid : forall pr n i b,
    rows n b -> ~ valid_index n i -> restore pr i b = (b, Some IndexError).
  Proof.
    intros pr n i b (R0 & _) V. unfold restore, restore_comp.
    rewrite (restore_props_invalid BINARYPROPERTIES n i (bc b)); [|discriminate|assumption|assumption].
    rewrite binary_eta. reflexivity.
  Qed.

  Lemma kept_normal : forall n i, i <> (-1)%Z -> kept n i = S (pos n i).
  Proof. intros n i H. unfold kept. apply Z.eqb_neq in H. rewrite H. reflexivity. Qed.
  Lemma kept_minus1 : forall n, kept n (-1) = 0.
  Proof. reflexivity. Qed.
  Lemma pos_lt : forall n i, valid_index n i -> pos n i < n.
  Proof.
    intros n i [H1 H2]. unfold pos.
    destruct (i <? 0)%Z eqn:N; [apply Z.ltb_lt in N|apply Z.ltb_ge in N]; lia.
  Qed.
  Lemma kept_le : forall n i, valid_index n i -> kept n i <= n.
  Proof.
    intros n i V. pose proof (pos_lt n i V). unfold kept. destruct (i =? -1)%Z; lia.
  Qed.

  Lemma keeps_rows_n : forall n m b b', rows n b -> m <= n -> keeps m b b' -> rows m b'.
  Proof.
    intros n m b b' (R0 & R1 & R2) L (K0 & K1 & K2).
    split; [|split]; intros p Hp.
    - rewrite (K0 p Hp), firstn_length, (R0 p Hp). lia.
    - rewrite (K1 p Hp), firstn_length, (R1 p Hp). lia.
    - rewrite (K2 p Hp), firstn_length, (R2 p Hp). lia.
  Qed.

  Lemma restore_nonneg : forall pr n i b, rows n b -> i < n -> cols_present pr b ->
    exists b', restore pr (Z.of_nat i) b = (b', None) /\ is_record i b b' /\ keeps (S i) b b'
      /\ rows (S i) b' /\ verbose b' = verbose b.
  Proof.
    intros pr n i b R L CP.
    assert (V : valid_index n (Z.of_nat i)) by (unfold valid_index; lia).
    destruct (restore_valid pr n _ b R V CP) as (b' & H & A & B & C).
    assert (E : pos n (Z.of_nat i) = i).
    { unfold pos. destruct (Z.of_nat i <? 0)%Z eqn:N; [apply Z.ltb_lt in N; lia|apply Nat2Z.id]. }
    rewrite kept_normal in B by lia. rewrite E in *.
    exists b'. repeat (split; [assumption|]). split; [|assumption].
    eapply keeps_rows_n; [exact R|lia|exact B].
  Qed.

  Lemma firstn_nth : forall A (l : list A) n j, j < n -> nth_error (firstn n l) j = nth_error l j.
  Proof.
    induction l as [|x l IH]; intros [|n] [|j] H; cbn; try lia; try reflexivity.
    apply IH. lia.
  Qed.

  Lemma comp_record_same : forall props i j c0 c1 c2 c3, i <= j ->
    comp_keeps props (S j) c0 c1 ->
    comp_is_record props i c1 c2 -> comp_keeps props (S i) c1 c2 ->
    comp_is_record props i c0 c3 -> comp_keeps props (S i) c0 c3 ->
    comp_same props c2 c3.
  Proof.
    intros props i j c0 c1 c2 c3 L K1 I2 K2 I3 K3 p Hp.
    specialize (K1 p Hp). specialize (I2 p Hp). specialize (K2 p Hp). specialize (I3 p Hp). specialize (K3 p Hp).
    rewrite K1 in I2, K2. rewrite firstn_nth in I2 by lia. rewrite firstn_firstn in K2.
    rewrite Nat.min_l in K2 by lia. split; congruence.
  Qed.

  (** restore(i) after restore(j), i <= j, is restore(i). *)
  Lemma restore_compose : forall pr n i j b b1 b2 b3,
    rows n b -> j < n -> i <= j -> cols_present pr b -> cols_present pr b1 ->
    restore pr (Z.of_nat j) b = (b1, None) ->
    restore pr (Z.of_nat i) b1 = (b2, None) ->
    restore pr (Z.of_nat i) b = (b3, None) ->
    same b2 b3.
  Proof.
    intros pr n i j b b1 b2 b3 R Lj Lij CP CP1 H1 H2 H3.
    destruct (restore_nonneg pr n j b R Lj CP) as (x1 & E1 & I1 & K1 & R1 & _).
    rewrite H1 in E1. inversion E1; subst x1.
    destruct (restore_nonneg pr (S j) i b1 R1) as (x2 & E2 & I2 & K2 & _); [lia|assumption|].
    rewrite H2 in E2. inversion E2; subst x2.
    destruct (restore_nonneg pr n i b R) as (x3 & E3 & I3 & K3 & _); [lia|assumption|].
    rewrite H3 in E3. inversion E3; subst x3.
    destruct K1 as (K10 & K11 & K12), I2 as (I20 & I21 & I22), K2 as (K20 & K21 & K22),
      I3 as (I30 & I31 & I32), K3 as (K30 & K31 & K32).
    split; [|split].
    - exact (comp_record_same _ i j _ _ _ _ Lij K10 I20 K20 I30 K30).
    - exact (comp_record_same _ i j _ _ _ _ Lij K11 I21 K21 I31 K31).
    - exact (comp_record_same _ i j _ _ _ _ Lij K12 I22 K22 I32 K32).
  Qed.

  (** restore keeps declared columns present. *)
  Lemma restore_cols_present : forall names i c c' r q,
    restore_cols names i c = (c', r) -> cols c q <> None -> cols c' q <> None.
  Proof.
    induction names as [|p ps IH]; intros i c c' r q H N; cbn in H; [inversion H; subst; assumption|].
    destruct (cols c p); [|inversion H; subst; assumption].
    apply IH with (q := q) in H; [assumption|]. cbn. unfold upd.
    destruct (String.eqb q p); [discriminate|assumption].
  Qed.
  Lemma restore_comp_present : forall props names i c c' r q,
    restore_comp props names i c = (c', r) -> cols c q <> None -> cols c' q <> None.
  Proof.
    intros props names i c c' r q H N. unfold restore_comp in H.
    destruct (restore_props props i c) as [c1 [e|]] eqn:E.
    - inversion H; subst. rewrite (restore_props_cols _ _ _ _ _ E). assumption.
    - eapply restore_cols_present; [exact H|]. rewrite (restore_props_cols _ _ _ _ _ E). assumption.
  Qed.
  Lemma cp_bin : forall pr (b b' : binary), 
    (forall q, cols (bc b) q <> None -> cols (bc b') q <> None) ->
    (forall q, cols (st1 b) q <> None -> cols (st1 b') q <> None) ->
    (forall q, cols (st2 b) q <> None -> cols (st2 b') q <> None) ->
    cols_present pr b -> cols_present pr b'.
  Proof.
    intros pr b b' H0 H1 H2 [CP1 CP2]. split.
    - intros h p Hh Hp. apply H0. exact (CP1 h p Hh Hp).
    - intros h p Hh Hp. destruct (CP2 h p Hh Hp) as [A B]. split; [apply H1|apply H2]; assumption.
  Qed.
  Strategy opaque [restore_comp].
  Lemma restore_present : forall pr i b b' r,
    restore pr i b = (b', r) -> cols_present pr b -> cols_present pr b'.
  Proof.
    intros pr i b b' r H. unfold restore in H.
    set (bcn := flat_map h_binary_cols (p_hooks pr)) in H.
    set (scn := flat_map h_star_cols (p_hooks pr)) in H. cbv zeta in H.
    destruct (restore_comp BINARYPROPERTIES bcn i (bc b)) as [c r0] eqn:E0.
    pose proof (fun q => restore_comp_present _ _ _ _ _ _ q E0) as P0. clear E0.
    destruct r0 as [e|]; [apply (f_equal fst) in H; cbn [fst] in H; subst b'; apply cp_bin; auto|].
    change (st1 (with_bc b c)) with (st1 b) in H.
    destruct (restore_comp STARPROPERTIES scn i (st1 b)) as [x r1] eqn:E1.
    pose proof (fun q => restore_comp_present _ _ _ _ _ _ q E1) as P1. clear E1.
    destruct r1 as [e|]; [apply (f_equal fst) in H; cbn [fst] in H; subst b'; apply cp_bin; auto|].
    change (st2 (with_stars (with_bc b c) x (st2 (with_bc b c)))) with (st2 b) in H.
    destruct (restore_comp STARPROPERTIES scn i (st2 b)) as [y r2] eqn:E2.
    pose proof (fun q => restore_comp_present _ _ _ _ _ _ q E2) as P2. clear E2.
    apply (f_equal fst) in H; cbn [fst] in H; subst b'; apply cp_bin; auto.
  Qed.
  Strategy transparent [restore_comp].
End R.

(** ** append_state *)
Lemma append_state_recorded : forall b, unrecorded b = false -> grew b (append_state b).
Proof.
  intros b U. unfold append_state. rewrite U.
  split; [|split]; intros p Hp; cbn [bc st1 st2]; rewrite append_cur; (split; [reflexivity|]);
    apply append_hist_in; auto using BP_nodup, SP_nodup.
Qed.
Lemma append_state_unrecorded : forall b, unrecorded b = true -> append_state b = b.
Proof. intros b U. unfold append_state. rewrite U. reflexivity. Qed.

Lemma comp_grew_rows : forall props n c0 c, comp_rows props n c0 -> comp_grew props c0 c ->
  comp_rows props (S n) c.
Proof.
  intros props n c0 c R G p Hp. destruct (G p Hp) as [_ ->].
  rewrite app_length, (R p Hp). cbn. lia.
Qed.
Lemma append_state_rows : forall n b, rows n b ->
  rows (if unrecorded b then n else S n) (append_state b).
Proof.
  intros n b R. destruct (unrecorded b) eqn:U.
  - rewrite append_state_unrecorded by assumption. assumption.
  - destruct (append_state_recorded b U) as (G0 & G1 & G2). destruct R as (R0 & R1 & R2).
    split; [|split].
    + exact (comp_grew_rows _ _ _ _ R0 G0).
    + exact (comp_grew_rows _ _ _ _ R1 G1).
    + exact (comp_grew_rows _ _ _ _ R2 G2).
Qed.

Lemma new_binary_rows : forall v v1 v2 vb, rows 1 (new_binary v v1 v2 vb).
Proof.
  intros. split; [|split]; intros p Hp; unfold new_binary; cbn [bc st1 st2].
  - destruct (new_comp_spec BINARYPROPERTIES v p BP_nodup Hp) as [_ ->]. reflexivity.
  - destruct (new_comp_spec STARPROPERTIES v1 p SP_nodup Hp) as [_ ->]. reflexivity.
  - destruct (new_comp_spec STARPROPERTIES v2 p SP_nodup Hp) as [_ ->]. reflexivity.
Qed.

(** ** Sessions keep rows aligned *)
Section S.
  Context {Ext : Type}.
  Implicit Types (pr : properties Ext) (w : world Ext).
  Definition arows (b : binary) := exists n, rows n b.

  Lemma call_all_rows : forall l w w' r,
    (forall c a, In (c, a) l -> keeps_rows a) -> call_all l w = (w', r) ->
    arows (wb w) -> arows (wb w').
  Proof.
    induction l as [|[c a] l IH]; intros w w' r K H R; cbn in H; [inversion H; subst; assumption|].
    unfold call in H. destruct (a (wb w) (we w)) as [[b e] o] eqn:E.
    assert (Rb : arows b) by (eapply (K c a); [left; reflexivity|exact E|exact R]).
    destruct o; [inversion H; subst; exact Rb|].
    eapply IH; [|exact H|exact Rb]. intros c' a' HI. apply (K c' a'). right. assumption.
  Qed.

  Lemma in_number : forall A B (f : hook_id -> B) (g : A -> actor Ext) l c a,
    In (c, a) (number f g l) -> exists x, In x l /\ a = g x.
  Proof.
    intros A B f g l c a H. unfold number in H. apply in_map_iff in H as ([n x] & E & H).
    inversion E; subst. apply in_combine_r in H. eauto.
  Qed.
  Lemma in_extra : forall B (f : hook_id -> B) (o : option (actor Ext)) c a,
    In (c, a) (extra f o) -> o = Some a.
  Proof. intros B f [x|] c a H; cbn in H; [destruct H as [H|[]]; inversion H; reflexivity|destruct H]. Qed.

  Lemma run_step_rows : forall pr w w' r, well_behaved pr ->
    run_step pr w = (w', r) -> arows (wb w) -> arows (wb w').
  Proof.
    intros pr w w' r (WS & WH & _ & _ & WE3 & WE4) H R. unfold run_step in H.
    destruct (inb key_eqb _ UNDEFINED_STATES); [inversion H; subst; assumption|].
    destruct (p_flow pr (total_state (wb w))) as [s|]; [|inversion H; subst; assumption].
    destruct (p_step pr s) as [f|] eqn:F; [|inversion H; subst; assumption].
    destruct (call_all (pre_step_calls pr s) _) as [w1 r1] eqn:E1.
    assert (R1 : arows (wb w1)).
    { eapply call_all_rows; [|exact E1|exact R]. intros c a HI. apply in_app_or in HI as [HI|HI].
      - apply in_number in HI as (h & Hh & ->). destruct (WH h Hh) as (_ & _ & K). apply K.
      - apply in_extra in HI. destruct (p_extra_pre_step pr) as [g|] eqn:G; [|discriminate].
        cbn in HI. inversion HI; subst. eapply WE3; eauto. }
    destruct r1; [inversion H; subst; assumption|].
    unfold call in H. destruct (f (wb w1) (we w1)) as [[b2 e2] o] eqn:E2.
    assert (R2 : arows b2) by (eapply (WS s f F); [exact E2|exact R1]).
    destruct o; [inversion H; subst; exact R2|]. cbn [wb we walarm wlog] in H.
    assert (R3 : arows (append_state b2)).
    { destruct R2 as [n R2]. eexists. apply append_state_rows. exact R2. }
    unfold post_step, log in H. cbn [wb we walarm wlog] in H. destruct (unrecorded (append_state b2)).
    - inversion H; subst. exact R3.
    - eapply call_all_rows; [|exact H|exact R3]. intros c a HI. apply in_app_or in HI as [HI|HI].
      + apply in_number in HI as (h & Hh & ->). destruct (WH h Hh) as (_ & _ & K). apply K.
      + apply in_extra in HI. destruct (p_extra_post_step pr) as [g|] eqn:G; [|discriminate].
        cbn in HI. inversion HI; subst. eapply WE4; eauto.
  Qed.

  Lemma loop_rows : forall pr fuel n w w' r, well_behaved pr ->
    evolve_loop pr fuel n w = Some (w', r) -> arows (wb w) -> arows (wb w').
  Proof.
    intros pr fuel. induction fuel as [|fuel IH]; intros n w w' r W H R; [discriminate|].
    cbn [evolve_loop] in H. destruct (terminal pr (wb w)); [inversion H; subst; assumption|].
    destruct (run_step pr (set_alarm w MAXIMUM_STEP_TIME)) as [w1 r1] eqn:E.
    assert (R1 : arows (wb w1)) by (eapply run_step_rows; [exact W|exact E|exact R]).
    destruct r1; [inversion H; subst; assumption|].
    destruct (p_max_n pr) as [m|]; [destruct (n + 1 >? m)%Z; [inversion H; subst; assumption|]|];
      eapply IH; eauto.
  Qed.

  Lemma evolve_rows : forall pr fuel w w' r, well_behaved pr ->
    evolve pr fuel w = Some (w', r) -> arows (wb w) -> arows (wb w').
  Proof.
    intros pr fuel w w' r W H R. unfold evolve in H.
    destruct W as (WS & WH & WE1 & WE2 & WE3 & WE4).
    destruct (call_all (pre_evolve_calls pr) w) as [w1 r1] eqn:E1.
    assert (R1 : arows (wb w1)).
    { eapply call_all_rows; [|exact E1|exact R]. intros c a HI. apply in_app_or in HI as [HI|HI].
      - apply in_number in HI as (h & Hh & ->). apply (WH h Hh).
      - apply in_extra in HI. eauto. }
    destruct r1; [inversion H; subst; assumption|].
    destruct (birth_check pr (wb w1)); [inversion H; subst; assumption|].
    destruct (evolve_loop pr fuel 0 w1) as [[w2 r2]|] eqn:E2; [|discriminate].
    assert (R2 : arows (wb w2)).
    { eapply loop_rows; [|exact E2|exact R1]. repeat split; eauto; eapply WH; eauto. }
    destruct r2; [inversion H; subst; exact R2|]. injection H as H.
    eapply call_all_rows; [|exact H|exact R2]. intros c a HI. apply in_app_or in HI as [HI|HI].
    - apply in_number in HI as (h & Hh & ->). apply (WH h Hh).
    - apply in_extra in HI. eauto.
  Qed.

  Lemma restore_arows : forall pr i b b' r, cols_present pr b ->
    restore pr i b = (b', r) -> arows b -> arows b'.
  Proof.
    intros pr i b b' r CP H [n R].
    destruct (Z_le_dec (- Z.of_nat n) i) as [L1|L1]; [destruct (Z_lt_dec i (Z.of_nat n)) as [L2|L2]|].
    - assert (V : valid_index n i) by (split; assumption).
      destruct (restore_valid pr n i b R V CP) as (b1 & E & _ & K & _).
      rewrite H in E. inversion E; subst. eexists. eapply keeps_rows_n; [exact R| |exact K].
      apply kept_le. assumption.
    - rewrite (restore_invalid pr n i b R) in H by (unfold valid_index; lia).
      inversion H; subst. exists n. assumption.
    - rewrite (restore_invalid pr n i b R) in H by (unfold valid_index; lia).
      inversion H; subst. exists n. assumption.
  Qed.

  Lemma set_cur_rows : forall props n c p v, comp_rows props n c -> comp_rows props n (set_cur c p v).
  Proof. intros props n c p v R q Hq. cbn. apply R. assumption. Qed.
  Lemma set_hist_rows : forall props n c p l, comp_rows props n c -> length l = n ->
    comp_rows props n (set_hist c p l).
  Proof.
    intros props n c p l R L q Hq. cbn. unfold upd. destruct (String.eqb q p); [assumption|].
    apply R. assumption.
  Qed.

  Ltac inprops := cbn; repeat (first [left; reflexivity|right]).
  Lemma flip_rows : forall n b, rows n b -> rows n (flip_stars b).
  Proof.
    intros n b (R0 & R1 & R2). split; [|split]; cbn [bc st1 st2 flip_stars with_stars with_bc];
      [|exact R2|exact R1].
    set (c0 := bc b) in *.
    assert (G : forall c p1 p2, comp_rows BINARYPROPERTIES n c -> In p1 BINARYPROPERTIES ->
      In p2 BINARYPROPERTIES -> comp_rows BINARYPROPERTIES n (swap_props p1 p2 c)).
    { intros c p1 p2 R H1 H2. unfold swap_props.
      apply set_hist_rows; [apply set_hist_rows; [do 2 apply set_cur_rows; assumption|]|]; apply R; assumption. }
    unfold flip_stars. cbn [bc with_stars with_bc]. fold c0.
    apply G; [apply G; [apply G|..]|..]; try (inprops; fail).
    apply set_hist_rows; [apply set_hist_rows; [do 2 apply set_cur_rows; assumption|]|].
    - rewrite map_length. cbn. apply R0. inprops.
    - rewrite map_length. cbn. unfold upd. cbn. apply R0. inprops.
  Qed.

  Lemma session_rows : forall pr w, well_behaved pr -> session pr w -> exists n, rows n (wb w).
  Proof.
    intros pr w W S. induction S.
    - exists 1. apply new_binary_rows.
    - eapply run_step_rows; eauto.
    - eapply evolve_rows; eauto.
    - destruct IHS as [n R]. eexists. apply append_state_rows. exact R.
    - cbn. eapply restore_arows; eauto.
    - destruct IHS as [n (R0 & R1 & R2)]. exists n. split; [|split]; assumption.
    - destruct IHS as [n R]. exists n. apply flip_rows. exact R.
    - destruct IHS as [n (R0 & R1 & R2)]. eexists. cbn. apply append_state_rows.
      instantiate (1 := n). split; [|split]; cbn; [do 2 apply set_cur_rows|..]; assumption.
  Qed.

  Lemma only_assigns_keeps : forall a : actor Ext, only_assigns a -> keeps_rows a.
  Proof.
    intros a O b e b' e' r E [n (R0 & R1 & R2)]. destruct (O _ _ _ _ _ E) as (H0 & H1 & H2).
    exists n. split; [|split]; intros p Hp; rewrite ?H0, ?H1, ?H2; auto.
  Qed.
End S.

(** ** Existence *)
Lemma who_codes : forall c1 c2,
  let '(e1, e2, code) := check_who_exists c1 c2 in
  (e1 = true <-> exists v, c1 = Some v /\ v <> VStr "massless_remnant")
  /\ (e2 = true <-> exists v, c2 = Some v /\ v <> VStr "massless_remnant")
  /\ (code = 0%Z <-> e1 = true /\ e2 = true) /\ (code = 1%Z <-> e1 = false /\ e2 = true)
  /\ (code = 2%Z <-> e1 = true /\ e2 = false) /\ (code = (-1)%Z <-> e1 = false /\ e2 = false).
Proof.
  intros c1 c2. unfold check_who_exists.
  assert (G : forall c, component_exists c = true <-> exists v, c = Some v /\ v <> VStr "massless_remnant").
  { intros [v|]; cbn; unfold val_eqb.
    - destruct (val_eq_dec v (VStr "massless_remnant")) as [E|E]; cbn; split; intro H.
      + discriminate. + destruct H as (v' & H & N). congruence. + eauto. + reflexivity.
    - split; [discriminate|]. intros (v & H & _). discriminate. }
  split; [apply G|]. split; [apply G|].
  destruct (component_exists c1), (component_exists c2); cbn; repeat split; intros; try discriminate;
    try tauto; destruct H; discriminate.
Qed.

Lemma who_mirror : forall c1 c2 e1 e2 k f1 f2 k',
  check_who_exists c1 c2 = (e1, e2, k) -> check_who_exists c2 c1 = (f1, f2, k') ->
  f1 = e2 /\ f2 = e1 /\ (k = 1%Z <-> k' = 2%Z) /\ (k = 2%Z <-> k' = 1%Z)
  /\ (k = 0%Z <-> k' = 0%Z) /\ (k = (-1)%Z <-> k' = (-1)%Z).
Proof.
  intros c1 c2 e1 e2 k f1 f2 k' H1 H2. unfold check_who_exists in *.
  inversion H1; inversion H2; subst. split; [reflexivity|]. split; [reflexivity|].
  destruct (component_exists c1), (component_exists c2); cbn; repeat split; intro; try discriminate; reflexivity.
Qed.

Lemma switch_involution : forall b, switch_star (switch_star b) = b.
Proof. intros []. reflexivity. Qed.

(** ** flip_stars *)
Lemma flip_state_inv : forall v, flip_state_val (flip_state_val v) = v.
Proof.
  intro v. unfold flip_state_val at 2, val_eqb.
  destruct (val_eq_dec v (VStr "RLO1")) as [->|N1]; [reflexivity|].
  destruct (val_eq_dec v (VStr "RLO2")) as [->|N2]; [reflexivity|].
  unfold flip_state_val, val_eqb.
  destruct (val_eq_dec v (VStr "RLO1")); [contradiction|].
  destruct (val_eq_dec v (VStr "RLO2")); [contradiction|reflexivity].
Qed.
Lemma flip_event_inv : forall v, flip_event_val (flip_event_val v) = v.
Proof.
  intro v. unfold flip_event_val at 2, val_eqb.
  destruct (val_eq_dec v (VStr "CC1")) as [->|N1]; [reflexivity|].
  destruct (val_eq_dec v (VStr "CC2")) as [->|N2]; [reflexivity|].
  destruct (val_eq_dec v (VStr "oCE1")) as [->|N3]; [reflexivity|].
  destruct (val_eq_dec v (VStr "oCE2")) as [->|N4]; [reflexivity|].
  destruct (val_eq_dec v (VStr "oRLO1")) as [->|N5]; [reflexivity|].
  destruct (val_eq_dec v (VStr "oRLO2")) as [->|N6]; [reflexivity|].
  unfold flip_event_val, val_eqb.
  destruct (val_eq_dec v (VStr "CC1")); [contradiction|].
  destruct (val_eq_dec v (VStr "CC2")); [contradiction|].
  destruct (val_eq_dec v (VStr "oCE1")); [contradiction|].
  destruct (val_eq_dec v (VStr "oCE2")); [contradiction|].
  destruct (val_eq_dec v (VStr "oRLO1")); [contradiction|].
  destruct (val_eq_dec v (VStr "oRLO2")); [contradiction|]. reflexivity.
Qed.

Lemma map_inv : forall A (f : A -> A) l, (forall x, f (f x) = x) -> map f (map f l) = l.
Proof. intros A f l H. rewrite map_map. rewrite <- (map_id l) at 2. apply map_ext. exact H. Qed.

(** Where each quantity goes. *)
Definition flip_name (p : string) : string :=
  if String.eqb p "t_sync_rad_1" then "t_sync_rad_2" else
  if String.eqb p "t_sync_rad_2" then "t_sync_rad_1" else
  if String.eqb p "t_sync_conv_1" then "t_sync_conv_2" else
  if String.eqb p "t_sync_conv_2" then "t_sync_conv_1" else
  if String.eqb p "rl_relative_overflow_1" then "rl_relative_overflow_2" else
  if String.eqb p "rl_relative_overflow_2" then "rl_relative_overflow_1" else p.
Definition flip_val (p : string) (v : val) : val :=
  if String.eqb p "state" then flip_state_val v
  else if String.eqb p "event" then flip_event_val v else v.

Lemma flip_cur : forall b p, cur (bc (flip_stars b)) p = flip_val p (cur (bc b) (flip_name p)).
Proof.
  intros b p. unfold flip_stars, swap_props, flip_val, flip_name.
  cbn [bc with_stars with_bc cur set_cur set_hist hist]. unfold upd.
  destruct (String.eqb_spec p "t_sync_rad_1") as [->|N1]; [reflexivity|].
  destruct (String.eqb_spec p "t_sync_rad_2") as [->|N2]; [reflexivity|].
  destruct (String.eqb_spec p "t_sync_conv_1") as [->|N3]; [reflexivity|].
  destruct (String.eqb_spec p "t_sync_conv_2") as [->|N4]; [reflexivity|].
  destruct (String.eqb_spec p "rl_relative_overflow_1") as [->|N5]; [reflexivity|].
  destruct (String.eqb_spec p "rl_relative_overflow_2") as [->|N6]; [reflexivity|].
  destruct (String.eqb_spec p "event") as [->|N7]; [reflexivity|].
  destruct (String.eqb_spec p "state") as [->|N8]; reflexivity.
Qed.
Lemma flip_hist : forall b p,
  hist (bc (flip_stars b)) p = map (flip_val p) (hist (bc b) (flip_name p)).
Proof.
  intros b p. unfold flip_stars, swap_props, flip_val, flip_name.
  cbn [bc with_stars with_bc cur set_cur set_hist hist]. unfold upd.
  destruct (String.eqb_spec p "t_sync_rad_1") as [->|N1]; [cbn; symmetry; apply map_id|].
  destruct (String.eqb_spec p "t_sync_rad_2") as [->|N2]; [cbn; symmetry; apply map_id|].
  destruct (String.eqb_spec p "t_sync_conv_1") as [->|N3]; [cbn; symmetry; apply map_id|].
  destruct (String.eqb_spec p "t_sync_conv_2") as [->|N4]; [cbn; symmetry; apply map_id|].
  destruct (String.eqb_spec p "rl_relative_overflow_1") as [->|N5]; [cbn; symmetry; apply map_id|].
  destruct (String.eqb_spec p "rl_relative_overflow_2") as [->|N6]; [cbn; symmetry; apply map_id|].
  destruct (String.eqb_spec p "event") as [->|N7]; [reflexivity|].
  destruct (String.eqb_spec p "state") as [->|N8]; [reflexivity|]. symmetry; apply map_id.
Qed.

Lemma flip_name_inv : forall p, flip_name (flip_name p) = p.
Proof.
  intro p. unfold flip_name at 2.
  destruct (String.eqb_spec p "t_sync_rad_1") as [->|N1]; [reflexivity|].
  destruct (String.eqb_spec p "t_sync_rad_2") as [->|N2]; [reflexivity|].
  destruct (String.eqb_spec p "t_sync_conv_1") as [->|N3]; [reflexivity|].
  destruct (String.eqb_spec p "t_sync_conv_2") as [->|N4]; [reflexivity|].
  destruct (String.eqb_spec p "rl_relative_overflow_1") as [->|N5]; [reflexivity|].
  destruct (String.eqb_spec p "rl_relative_overflow_2") as [->|N6]; [reflexivity|].
  unfold flip_name. rewrite <- String.eqb_neq in N1, N2, N3, N4, N5, N6.
  rewrite N1, N2, N3, N4, N5, N6. reflexivity.
Qed.
Lemma flip_val_inv : forall p v, flip_val p (flip_val (flip_name p) v) = v.
Proof.
  intros p v. unfold flip_name.
  destruct (String.eqb_spec p "t_sync_rad_1") as [->|N1]; [reflexivity|].
  destruct (String.eqb_spec p "t_sync_rad_2") as [->|N2]; [reflexivity|].
  destruct (String.eqb_spec p "t_sync_conv_1") as [->|N3]; [reflexivity|].
  destruct (String.eqb_spec p "t_sync_conv_2") as [->|N4]; [reflexivity|].
  destruct (String.eqb_spec p "rl_relative_overflow_1") as [->|N5]; [reflexivity|].
  destruct (String.eqb_spec p "rl_relative_overflow_2") as [->|N6]; [reflexivity|].
  unfold flip_val. destruct (String.eqb_spec p "state"); [apply flip_state_inv|].
  destruct (String.eqb_spec p "event"); [apply flip_event_inv|reflexivity].
Qed.

Lemma flip_involution : forall b,
  (forall p, cur (bc (flip_stars (flip_stars b))) p = cur (bc b) p)
  /\ (forall p, hist (bc (flip_stars (flip_stars b))) p = hist (bc b) p)
  /\ st1 (flip_stars (flip_stars b)) = st1 b /\ st2 (flip_stars (flip_stars b)) = st2 b
  /\ cols (bc (flip_stars (flip_stars b))) = cols (bc b).
Proof.
  intro b. split; [|split; [|repeat split]].
  - intro p. rewrite !flip_cur, flip_name_inv, flip_val_inv. reflexivity.
  - intro p. rewrite !flip_hist, flip_name_inv, map_map.
    rewrite <- (map_id (hist (bc b) p)) at 2. apply map_ext. intro v. apply flip_val_inv.
Qed.

(** Parsing back names *)
Lemma parse_bin_name : forall v x, parse_bin v = x -> known_bin x = true -> v = VStr (bin_name x).
Proof.
  intros v x H K. unfold parse_bin in H. destruct v; try (subst; discriminate).
  destruct (find _ _) as [y|] eqn:F; [|subst; discriminate]. subst y.
  apply find_some in F as [_ E]. apply String.eqb_eq in E. subst. reflexivity.
Qed.
Lemma parse_event_name : forall v x, parse_event v = x ->
  (forall n, x <> EOther n) -> v = event_val x.
Proof.
  intros v x H K. unfold parse_event in H. destruct v; try (subst; exfalso; eapply K; reflexivity).
  - subst. reflexivity.
  - destruct (find _ _) as [y|] eqn:F; [|subst; exfalso; eapply K; reflexivity]. subst y.
    apply find_some in F as [_ E]. unfold val_eqb in E.
    destruct (val_eq_dec (event_val x) (VStr s)); [congruence|discriminate].
Qed.

Lemma parse_flip_bin : forall v, parse_bin (flip_state_val v) = mirror_bin (parse_bin v).
Proof.
  intro v. unfold flip_state_val, val_eqb.
  destruct (val_eq_dec v (VStr "RLO1")) as [->|N1]; [reflexivity|].
  destruct (val_eq_dec v (VStr "RLO2")) as [->|N2]; [reflexivity|].
  destruct (parse_bin v) eqn:E; try reflexivity;
    apply parse_bin_name in E; try reflexivity; contradiction.
Qed.

(** Labelled events that flip_stars does not exchange. *)
Definition unflipped_event (e : event) : bool :=
  match e with oDoubleCE1 | oDoubleCE2 | oMerging1 | oMerging2 | Match1 | Match2 => true | _ => false end.

Lemma parse_flip_event : forall v, unflipped_event (parse_event v) = false ->
  parse_event (flip_event_val v) = mirror_event (parse_event v).
Proof.
  intros v U. unfold flip_event_val, val_eqb.
  destruct (val_eq_dec v (VStr "CC1")) as [->|N1]; [reflexivity|].
  destruct (val_eq_dec v (VStr "CC2")) as [->|N2]; [reflexivity|].
  destruct (val_eq_dec v (VStr "oCE1")) as [->|N3]; [reflexivity|].
  destruct (val_eq_dec v (VStr "oCE2")) as [->|N4]; [reflexivity|].
  destruct (val_eq_dec v (VStr "oRLO1")) as [->|N5]; [reflexivity|].
  destruct (val_eq_dec v (VStr "oRLO2")) as [->|N6]; [reflexivity|].
  destruct (parse_event v) eqn:E; try reflexivity; try discriminate;
    apply parse_event_name in E; try (intros n; discriminate); contradiction.
Qed.
Lemma parse_flip_event_bad : forall v, unflipped_event (parse_event v) = true ->
  parse_event (flip_event_val v) = parse_event v.
Proof.
  intros v U.
  destruct (parse_event v) eqn:E; try discriminate;
    apply parse_event_name in E; try (intros n; discriminate); subst; reflexivity.
Qed.

Lemma flip_total_state : forall b,
  total_state (flip_stars b) = mirror_key (total_state b)
  <-> unflipped_event (parse_event (b_event b)) = false.
Proof.
  intro b.
  assert (E : total_state (flip_stars b)
    = Key (parse_star (star_state_of (st2 b))) (parse_star (star_state_of (st1 b)))
          (mirror_bin (parse_bin (b_state b))) (parse_event (flip_event_val (b_event b)))).
  { unfold total_state, b_state, b_event. rewrite !flip_cur.
    change (flip_val "state") with flip_state_val. change (flip_val "event") with flip_event_val.
    rewrite parse_flip_bin. reflexivity. }
  rewrite E. unfold mirror_key, total_state. cbn [k1 k2 kb ke]. split; intro H.
  - destruct (unflipped_event (parse_event (b_event b))) eqn:U; [|reflexivity].
    rewrite (parse_flip_event_bad _ U) in H. injection H as H.
    destruct (parse_event (b_event b)); discriminate.
  - rewrite parse_flip_event by assumption. reflexivity.
Qed.
