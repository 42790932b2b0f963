(** Proofs about weights, efficiencies and rates. *)
From Coq Require Import String List ZArith QArith Bool Lia PeanoNat.
From Verif Require Import PyBase PyList TableModel TableSpec TableProofs ExportModel ExportProofs RateModel.
Import ListNotations.
Open Scope string_scope.
Open Scope nat_scope.
Open Scope list_scope.

(** ** Model weights *)
Section Weights.
  Variable O : Type.
  Variable weight : Q -> O -> option Q.

  Lemma ascending_filter : forall (p : Z -> bool) l, ascending l -> ascending (filter p l).
  Proof using Type.
    induction l as [|x l IH]; intro A; [exact I|]. cbn [ascending] in A. destruct A as [A1 A2]. cbn [filter].
    destruct (p x); [|apply IH; exact A2]. cbn [ascending]. split; [|apply IH; exact A2].
    intros y Y. apply filter_In in Y. apply A1. tauto.
  Qed.

  Lemma keys_filter : forall A (p : Z -> bool) (t : table A), keys (filter (fun r => p (fst r)) t) = filter p (keys t).
  Proof using Type.
    intros. unfold keys. induction t as [|r t IH]; [reflexivity|]. cbn [filter map]. destruct (p (fst r)); cbn [map]; rewrite IH; reflexivity.
  Qed.

  Lemma combine_map_table : forall (pop : table O) (f : O -> option Q),
    combine (keys pop) (map (fun r => f (snd r)) pop) = map (fun r => (fst r, f (snd r))) pop.
  Proof using Type. intros. unfold keys. induction pop as [|r p IH]; [reflexivity|]. cbn [map combine]. rewrite IH. reflexivity. Qed.

  Lemma dset_all_nodup : forall (l : list (Z * option Q)) k v, NoDup (map fst l) -> In (k, v) l ->
    dget Z.eqb (dset_all Z.eqb [] l) k = Some v.
  Proof using Type.
    intros l k v ND I. rewrite (dget_dset_all Z.eqb_spec). 
    assert (last_write Z.eqb l k = Some v) as ->; [|reflexivity].
    revert ND I. induction l as [|[k0 v0] l IH]; intros ND I; [destruct I|].
    rewrite last_write_cons. cbn [map fst] in ND. apply NoDup_cons_iff in ND. destruct ND as [N ND].
    destruct I as [E|I].
    - assert (k0 = k /\ v0 = v) as [-> ->] by (split; congruence).
      assert (last_write Z.eqb l k = None) as ->.
      { clear -N. induction l as [|[k1 v1] l IH]; [reflexivity|]. rewrite last_write_cons. cbn [map In fst] in N.
        rewrite IH by tauto. destruct (Z.eqb_spec k k1); [exfalso; apply N; left; congruence | reflexivity]. }
      rewrite Z.eqb_refl. reflexivity.
    - rewrite IH by assumption. reflexivity.
  Qed.
  Lemma dset_all_none : forall (l : list (Z * option Q)) k, ~ In k (map fst l) -> dget Z.eqb (dset_all Z.eqb [] l) k = None.
  Proof using Type.
    intros l k N. rewrite (dget_dset_all Z.eqb_spec).
    assert (last_write Z.eqb l k = None) as ->; [|reflexivity].
    induction l as [|[k1 v1] l IH]; [reflexivity|]. rewrite last_write_cons. cbn [map In fst] in N.
    rewrite IH by tauto. destruct (Z.eqb_spec k k1); [exfalso; apply N; left; congruence | reflexivity].
  Qed.

  (** The weights one metallicity assigns, for a one-line table sorted by index. *)
  Lemma one_metallicity : forall (trans : table Z) (o : oneline O) met m old, 1 <= o_chunk o ->
    ascending (keys (o_rows o)) -> (forall i, In i (keys trans) -> In i (keys (o_rows o))) ->
    exists out, weights_of_metallicity O weight trans o met m old = Ok out /\
      length out = length old /\
      forall k i w, nth_error old k = Some (i, w) ->
        (In (i, met) trans -> forall x, In (i, x) (o_rows o) ->
            nth_error out k = Some (i, match weight m x with Some v => v | None => w end)) /\
        (~ In (i, met) trans -> nth_error out k = Some (i, w)).
  Proof using Type.
    intros trans o met m old C1 AS F. unfold weights_of_metallicity.
    set (ts := filter (fun r => Z.eqb (snd r) met) trans).
    assert (forall i, In i (sorted_unique (keys ts)) <-> In (i, met) trans) as IM.
    { intro i. rewrite sorted_unique_in. unfold ts, keys. split.
      - intro I. apply in_map_iff in I. destruct I as ([j z] & <- & I). apply filter_In in I. destruct I as [I Z].
        apply Z.eqb_eq in Z. cbn in *. subst z. exact I.
      - intro I. apply in_map_iff. exists (i, met). split; [reflexivity|]. apply filter_In. split; [exact I | apply Z.eqb_refl]. }
    destruct (sorted_unique (keys ts)) as [|i0 l0] eqn:SU.
    - exists old. split; [reflexivity|]. split; [reflexivity|]. intros k i w K. split; [|intros; exact K].
      intros I. apply IM in I. destruct I.
    - rewrite <- SU in *. 
      assert (select_in (o_chunk o) (o_rows o) (sorted_unique (keys ts)) = Ok (filter (fun r => zin (fst r) (sorted_unique (keys ts))) (o_rows o))) as SEL.
      { rewrite SU at 1. unfold select_in. rewrite SU. rewrite <- SU. unfold select_where. rewrite pd_concat_chunks by exact C1.
        destruct (filter (fun r => zin (fst r) (sorted_unique (keys ts))) (o_rows o)) as [|r rs] eqn:FE; [|reflexivity]. exfalso.
        assert (In i0 (sorted_unique (keys ts))) as I0 by (rewrite SU; left; reflexivity).
        pose proof (proj1 (IM i0) I0) as I1. apply (in_map fst) in I1. cbn [fst] in I1. apply F in I1.
        apply in_map_iff in I1. destruct I1 as (r & R1 & R2).
        assert (In r (filter (fun r => zin (fst r) (sorted_unique (keys ts))) (o_rows o))) as R3.
        { apply filter_In. split; [exact R2|]. rewrite R1. apply zin_iff. exact I0. }
        rewrite FE in R3. destruct R3. }
      rewrite SEL. cbn [rbind].
      set (pop := filter (fun r => zin (fst r) (sorted_unique (keys ts))) (o_rows o)) in *.
      assert (sorted_unique (keys ts) = keys pop) as KP.
      { apply ascending_unique; [apply sorted_unique_asc | |].
        - unfold pop. rewrite (keys_filter O (fun i => zin i (sorted_unique (keys ts)))). apply ascending_filter. exact AS.
        - intro i. unfold pop. rewrite (keys_filter O (fun i => zin i (sorted_unique (keys ts)))), filter_In, zin_iff.
          split; [|tauto]. intro I. split; [|exact I]. apply F. apply IM in I. apply (in_map fst) in I. exact I. }
      rewrite KP, combine_map_table.
      assert (NoDup (keys pop)) as NDP by (rewrite <- KP; apply ascending_nodup; apply sorted_unique_asc).
      assert (map fst (map (fun r : Z * O => (fst r, weight m (snd r))) pop) = keys pop) as MF by (rewrite map_map; reflexivity).
      destruct (sorted_unique (keys ts)); [discriminate SU|].
      eexists. split; [reflexivity|]. unfold map_weights. split; [apply map_length|].
      intros k i w K. split.
      + intros I x X.
        rewrite nth_map_error, K. cbn [option_map fst snd].
        assert (In (i, x) pop) as IP.
        { unfold pop. apply filter_In. split; [exact X|]. rewrite KP. cbn [fst]. apply zin_iff.
          rewrite <- KP. apply IM. exact I. }
        rewrite (dset_all_nodup _ i (weight m x)); [destruct (weight m x); reflexivity | rewrite MF; exact NDP|].
        apply in_map_iff. exists (i, x). split; [reflexivity | exact IP].
      + intros N. rewrite nth_map_error, K. cbn [option_map fst snd].
        rewrite dset_all_none; [reflexivity|]. rewrite MF, <- KP. intro I. apply N. apply IM. exact I.
  Qed.
End Weights.

(** All metallicities. *)
Lemma all_metallicities : forall O (weight : Q -> O -> option Q) (trans : table Z) (o : oneline O), 1 <= o_chunk o ->
  ascending (keys (o_rows o)) -> (forall i, In i (keys trans) -> In i (keys (o_rows o))) ->
  (forall i z1 z2, In (i, z1) trans -> In (i, z2) trans -> z1 = z2) ->
  forall masses old, NoDup (map fst masses) ->
  exists out, model_weights_loop O weight trans o masses old = Ok out /\ length out = length old /\
    forall k i w, nth_error old k = Some (i, w) ->
      (forall z m x, In (i, z) trans -> In (z, m) masses -> In (i, x) (o_rows o) ->
          nth_error out k = Some (i, match weight m x with Some v => v | None => w end)) /\
      (forall z, In (i, z) trans -> ~ In z (map fst masses) -> nth_error out k = Some (i, w)).
Proof.
  intros O weight trans o C1 AS F FU. induction masses as [|[z0 m0] masses IH]; intros old ND.
  - exists old. split; [reflexivity|]. split; [reflexivity|]. intros k i w K. split; [intros z m x _ [] | intros; exact K].
  - cbn [map fst] in ND. apply NoDup_cons_iff in ND. destruct ND as [N ND].
    cbn [model_weights_loop]. destruct (one_metallicity O weight trans o z0 m0 old C1 AS F) as (mid & E1 & L1 & P1).
    rewrite E1. cbn [rbind]. destruct (IH mid ND) as (out & E2 & L2 & P2). exists out. split; [exact E2|]. split; [lia|].
    intros k i w K. destruct (P1 k i w K) as [A1 A2]. split.
    + intros z m x Z1 [E|M] X.
      * assert (z0 = z /\ m0 = m) as [-> ->] by (split; congruence).
        specialize (A1 Z1 x X). destruct (P2 k i _ A1) as [_ B2]. apply (B2 z Z1 N).
      * assert (z <> z0) as NZ by (intros ->; apply N; apply (in_map fst) in M; exact M).
        assert (~ In (i, z0) trans) as NI by (intro I0; apply NZ; apply (FU i); assumption).
        specialize (A2 NI). destruct (P2 k i _ A2) as [B1 _]. apply (B1 z m x Z1 M X).
    + intros z Z1 NM. cbn [map fst In] in NM.
      assert (~ In (i, z0) trans) as NI by (intro I0; apply NM; left; apply (FU i); assumption).
      specialize (A2 NI). destruct (P2 k i _ A2) as [_ B2]. apply (B2 z Z1). tauto.
Qed.

(** ** Chunked loops *)
(** Number of rows covered: the smallest multiple of [c] not below the number of systems. *)
Definition covered (c systems : nat) : nat := c * ((systems + (c - 1)) / c).

Lemma window_split : forall A i c (l : list A), skipn i l = window i (i + c) l ++ skipn (i + c) l.
Proof.
  intros. unfold window. replace (i + c - i) with c by lia.
  rewrite <- (firstn_skipn c (skipn i l)) at 1. f_equal. 
  assert (forall a b (m : list A), skipn a (skipn b m) = skipn (b + a) m) as SS.
  { clear. intros a b. induction b as [|b IH]; intro m; [reflexivity|]. destruct m as [|x m]; [cbn; apply skipn_nil|]. cbn. apply IH. }
  apply SS.
Qed.

Lemma window_sub : forall A i c b (l : list A), i + c <= b -> window i (i + c) l ++ window (i + c) b l = window i b l.
Proof.
  intros A i c b l L. unfold window at 3. rewrite (window_split A i c l). rewrite firstn_app.
  assert (length (window i (i + c) l) <= b - i) as LW by (rewrite window_length; lia).
  rewrite firstn_all2 by exact LW. f_equal. unfold window.
  destruct (Nat.le_gt_cases (i + c) (length l)) as [LL|LL].
  - f_equal. rewrite firstn_length, skipn_length. lia.
  - rewrite !skipn_all2 by lia. rewrite !firstn_nil. reflexivity.
Qed.

Lemma window_nil : forall A a b (l : list A), b <= a -> window a b l = [].
Proof. intros. unfold window. replace (b - a) with 0 by lia. reflexivity. Qed.

Section Chunked.
  Variables T W R : Type.
  Variable f : list T -> list W -> list R.
  Variable g : T -> W -> R.
  (** The function works row by row. *)
  Hypothesis row_wise : forall ts ws, length ts = length ws -> f ts ws = map (fun p => g (fst p) (snd p)) (combine ts ws).

  Lemma chunk_loop_rows : forall c systems rows ws, 1 <= c -> length rows = length ws ->
    forall fuel i, systems <= i + fuel * c -> i mod c = 0 ->
    chunk_loop f fuel c i systems rows ws =
    map (fun p => g (fst p) (snd p)) (combine (window i (covered c systems) rows) (window i (covered c systems) ws)).
  Proof using row_wise.
    intros c systems rows ws C1 L.
    assert (forall a b, length (window a b rows) = length (window a b ws)) as LW by (intros; rewrite !window_length, L; reflexivity).
    induction fuel as [|fuel IH]; intros i FU MO; cbn [chunk_loop]; destruct (systems <=? i) eqn:SI.
    - apply Nat.leb_le in SI. rewrite window_nil; [reflexivity|]. unfold covered.
      apply Nat.mod_divides in MO; [|lia]. destruct MO as [q ->]. apply Nat.mul_le_mono_l.
      apply Nat.lt_succ_r. apply Nat.div_lt_upper_bound; [lia|]. nia.
    - apply Nat.leb_gt in SI. lia.
    - apply Nat.leb_le in SI. rewrite window_nil; [reflexivity|]. unfold covered.
      apply Nat.mod_divides in MO; [|lia]. destruct MO as [q ->]. apply Nat.mul_le_mono_l.
      apply Nat.lt_succ_r. apply Nat.div_lt_upper_bound; [lia|]. nia.
    - apply Nat.leb_gt in SI.
      assert (i + c <= covered c systems) as CV.
      { unfold covered. apply Nat.mod_divides in MO; [|lia]. destruct MO as [q ->].
        replace (c * q + c) with (c * (q + 1)) by lia. apply Nat.mul_le_mono_l. apply Nat.div_le_lower_bound; [lia|].
        nia. }
      rewrite <- (window_sub _ i c (covered c systems) rows), <- (window_sub _ i c (covered c systems) ws) by exact CV.
      assert (match window i (i + c) rows with [] => [] | _ => f (window i (i + c) rows) (window i (i + c) ws) end
              = map (fun p => g (fst p) (snd p)) (combine (window i (i + c) rows) (window i (i + c) ws))) as E0.
      { rewrite <- row_wise by apply LW. destruct (window i (i + c) rows) eqn:EW; [|reflexivity].
        assert (window i (i + c) ws = []) as -> by (pose proof (LW i (i + c)) as Q; rewrite EW in Q; destruct (window i (i + c) ws); [reflexivity | discriminate]).
        rewrite row_wise by reflexivity. reflexivity. }
      assert (forall (A B : Type) (a1 a2 : list A) (b1 b2 : list B), length a1 = length b1 -> combine (a1 ++ a2) (b1 ++ b2) = combine a1 b1 ++ combine a2 b2) as CA.
      { clear. induction a1 as [|x a1 IH]; intros a2 [|y b1] b2 E; try discriminate; [reflexivity|]. cbn [app combine]. f_equal. apply IH. injection E. auto. }
      rewrite CA by apply LW. rewrite map_app. f_equal; [|].
      + rewrite <- E0. destruct (window i (i + c) rows); reflexivity.
      + apply IH; [lia|]. replace (i + c) with (i + 1 * c) by lia. rewrite Nat.mod_add by lia. exact MO.
  Qed.

  Lemma chunked_rows : forall c systems rows ws, 1 <= c -> length rows = length ws ->
    chunked f c systems rows ws =
    map (fun p => g (fst p) (snd p)) (firstn (covered c systems) (combine rows ws)).
  Proof using row_wise.
    intros c systems rows ws C1 L. unfold chunked. rewrite chunk_loop_rows; [|exact C1|exact L|nia|apply Nat.mod_0_l; lia].
    f_equal. unfold window. cbn [skipn]. rewrite Nat.sub_0_r.
    rewrite combine_firstn. reflexivity.
  Qed.
End Chunked.

(** ** Centres *)
Lemma overwrite_none : forall A met centers j row (cur : A), ~ In met centers -> overwrite_centers met centers j row cur = cur.
Proof.
  intros A met. induction centers as [|c cs IH]; intros j row cur N; [reflexivity|]. cbn [overwrite_centers In] in *.
  destruct (Z.eqb_spec met c); [exfalso; apply N; left; congruence|]. apply IH. tauto.
Qed.
Lemma overwrite_at : forall A met centers j row (cur : A) k, NoDup centers -> nth_error centers k = Some met ->
  overwrite_centers met centers j row cur = row (j + k).
Proof.
  intros A met. induction centers as [|c cs IH]; intros j row cur k ND K; [destruct k; discriminate|].
  apply NoDup_cons_iff in ND. destruct ND as [N ND]. cbn [overwrite_centers]. destruct k as [|k].
  - cbn in K. assert (c = met) as -> by congruence. rewrite Z.eqb_refl, overwrite_none by exact N. f_equal. lia.
  - cbn [nth_error] in K. rewrite (IH (S j) row _ k ND K). f_equal. lia.
Qed.

(** ** Sums over channels *)
Lemma distinct_in : forall x l, In x (distinct l) <-> In x l.
Proof.
  intros x. induction l as [|y l IH]; [reflexivity|]. cbn [distinct In]. rewrite filter_In, IH.
  destruct (String.eqb_spec x y) as [-> |N]; cbn [negb]; [tauto|]. split; [tauto|]. intros [E|H]; [congruence | tauto].
Qed.
Lemma distinct_nodup : forall l, NoDup (distinct l).
Proof.
  induction l as [|y l IH]; [constructor|]. cbn [distinct]. constructor.
  - intro I. apply filter_In in I. destruct I as [_ I]. rewrite String.eqb_refl in I. discriminate.
  - apply NoDup_filter. exact IH.
Qed.

(** A sum over entries is the sum over keys of the sums over the entries with that key. *)
Lemma sum_by_key : forall (A : Type) (key : A -> string) (val : A -> Q) (l : list A) ks, NoDup ks ->
  (forall a, In a l -> In (key a) ks) ->
  (fold_right (fun a acc => val a + acc) 0 l ==
   fold_right (fun k acc => fold_right (fun a acc => val a + acc) 0 (filter (fun a => String.eqb (key a) k) l) + acc) 0 ks)%Q.
Proof.
  intros A key val. induction l as [|a l IH]; intros ks ND F.
  - cbn [filter fold_right]. induction ks as [|k ks IHk]; [reflexivity|]. cbn [fold_right].
    apply NoDup_cons_iff in ND. rewrite <- IHk; [ring | tauto | intros ? []].
  - cbn [fold_right]. rewrite (IH ks ND) by (intros; apply F; right; assumption).
    assert (In (key a) ks) as KA by (apply F; left; reflexivity). clear IH F.
    induction ks as [|k ks IHk]; [destruct KA|]. apply NoDup_cons_iff in ND. destruct ND as [N ND].
    cbn [fold_right filter]. destruct (String.eqb_spec (key a) k) as [E|NE].
    + cbn [fold_right].
      assert ((fold_right (fun k0 acc => fold_right (fun a0 acc0 => val a0 + acc0) 0
                 (if String.eqb (key a) k0 then a :: filter (fun a0 => String.eqb (key a0) k0) l else filter (fun a0 => String.eqb (key a0) k0) l) + acc) 0 ks ==
               fold_right (fun k0 acc => fold_right (fun a0 acc0 => val a0 + acc0) 0 (filter (fun a0 => String.eqb (key a0) k0) l) + acc) 0 ks)%Q) as SAME.
      { subst k. clear -N. induction ks as [|k ks IH]; [reflexivity|]. cbn [fold_right In] in *. rewrite IH by tauto.
        destruct (String.eqb_spec (key a) k); [exfalso; apply N; left; congruence | reflexivity]. }
      rewrite SAME. ring.
    + destruct KA as [E|KA]; [congruence|]. rewrite <- (IHk ND KA). ring.
Qed.
