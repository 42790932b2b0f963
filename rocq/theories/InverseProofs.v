(** Proofs about inverse_sampler. *)
From Coq Require Import List Reals Bool Lia Lra Psatz.
From Verif Require Import PyBase SamplerModel InverseModel InverseSpec.
Import ListNotations.
Open Scope R_scope.

(** One trapezoid: the root of the quadratic lies in the segment and has the right area. *)
Lemma trapezoid_root : forall dx y0 y1 d, 0 < dx -> 0 <= y0 -> 0 <= y1 -> y1 - y0 <> 0 ->
  0 <= d <= dx * (y0 + y1) / 2 ->
  let s := dx * (sqrt (y0 ^ 2 + 2 * d * (y1 - y0) / dx) - y0) / (y1 - y0) in
  0 <= s <= dx /\ y0 * s + (y1 - y0) / dx * s ^ 2 / 2 = d.
Proof.
  intros dx y0 y1 d HX H0 H1 HD [D0 D1] s.
  set (e := 2 * d / dx).
  assert (0 <= e <= y0 + y1) as E.
  { unfold e. split.
    - apply Rmult_le_reg_r with dx; [lra|]. field_simplify; lra.
    - apply Rmult_le_reg_r with dx; [lra|]. field_simplify; lra. }
  assert (y0 ^ 2 + 2 * d * (y1 - y0) / dx = y0 ^ 2 + e * (y1 - y0)) as EQ by (unfold e; field; lra).
  set (r := sqrt (y0 ^ 2 + 2 * d * (y1 - y0) / dx)) in *.
  assert (0 <= y0 ^ 2 + e * (y1 - y0)) as NN.
  { destruct (Rle_dec y0 y1); nra. }
  assert (r * r = y0 ^ 2 + e * (y1 - y0)) as RR.
  { unfold r. rewrite EQ. apply sqrt_sqrt. exact NN. }
  assert (0 <= r) as R0 by (unfold r; apply sqrt_pos).
  assert (s = dx * ((r - y0) / (y1 - y0))) as ES by (unfold s; field; lra).
  assert (0 <= (r - y0) / (y1 - y0) <= 1) as F.
  { destruct (Rtotal_order y0 y1) as [L | [Q | L]]; [|lra|].
    - assert (y0 <= r <= y1) by nra. split.
      + apply Rmult_le_reg_r with (y1 - y0); [lra|]. field_simplify; lra.
      + apply Rmult_le_reg_r with (y1 - y0); [lra|]. field_simplify; lra.
    - assert (y1 <= r <= y0) by nra.
      replace ((r - y0) / (y1 - y0)) with ((y0 - r) / (y0 - y1)) by (field; lra). split.
      + apply Rmult_le_reg_r with (y0 - y1); [lra|]. field_simplify; lra.
      + apply Rmult_le_reg_r with (y0 - y1); [lra|]. field_simplify; lra. }
  split; [rewrite ES; nra|].
  unfold s.
  replace (y0 * (dx * (r - y0) / (y1 - y0)) + (y1 - y0) / dx * (dx * (r - y0) / (y1 - y0)) ^ 2 / 2)
    with (dx * (r * r - y0 ^ 2) / (y1 - y0) / 2) by (field; lra).
  rewrite RR. unfold e. field. lra.
Qed.

Lemma increasing_nth : forall x, increasingb x = true -> forall i, (S i < length x)%nat ->
  nth i x 0 < nth (S i) x 0.
Proof.
  induction x as [|a x IH]; intros H i L; [cbn in L; lia|].
  destruct x as [|b x]; [cbn in L; lia|].
  change (increasingb (a :: b :: x)) with ((if Rlt_dec a b then true else false) && increasingb (b :: x)) in H.
  apply andb_prop in H. destruct H as [A B]. destruct (Rlt_dec a b) as [C|]; [|discriminate].
  destruct i; [exact C|]. apply (IH B i). cbn in *. lia.
Qed.

Lemma nonneg_nth : forall y, nonnegb y = true -> forall i, 0 <= nth i y 0.
Proof.
  intros y H i. destruct (Nat.lt_ge_cases i (length y)).
  - unfold nonnegb in H. rewrite forallb_forall in H. specialize (H (nth i y 0) (nth_In y 0 H0)).
    destruct (Rle_dec 0 (nth i y 0)); [assumption | discriminate].
  - rewrite nth_overflow by lia. lra.
Qed.

Lemma areas_length : forall x y, length x = length y -> length (segment_areas x y) = (length x - 1)%nat.
Proof.
  induction x as [|a x IH]; intros [|c y] L; try discriminate; [reflexivity|].
  destruct x as [|b x], y as [|d y]; try discriminate; [reflexivity|].
  change (segment_areas (a :: b :: x) (c :: d :: y))
    with ((1/2 * (d + c) * (b - a)) :: segment_areas (b :: x) (d :: y)).
  cbn [length] in *. rewrite IH; cbn [length]; lia.
Qed.

Lemma areas_nth : forall x y i, length x = length y -> (S i < length x)%nat ->
  nth i (segment_areas x y) 0 = (nth (S i) x 0 - nth i x 0) * (nth i y 0 + nth (S i) y 0) / 2.
Proof.
  induction x as [|a x IH]; intros [|c y] i L B; try discriminate; [cbn in B; lia|].
  destruct x as [|b x], y as [|d y]; try discriminate; [cbn in B; lia|].
  change (segment_areas (a :: b :: x) (c :: d :: y))
    with ((1/2 * (d + c) * (b - a)) :: segment_areas (b :: x) (d :: y)).
  destruct i as [|i].
  - cbn [nth]. field.
  - cbn [nth]. rewrite (IH (d :: y) i); [reflexivity | cbn in *; lia | cbn in *; lia].
Qed.

Lemma cumsum_length : forall l acc, length (cumsum acc l) = length l.
Proof. induction l; intros; cbn; [reflexivity | rewrite IHl; reflexivity]. Qed.

Lemma cumsum_S : forall l acc i, (i < length l)%nat ->
  nth i (cumsum acc l) 0 = match i with O => acc | S j => nth j (cumsum acc l) 0 end + nth i l 0.
Proof.
  induction l as [|a l IH]; intros acc i B; [cbn in B; lia|].
  destruct i as [|i]; [reflexivity|]. cbn [cumsum nth].
  rewrite IH by (cbn in B; lia). destruct i; reflexivity.
Qed.

Lemma cumsum_area : forall x y i, length x = length y -> (S i < length x)%nat ->
  nth i (cumsum 0 (segment_areas x y)) 0 = area_to x y (S i).
Proof.
  intros x y i L. induction i as [|i IH]; intro B.
  - rewrite cumsum_S by (rewrite areas_length; lia). rewrite areas_nth by lia.
    cbn [area_to]. reflexivity.
  - rewrite cumsum_S by (rewrite areas_length; lia). rewrite areas_nth by lia.
    rewrite IH by lia. reflexivity.
Qed.

Lemma search_ok : forall l v, let i := searchsorted l v in
  (i <= length l)%nat /\ (forall j, (j < i)%nat -> nth j l 0 < v) /\ ((i < length l)%nat -> v <= nth i l 0).
Proof.
  induction l as [|a l IH]; intro v; cbn.
  - split; [lia|]. split; intros; lia.
  - destruct (Rle_dec v a) as [L|N].
    + split; [lia|]. split; [intros; lia | intros _; exact L].
    + destruct (IH v) as (A & B & C). split; [lia|]. split.
      * intros [|j] J; [lra | apply B; lia].
      * intro J. apply C. lia.
Qed.

Lemma nth_error_nth0 : forall (l : list R) i, (i < length l)%nat -> nth_error l i = Some (nth i l 0).
Proof.
  intros. destruct (nth_error l i) eqn:E.
  - erewrite nth_error_nth by exact E. reflexivity.
  - apply nth_error_None in E. lia.
Qed.

Section Ok.
  Variables x y : list R.
  Hypothesis LEN : length x = length y.
  Hypothesis TWO : (2 <= length x)%nat.
  Hypothesis INC : increasingb x = true.
  Hypothesis POS : nonnegb y = true.

  Let cum := cumsum 0 (segment_areas x y).
  Let total := area_to x y (length x - 1).

  Lemma area_step : forall i, (S i < length x)%nat -> area_to x y i <= area_to x y (S i).
  Proof.
    intros i B. cbn [area_to]. pose proof (increasing_nth x INC i B).
    pose proof (nonneg_nth y POS i). pose proof (nonneg_nth y POS (S i)).
    assert (0 <= (nth (S i) x 0 - nth i x 0) * (nth i y 0 + nth (S i) y 0)); [|lra].
    apply Rmult_le_pos; lra.
  Qed.

  Lemma area_nonneg : forall i, (i < length x)%nat -> 0 <= area_to x y i.
  Proof.
    induction i; intro B; [cbn; lra|]. pose proof (area_step i B). assert (i < length x)%nat by lia.
    specialize (IHi H0). lra.
  Qed.

  Lemma one_value_ok : forall u, 0 <= u < 1 ->
    exists v, one_value x y cum total u = Ok v /\
      match v with
      | inl s => inverts x y u s
      | inr (x0, dx) => 0 <= dx /\ forall w, 0 <= w < 1 -> inverts x y u (x0 + dx * w)
      end.
  Proof.
    intros u HU. unfold one_value.
    assert (length cum = (length x - 1)%nat) as LC.
    { unfold cum. rewrite cumsum_length. apply areas_length. exact LEN. }
    assert (forall j, (S j < length x)%nat -> nth j cum 0 = area_to x y (S j)) as CA.
    { intros j J. unfold cum. apply cumsum_area; assumption. }
    assert (0 <= total) as T0 by (apply area_nonneg; lia).
    destruct (search_ok cum (u * total)) as (A & B & C).
    set (i := searchsorted cum (u * total)) in *.
    assert (S i < length x)%nat as HI.
    { destruct (Nat.lt_ge_cases i (length cum)) as [|GE]; [lia|]. exfalso.
      assert (i = length cum) by lia.
      specialize (B (length cum - 1)%nat ltac:(lia)). rewrite CA in B by lia.
      replace (S (length cum - 1)) with (length x - 1)%nat in B by lia.
      fold total in B. nra. }
    specialize (C ltac:(lia)). rewrite CA in C by lia.
    assert (area_to x y i <= u * total) as LO.
    { destruct i as [|j] eqn:EI; [cbn; nra|]. specialize (B j ltac:(lia)). rewrite CA in B by lia. lra. }
    rewrite (nth_error_nth0 x i) by lia. rewrite (nth_error_nth0 x (S i)) by lia.
    rewrite (nth_error_nth0 y i) by lia. rewrite (nth_error_nth0 y (S i)) by lia.
    pose proof (increasing_nth x INC i HI) as IX.
    pose proof (nonneg_nth y POS i) as P0. pose proof (nonneg_nth y POS (S i)) as P1.
    assert (match i with O => total * u | S j => total * u - nth j cum 0 end
            = u * total - area_to x y i) as ED.
    { destruct i as [|j]; [cbn; lra|]. rewrite CA by lia. lra. }
    cbv zeta. rewrite ED.
    destruct (Req_EM_T (nth (S i) y 0 - nth i y 0) 0) as [Z|NZ].
    - eexists. split; [reflexivity|]. cbv beta iota. split; [lra|]. intros w W.
      exists i. split; [lia|]. split; [nra|]. split; [split; assumption|]. intro X. exfalso. lra.
    - eexists. split; [reflexivity|]. cbv beta iota.
      pose proof C as C'. cbn [area_to] in C'.
      destruct (trapezoid_root (nth (S i) x 0 - nth i x 0) (nth i y 0) (nth (S i) y 0)
                  (u * total - area_to x y i)) as [S1 S2]; try lra.
      exists i. split; [lia|]. split; [lra|]. split; [split; [exact LO | exact C]|].
      intros _. fold total.
      match goal with |- context [ nth i x 0 + ?e - nth i x 0 ] =>
        replace (nth i x 0 + e - nth i x 0) with e by lra end.
      lra.
  Qed.

  Lemma values_ok : forall us, Forall (fun u => 0 <= u < 1) us ->
    exists vs, values x y cum total us = Ok vs /\
      forall ws, Forall (fun w => 0 <= w < 1) ws -> length ws = length (filter is_flat vs) ->
      Forall2 (inverts x y) us (fill_flat vs ws).
  Proof.
    induction 1 as [|u us HU HF IH].
    - exists []. split; [reflexivity|]. intros. constructor.
    - destruct (one_value_ok u HU) as (v & EV & PV). destruct IH as (vs & EVS & PVS).
      exists (v :: vs). split.
      { cbn [values]. rewrite EV. cbn [rbind]. rewrite EVS. reflexivity. }
      intros ws FW LW. destruct v as [s | [x0 dx]].
      + cbn. constructor; [exact PV|]. apply PVS; assumption.
      + cbn in LW. destruct ws as [|w ws]; [discriminate|]. inversion FW; subst. cbn. constructor.
        * apply PV. assumption.
        * apply PVS; [assumption | cbn in LW; lia].
  Qed.
End Ok.

Lemma raws_r_ok : forall G (next : G -> R * G), (forall g, 0 <= fst (next g) < 1) ->
  forall n g, length (fst (raws_r G next n g)) = n /\
              Forall (fun u => 0 <= u < 1) (fst (raws_r G next n g)).
Proof.
  intros G next H. induction n; intro g; [split; [reflexivity | constructor]|].
  cbn. specialize (H g). destruct (next g) as [u g1]. destruct (IHn g1) as [A B].
  destruct (raws_r G next n g1). cbn in *. split; [congruence | constructor; assumption].
Qed.

Lemma last_cum : forall x y, length x = length y -> (2 <= length x)%nat ->
  exists l, rev (cumsum 0 (segment_areas x y)) = area_to x y (length x - 1) :: l.
Proof.
  intros x y L T. set (c := cumsum 0 (segment_areas x y)).
  assert (length c = (length x - 1)%nat) as LC.
  { unfold c. rewrite cumsum_length. apply areas_length. exact L. }
  destruct (rev c) as [|t l] eqn:E.
  - apply (f_equal (@length R)) in E. rewrite rev_length in E. cbn in E. lia.
  - exists l. f_equal.
    assert (c = rev l ++ [t]) as EC by (rewrite <- (rev_involutive c), E; reflexivity).
    replace (length x - 1)%nat with (S (length x - 2)) by lia.
    rewrite <- cumsum_area by lia. fold c. rewrite EC.
    assert (length (rev l) = (length x - 2)%nat) as LL.
    { apply (f_equal (@length R)) in EC. rewrite app_length in EC. cbn in EC. lia. }
    rewrite app_nth2 by lia. rewrite LL, Nat.sub_diag. reflexivity.
Qed.

Lemma inverse_ok : forall G (next : G -> R * G), (forall g, 0 <= fst (next g) < 1) ->
  forall x y size g, length x = length y -> (2 <= length x)%nat ->
  (forall i, (S i < length x)%nat -> nth i x 0 < nth (S i) x 0) ->
  (forall i, 0 <= nth i y 0) ->
  exists l g', inverse_sampler G next x y size g = Ok (l, g') /\
    Forall2 (inverts x y) (fst (raws_r G next size g)) l.
Proof.
  intros G next U x y size g L T I P.
  assert (increasingb x = true) as EI.
  { clear -I. induction x as [|a x IH]; [reflexivity|]. destruct x as [|b x]; [reflexivity|].
    change (increasingb (a :: b :: x)) with ((if Rlt_dec a b then true else false) && increasingb (b :: x)).
    apply andb_true_intro. split.
    - destruct (Rlt_dec a b) as [|N]; [reflexivity|]. exfalso. apply N. apply (I 0%nat). cbn. lia.
    - apply IH. intros i B. apply (I (S i)). cbn in *. lia. }
  assert (nonnegb y = true) as EP.
  { unfold nonnegb. apply forallb_forall. intros v IV. apply In_nth with (d := 0) in IV.
    destruct IV as (i & _ & <-). destruct (Rle_dec 0 (nth i y 0)) as [|N]; [reflexivity|].
    exfalso. apply N. apply P. }
  unfold inverse_sampler. rewrite EI, EP, L, Nat.eqb_refl. cbn [negb].
  destruct (last_cum x y L T) as (r & ->).
  pose proof (raws_r_ok G next U size g) as [A B].
  destruct (raws_r G next size g) as [us g1]. cbn [fst] in *.
  destruct (values_ok x y L T EI EP us B) as (vs & EV & PV). rewrite EV. cbn [rbind].
  pose proof (raws_r_ok G next U (length (filter is_flat vs)) g1) as [A' B'].
  destruct (raws_r G next (length (filter is_flat vs)) g1) as [ws g2]. cbn [fst] in *.
  exists (fill_flat vs ws), g2. split; [reflexivity|]. apply PV; assumption.
Qed.
