(** Facts about real functions used for orbits, mass functions and distributions. *)
From Coq Require Import Reals Lra.
From Coquelicot Require Import Coquelicot.
Open Scope R_scope.

Lemma Rpower_pos x y : 0 < Rpower x y.
Proof. apply exp_pos. Qed.
Lemma Rpower_inj_l x y c : c <> 0 -> 0 < x -> 0 < y -> Rpower x c = Rpower y c -> x = y.
Proof.
  intros C X Y E. apply (f_equal ln) in E. rewrite !ln_Rpower in E.
  apply Rmult_eq_reg_l in E; [|easy]. now apply ln_inv.
Qed.
Lemma Rpower_lt_neg x y c : c < 0 -> 0 < x -> x < y -> Rpower y c < Rpower x c.
Proof.
  intros C X XY. unfold Rpower. apply exp_increasing.
  assert (L : ln x < ln y) by now apply ln_increasing. nra.
Qed.
Lemma Rpower_cube x : 0 < x -> Rpower x (1 / 3) ^ 3 = x.
Proof.
  intros X. replace (Rpower x (1/3) ^ 3) with (Rpower x (1/3) * Rpower x (1/3) * Rpower x (1/3)) by ring.
  rewrite <- !Rpower_plus. replace (1/3+1/3+1/3) with 1 by field. now apply Rpower_1.
Qed.
Lemma Rpower_square x : 0 < x -> Rpower x (1 / 2) ^ 2 = x.
Proof.
  intros X. replace (Rpower x (1/2) ^ 2) with (Rpower x (1/2) * Rpower x (1/2)) by ring.
  rewrite <- !Rpower_plus. replace (1/2+1/2) with 1 by field. now apply Rpower_1.
Qed.
Lemma Rpower_two_thirds x : Rpower x (2 / 3) = Rpower x (1 / 3) ^ 2.
Proof.
  replace (Rpower x (1/3) ^ 2) with (Rpower x (1/3) * Rpower x (1/3)) by ring.
  rewrite <- !Rpower_plus. f_equal. field.
Qed.
Lemma cube_lt x y : x < y -> x ^ 3 < y ^ 3.
Proof.
  intros H. assert (D : y ^ 3 - x ^ 3 = (y - x) * ((x + y / 2) ^ 2 + 3 / 4 * y ^ 2)) by field.
  assert (0 <= (x + y / 2) ^ 2) by apply pow2_ge_0. assert (0 <= y ^ 2) by apply pow2_ge_0.
  assert (0 < (x + y / 2) ^ 2 + 3 / 4 * y ^ 2).
  { destruct (Req_dec y 0) as [-> |Y]; [assert (0 < (x + 0 / 2) ^ 2) by nra; lra|].
    assert (0 < y ^ 2) by (apply pow2_gt_0; lra). lra. }
  nra.
Qed.
Lemma cube_inj x y : x ^ 3 = y ^ 3 -> x = y.
Proof.
  intros E. destruct (Rtotal_order x y) as [L|[L|L]]; [|easy|]; apply cube_lt in L; lra.
Qed.
Lemma square_lt x y : 0 <= x -> x < y -> x ^ 2 < y ^ 2.
Proof. intros. nra. Qed.
Lemma square_inj x y : 0 <= x -> 0 <= y -> x ^ 2 = y ^ 2 -> x = y.
Proof. intros. nra. Qed.

(** If the derivative is positive on an interval the function increases. *)
Lemma increasing_derive (f df : R -> R) a b :
  a < b -> (forall x, a <= x <= b -> is_derive f x (df x)) -> (forall x, a < x < b -> 0 < df x) -> f a < f b.
Proof.
  intros AB D P.
  destruct (MVT_cor2 f df a b AB) as [c [E C]].
  - intros x X. apply is_derive_Reals, D; lra.
  - specialize (P c C). nra.
Qed.
Lemma nondecreasing_derive (f df : R -> R) a b :
  a <= b -> (forall x, a <= x <= b -> is_derive f x (df x)) -> (forall x, a < x < b -> 0 <= df x) -> f a <= f b.
Proof.
  intros AB D P. destruct (Req_dec a b) as [-> |NE]; [lra|].
  destruct (MVT_cor2 f df a b ltac:(lra)) as [c [E C]].
  - intros x X. apply is_derive_Reals, D; lra.
  - specialize (P c C). nra.
Qed.

Lemma ln1p_pos x : 0 < x -> 0 < ln (1 + x).
Proof. intros X. rewrite <- ln_1. apply ln_increasing; lra. Qed.
Lemma ln1p_lower x : 0 < x -> x / (1 + x) < ln (1 + x).
Proof.
  intros X.
  assert (H : (fun t => ln (1 + t) - t / (1 + t)) 0 < (fun t => ln (1 + t) - t / (1 + t)) x).
  { apply (increasing_derive (fun t => ln (1 + t) - t / (1 + t)) (fun t => t / (1 + t) ^ 2)); [easy| |].
    - intros t T. auto_derive; [lra|]. field. lra.
    - intros t T. apply Rdiv_lt_0_compat; nra. }
  cbv beta in H. rewrite Rplus_0_r, ln_1 in H. lra.
Qed.
(** ln((1+z)/(1-z)) >= 2z + 2z^3/3 *)
Lemma ln_artanh z : 0 <= z < 1 -> 2 * z + 2 * z ^ 3 / 3 <= ln ((1 + z) / (1 - z)).
Proof.
  intros Z.
  assert (H : (fun t => ln ((1 + t) / (1 - t)) - (2 * t + 2 * t ^ 3 / 3)) 0
              <= (fun t => ln ((1 + t) / (1 - t)) - (2 * t + 2 * t ^ 3 / 3)) z).
  { apply (nondecreasing_derive (fun t => ln ((1 + t) / (1 - t)) - (2 * t + 2 * t ^ 3 / 3)) (fun t => 2 / (1 - t ^ 2) - (2 + 2 * t ^ 2))); [lra| |].
    - intros t T. auto_derive.
      + split; [lra|]. split; [|easy]. apply Rdiv_lt_0_compat; lra.
      + field. repeat split; nra.
    - intros t T.
      replace (2 / (1 - t ^ 2) - (2 + 2 * t ^ 2)) with (2 * t ^ 4 / (1 - t ^ 2)) by (field; nra).
      apply Rdiv_le_0_compat; [|nra]. assert (0 <= t ^ 4) by (apply pow_le; lra). lra. }
  cbv beta in H. replace ((1 + 0) / (1 - 0)) with 1 in H by field. rewrite ln_1 in H. lra.
Qed.
