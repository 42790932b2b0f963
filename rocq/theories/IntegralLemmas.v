(** Integrals over open intervals, used for mass functions and distributions. *)
From Coq Require Import Reals Lra.
From Coquelicot Require Import Coquelicot.
From Verif Require Import RealLemmas.
Open Scope R_scope.

Lemma near_right lo hi : lo < hi -> at_right lo (fun a => lo < a < hi).
Proof.
  intros L. exists (mkposreal (hi - lo) ltac:(lra)). intros y B Y. split; [easy|].
  apply Rabs_lt_between in B. cbn in B. unfold minus, plus, opp in B. cbn in B. lra.
Qed.
Lemma near_left lo hi : lo < hi -> at_left hi (fun b => lo < b < hi).
Proof.
  intros L. exists (mkposreal (hi - lo) ltac:(lra)). intros y B Y. split; [|easy].
  apply Rabs_lt_between in B. cbn in B. unfold minus, plus, opp in B. cbn in B. lra.
Qed.
Lemma near_both lo hi : lo < hi ->
  filter_prod (at_right lo) (at_left hi) (fun ab => lo < fst ab < hi /\ lo < snd ab < hi).
Proof.
  intros L. exists (fun a => lo < a < hi) (fun b => lo < b < hi); [now apply near_right|now apply near_left|easy].
Qed.
Lemma between_in lo hi a b x : lo < a < hi -> lo < b < hi -> Rmin a b <= x <= Rmax a b -> lo < x < hi.
Proof. unfold Rmin, Rmax. destruct (Rle_dec a b); lra. Qed.

(** Functions that agree inside have the same integral. *)
Lemma gen_ext (f g : R -> R) lo hi (v : R) : lo < hi -> (forall x, lo < x < hi -> f x = g x) ->
  is_RInt_gen f (at_right lo) (at_left hi) v -> is_RInt_gen g (at_right lo) (at_left hi) v.
Proof.
  intros L E. apply is_RInt_gen_ext.
  apply (filter_imp (fun ab => lo < fst ab < hi /\ lo < snd ab < hi)); [|now apply near_both].
  intros [a b] [A B] x X. cbn in *. apply E. apply (between_in lo hi a b); [easy|easy|lra].
Qed.

Lemma gen_antiderivative (f F : R -> R) lo hi (l h : R) : lo < hi ->
  (forall x, lo < x < hi -> is_derive F x (f x)) -> (forall x, lo < x < hi -> continuous f x) ->
  filterlim F (at_right lo) (locally l) -> filterlim F (at_left hi) (locally h) ->
  is_RInt_gen f (at_right lo) (at_left hi) (h - l).
Proof.
  intros L D C FL FH P HP.
  assert (LIM : filterlim (fun ab => F (snd ab) - F (fst ab)) (filter_prod (at_right lo) (at_left hi)) (locally (h - l))).
  { apply (filterlim_comp_2 (G := locally h) (H := locally l) (fun ab => F (snd ab)) (fun ab => F (fst ab)) Rminus).
    - apply (filterlim_comp _ _ _ snd F _ (at_left hi)); [apply filterlim_snd|easy].
    - apply (filterlim_comp _ _ _ fst F _ (at_right lo)); [apply filterlim_fst|easy].
    - apply (filterlim_comp_2 (G := locally h) (H := locally (- l)) fst (fun x => - snd x) Rplus).
      + apply filterlim_fst.
      + apply (filterlim_comp _ _ _ snd Ropp _ (locally l)); [apply filterlim_snd|].
        exact (filterlim_opp (K := R_AbsRing) (V := R_NormedModule) l).
      + exact (filterlim_plus (K := R_AbsRing) (V := R_NormedModule) h (- l)). }
  specialize (LIM P HP). unfold filtermapi.
  change (filter_prod (at_right lo) (at_left hi) (fun ab => P (F (snd ab) - F (fst ab)))) in LIM.
  generalize (filter_and _ _ LIM (near_both lo hi L)). apply filter_imp.
  intros [a b] [Q [A B]]. cbn in *. exists (F b - F a). split; [|exact Q].
  apply (is_RInt_derive F f).
  - intros x X. apply D. now apply (between_in lo hi a b).
  - intros x X. apply C. now apply (between_in lo hi a b).
Qed.

Lemma gen_continuous (f g : R -> R) lo hi : lo < hi ->
  (forall x, lo < x < hi -> f x = g x) -> (forall x, lo <= x <= hi -> continuous g x) ->
  is_RInt_gen f (at_right lo) (at_left hi) (RInt g lo hi).
Proof.
  intros L E C.
  destruct (C0_extension_le g lo hi) as [h [HC HE]].
  { intros c X. now apply C. }
  assert (RInt g lo hi = RInt h lo hi).
  { apply RInt_ext. intros x X. rewrite Rmin_left, Rmax_right in X by lra. symmetry. apply HE. lra. }
  rewrite H.
  assert (DER : forall x, is_derive (fun b => RInt h lo b) x (h x)).
  { intros x. apply (is_derive_RInt h (fun b => RInt h lo b) lo x).
    - apply filter_forall. intros b. apply (RInt_correct (V := R_CompleteNormedModule) h lo b). apply (ex_RInt_continuous (V := R_CompleteNormedModule)). intros z _. apply HC.
    - apply HC. }
  assert (CON : forall x, continuous (fun b => RInt h lo b) x).
  { intros x. apply (ex_derive_continuous (K := R_AbsRing) (V := R_NormedModule)). exists (h x). apply DER. }
  apply (gen_ext h f); [easy| |].
  { intros x X. rewrite HE by lra. symmetry. now apply E. }
  replace (RInt h lo hi) with (RInt h lo hi - RInt h lo lo) by (rewrite RInt_point; unfold zero; cbn; ring).
  apply (gen_antiderivative h (fun b => RInt h lo b)); [easy| | | |].
  - intros x _. apply DER.
  - intros x _. apply HC.
  - apply (filterlim_filter_le_1 (F := locally lo)); [apply filter_le_within|apply CON].
  - apply (filterlim_filter_le_1 (F := locally hi)); [apply filter_le_within|apply CON].
Qed.

Lemma gen_unique (f : R -> R) lo hi (v : R) : is_RInt_gen f (at_right lo) (at_left hi) v -> RInt_gen f (at_right lo) (at_left hi) = v.
Proof. intros H. exact (is_RInt_gen_unique (V := R_CompleteNormedModule) f v H). Qed.
Lemma scal_R (x y : R) : scal x y = x * y.
Proof. reflexivity. Qed.
Lemma gen_scale (f : R -> R) lo hi (v k : R) : is_RInt_gen f (at_right lo) (at_left hi) v ->
  is_RInt_gen (fun x => f x * k) (at_right lo) (at_left hi) (v * k).
Proof.
  intros H. apply (is_RInt_gen_scal f k) in H. rewrite (Rmult_comm v).
  eapply is_RInt_gen_ext; [|exact H]. apply filter_forall. intros ab x _. exact (Rmult_comm k (f x)).
Qed.
Lemma ordinary_scale (f : R -> R) lo hi (v k : R) : is_RInt f lo hi v -> is_RInt (fun x => f x * k) lo hi (v * k).
Proof.
  intros H. apply (is_RInt_scal f lo hi k) in H. rewrite (Rmult_comm v).
  eapply is_RInt_ext; [|exact H]. intros x _. exact (Rmult_comm k (f x)).
Qed.

(** Powers *)
Lemma continuous_power y x : 0 < x -> continuous (fun t => Rpower t y) x.
Proof. intros X. apply (ex_derive_continuous (K := R_AbsRing) (V := R_NormedModule)). exists (y * Rpower x (y - 1)). apply is_derive_Reals, derivable_pt_lim_power. easy. Qed.
Lemma is_derive_power y x : 0 < x -> is_derive (fun t => Rpower t y) x (y * Rpower x (y - 1)).
Proof. intros X. apply is_derive_Reals, derivable_pt_lim_power. easy. Qed.
Lemma is_derive_power_up y x : 0 < x -> y + 1 <> 0 -> is_derive (fun t => Rpower t (y + 1) / (y + 1)) x (Rpower x y).
Proof.
  intros X Y. unfold Rpower. auto_derive; [easy|].
  replace ((y + 1) * ln x) with (y * ln x + ln x) by ring. rewrite exp_plus, exp_ln by easy. field. lra.
Qed.
Lemma power_to_zero y : 0 < y -> filterlim (fun t => Rpower t y) (at_right 0) (locally 0).
Proof.
  intros Y P [eps HP].
  exists (mkposreal (Rpower eps (/ y)) (Rpower_pos _ _)). intros t B T. apply HP.
  apply Rabs_lt_between in B. cbn in B. unfold minus, plus, opp in B. cbn in B.
  apply Rabs_lt_between. cbn. unfold minus, plus, opp. cbn.
  pose proof (Rpower_pos t y). split; [pose proof (cond_pos eps); lra|].
  assert (Rpower t y < Rpower (Rpower eps (/ y)) y) by (apply Rlt_Rpower_l; lra).
  rewrite Rpower_mult, Rinv_l, Rpower_1 in H0 by (try apply cond_pos; lra). lra.
Qed.
