(** Lemmas about linear interpolation in tables and about cumulative sums (for MoeProps) *)
From Coq Require Import String List Bool Reals Arith Lra Lia.
From Verif Require Import PyBase MoeModel.
Import ListNotations.
Open Scope string_scope.
Open Scope R_scope.
Open Scope list_scope.

Fixpoint nondec (l : list R) : Prop := match l with a :: ((b :: _) as l') => a <= b /\ nondec l' | _ => True end.
Fixpoint strict (l : list R) : Prop := match l with a :: ((b :: _) as l') => a < b /\ strict l' | _ => True end.
Lemma strict_nondec l : strict l -> nondec l.
Proof. induction l as [|a [|b l] IH]; intro H; [exact I|exact I|]. destruct H as [H1 H2]. split; [lra|exact (IH H2)]. Qed.
Lemma nondec_hd a l : nondec (a :: l) -> forall x, In x l -> a <= x.
Proof.
  revert a. induction l as [|b l IH]; intros a H x I; [contradiction|]. destruct H as [H1 H2]. destruct I as [->|I]; [exact H1|]. specialize (IH b H2 x I). lra.
Qed.
Lemma strict_hd a l : strict (a :: l) -> forall x, In x l -> a < x.
Proof.
  revert a. induction l as [|b l IH]; intros a H x I; [contradiction|]. destruct H as [H1 H2]. destruct I as [->|I]; [exact H1|]. specialize (IH b H2 x I). lra.
Qed.
Lemma strict_tl a l : strict (a :: l) -> strict l.
Proof. destruct l; [reflexivity|intros [_ H]; exact H]. Qed.
Lemma nondec_tl a l : nondec (a :: l) -> nondec l.
Proof. destruct l; [reflexivity|intros [_ H]; exact H]. Qed.
Lemma nondec_last l d : nondec l -> forall x, In x l -> x <= last l d.
Proof.
  induction l as [|a [|b l] IH]; intros H x I; [contradiction|destruct I as [->|[]]; cbn; lra|]. destruct H as [H1 H2]. change (last (a :: b :: l) d) with (last (b :: l) d). destruct I as [->|I]; [specialize (IH H2 b (or_introl eq_refl)); lra|exact (IH H2 x I)].
Qed.

(** ** Interpolation *)
Definition swap (pts : list (R * R)) : list (R * R) := map (fun p => (snd p, fst p)) pts.
Lemma interp_cons x a f b g pts : interp x ((a, f) :: (b, g) :: pts) = if Rlt_dec x b then (if Rlt_dec x a then f else (g - f) / (b - a) * (x - a) + f) else interp x ((b, g) :: pts).
Proof. reflexivity. Qed.
Lemma segment a b f g x : a < b -> f <= g -> a <= x <= b -> f <= (g - f) / (b - a) * (x - a) + f <= g.
Proof.
  intros AB FG X. assert (E : (g - f) / (b - a) * (x - a) + f = f + (g - f) * ((x - a) / (b - a))) by (field; lra). rewrite E.
  assert (Z : 0 <= (x - a) / (b - a) <= 1). { split; [apply Rmult_le_pos; [lra|left; apply Rinv_0_lt_compat; lra]|]. apply (Rmult_le_reg_r (b - a)); [lra|]. unfold Rdiv. rewrite Rmult_assoc, Rinv_l by lra. lra. }
  split; nra.
Qed.
Lemma interp_bounds pts x : pts <> [] -> nondec (map snd pts) -> snd (hd (0, 0) pts) <= interp x pts <= snd (last pts (0, 0)).
Proof.
  induction pts as [|[a f] [|[b g] pts] IH]; intros N F; [congruence|cbn; lra|]. destruct F as [F1 F2]. specialize (IH ltac:(discriminate) F2). change (last ((a, f) :: (b, g) :: pts) (0, 0)) with (last ((b, g) :: pts) (0, 0)). cbn [hd snd] in IH |- *. rewrite ?interp_cons. destruct (Rlt_dec x b) as [X|X]; [|cbn [snd map] in F1; lra]. assert (GL : g <= snd (last ((b, g) :: pts) (0, 0))) by lra. cbn [snd map] in F1. destruct (Rlt_dec x a) as [Y|Y]; [lra|]. pose proof (segment a b f g x ltac:(lra) F1 ltac:(lra)). lra.
Qed.
Lemma interp_mono pts x y : nondec (map fst pts) -> nondec (map snd pts) -> x <= y -> interp x pts <= interp y pts.
Proof.
  induction pts as [|[a f] [|[b g] pts] IH]; intros A F XY; [cbn; lra|cbn; lra|]. pose proof (interp_bounds ((b, g) :: pts)) as B. destruct A as [A1 A2], F as [F1 F2]. specialize (IH A2 F2 XY). cbn [fst snd map] in A1, F1. rewrite ?interp_cons. destruct (Rlt_dec x b) as [X|X]; destruct (Rlt_dec y b) as [Y|Y]; try lra.
  - destruct (Rlt_dec x a) as [X'|X']; destruct (Rlt_dec y a) as [Y'|Y']; try lra.
    + pose proof (segment a b f g y ltac:(lra) F1 ltac:(lra)). lra.
    + assert (K : 0 <= (g - f) / (b - a)) by (apply Rmult_le_pos; [lra|left; apply Rinv_0_lt_compat; lra]). nra.
  - specialize (B y ltac:(discriminate) F2). cbn [hd snd] in B. destruct (Rlt_dec x a) as [X'|X']; [lra|]. pose proof (segment a b f g x ltac:(lra) F1 ltac:(lra)). lra.
Qed.
Lemma interp_before pts u a f : nondec (map fst pts) -> nondec (map snd pts) -> In (a, f) pts -> u < a -> interp u pts <= f.
Proof.
  induction pts as [|[a0 f0] [|[b g] pts] IH]; intros A F I U; [contradiction|destruct I as [I|[]]; cbn; assert (f0 = f) by congruence; lra|]. destruct A as [A1 A2], F as [F1 F2]. specialize (IH A2 F2). cbn [fst snd map] in A1, F1. rewrite ?interp_cons. destruct I as [I|I].
  - assert (a0 = a /\ f0 = f) as [-> ->] by (split; congruence). destruct (Rlt_dec u b) as [X|X]; [|lra]. destruct (Rlt_dec u a); lra.
  - assert (GF : g <= f). { destruct I as [I|I]; [assert (g = f) by congruence; lra|]. apply (nondec_hd g (map snd pts)); [exact F2|]. apply (in_map snd) in I. exact I. } destruct (Rlt_dec u b) as [X|X]; [|exact (IH I U)]. destruct (Rlt_dec u a0) as [Y|Y]; [lra|]. pose proof (segment a0 b f0 g u ltac:(lra) F1 ltac:(lra)). lra.
Qed.
(** The table read in the other direction is the inverse. *)
Lemma interp_inverse_below pts u x : nondec (map fst pts) -> strict (map snd pts) -> pts <> [] -> fst (hd (0, 0) pts) <= u -> u < interp x (swap pts) -> interp u pts <= x.
Proof.
  induction pts as [|[a f] [|[b g] pts] IH]; intros A F N L U; [congruence|cbn in L, U; lra|]. pose proof (interp_bounds ((b, g) :: pts) u ltac:(discriminate) ltac:(apply strict_nondec; exact (proj2 F))) as B. destruct A as [A1 A2], F as [F1 F2]. specialize (IH A2 F2 ltac:(discriminate)). cbn [fst snd map hd swap] in *. rewrite interp_cons in U |- *. destruct (Rlt_dec x g) as [X|X].
  - destruct (Rlt_dec x f) as [Y|Y]; [lra|]. pose proof (segment f g a b x F1 A1 ltac:(lra)) as S. destruct (Rlt_dec u b) as [Z|Z]; [|lra]. destruct (Rlt_dec u a) as [W|W]; [lra|]. assert (P : (u - a) * (g - f) < (b - a) * (x - f)). { assert (u - a < (b - a) / (g - f) * (x - f)) by lra. apply Rmult_lt_compat_r with (r := g - f) in H; [|lra]. replace ((b - a) / (g - f) * (x - f) * (g - f)) with ((b - a) * (x - f)) in H by (field; lra). exact H. }
    assert (AB : 0 < b - a) by lra. apply Rmult_le_reg_r with (r := b - a); [exact AB|]. replace (((g - f) / (b - a) * (u - a) + f) * (b - a)) with ((g - f) * (u - a) + f * (b - a)) by (field; lra). nra.
  - destruct (Rlt_dec u b) as [Z|Z].
    + destruct (Rlt_dec u a) as [W|W]; [lra|]. pose proof (segment a b f g u ltac:(lra) ltac:(lra) ltac:(lra)). lra.
    + apply IH; [lra|exact U].
Qed.
Lemma interp_inverse_above pts u x : nondec (map fst pts) -> strict (map snd pts) -> pts <> [] -> fst (hd (0, 0) pts) <= u -> u <= fst (last pts (0, 0)) -> interp u pts <= x -> u <= interp x (swap pts).
Proof.
  induction pts as [|[a f] [|[b g] pts] IH]; intros A F N L L2 U; [congruence|cbn in L2 |- *; lra|].
  assert (B : b <= interp x (swap ((b, g) :: pts))). { pose proof (interp_bounds (swap ((b, g) :: pts)) x ltac:(discriminate)) as B. destruct B as [B _]; [|exact B]. unfold swap. rewrite map_map. exact (proj2 A). }
  pose proof (interp_bounds ((b, g) :: pts) u ltac:(discriminate) ltac:(apply strict_nondec; exact (proj2 F))) as B2. destruct A as [A1 A2], F as [F1 F2]. specialize (IH A2 F2 ltac:(discriminate)). change (last ((a, f) :: (b, g) :: pts) (0, 0)) with (last ((b, g) :: pts) (0, 0)) in L2. cbn [fst snd map hd swap] in *. rewrite interp_cons in U |- *. destruct (Rlt_dec u b) as [Z|Z].
  - destruct (Rlt_dec u a) as [W|W]; [lra|]. destruct (Rlt_dec x g) as [X|X]; [|lra]. pose proof (segment a b f g u ltac:(lra) ltac:(lra) ltac:(lra)) as S. destruct (Rlt_dec x f) as [Y|Y]; [lra|].
    assert (P : (g - f) * (u - a) <= (b - a) * (x - f)). { assert ((g - f) / (b - a) * (u - a) <= x - f) by lra. apply Rmult_le_compat_r with (r := b - a) in H; [|lra]. replace ((g - f) / (b - a) * (u - a) * (b - a)) with ((g - f) * (u - a)) in H by (field; lra). lra. }
    apply Rmult_le_reg_r with (r := g - f); [lra|]. replace (((b - a) / (g - f) * (x - f) + a) * (g - f)) with ((b - a) * (x - f) + a * (g - f)) by (field; lra). lra.
  - destruct (Rlt_dec x g) as [X|X]; [lra|]. apply IH; [lra|exact L2|exact U].
Qed.

(** ** Cumulative sums *)
Lemma cumsum_length acc l : length (cumsum_from acc l) = length l.
Proof. revert acc. induction l as [|x l IH]; intro acc; [reflexivity|]. cbn. f_equal. apply IH. Qed.
Lemma cumsum_strict l : forall acc, (forall x, In x l -> 0 < x) -> strict (acc :: cumsum_from acc l).
Proof. induction l as [|x l IH]; intros acc H; [exact I|]. cbn [cumsum_from]. split; [specialize (H x (or_introl eq_refl)); lra|]. apply IH. intros y J. apply H. right. exact J. Qed.
Lemma cumsum_nondec l : forall acc, (forall x, In x l -> 0 <= x) -> nondec (acc :: cumsum_from acc l).
Proof. induction l as [|x l IH]; intros acc H; [exact I|]. cbn [cumsum_from]. split; [specialize (H x (or_introl eq_refl)); lra|]. apply IH. intros y J. apply H. right. exact J. Qed.
Lemma map_strict (f : R -> R) l : (forall x y, x < y -> f x < f y) -> strict l -> strict (map f l).
Proof. intros M. induction l as [|a [|b l] IH]; intro H; [exact I|exact I|]. destruct H as [H1 H2]. split; [exact (M _ _ H1)|exact (IH H2)]. Qed.
Lemma map_nondec (f : R -> R) l : (forall x y, x <= y -> f x <= f y) -> nondec l -> nondec (map f l).
Proof. intros M. induction l as [|a [|b l] IH]; intro H; [exact I|exact I|]. destruct H as [H1 H2]. split; [exact (M _ _ H1)|exact (IH H2)]. Qed.
Lemma rmax_last l d : l <> [] -> nondec l -> rmax l = last l d.
Proof.
  destruct l as [|x l]; [congruence|]. intros _. unfold rmax. revert x. induction l as [|y l IH]; intros x H; [reflexivity|]. destruct H as [H1 H2]. cbn [fold_left]. rewrite Rmax_right by exact H1. change (last (x :: y :: l) d) with (last (y :: l) d). exact (IH y H2).
Qed.
Lemma last_map {A} (f : A -> R) l d : l <> [] -> forall d', last (map f l) d' = f (last l d).
Proof. induction l as [|a [|b l] IH]; intros N d'; [congruence|reflexivity|]. exact (IH ltac:(discriminate) d'). Qed.
(** The sums without the first *)
Lemma cumulative_eq x l : cumulative (x :: l) = 0 :: cumsum_from 0 l.
Proof.
  unfold cumulative. cbn [cumsum_from hd map]. f_equal; [lra|]. assert (G : forall l acc, map (fun c => c - x) (cumsum_from (acc + x) l) = cumsum_from acc l).
  { clear l. induction l as [|y l IH]; intro acc; [reflexivity|]. cbn [cumsum_from map]. f_equal; [lra|]. rewrite <- (IH (acc + y)). do 2 f_equal. lra. }
  exact (G l 0).
Qed.
Lemma cumulative_nondec f : (forall x, In x (tl f) -> 0 <= x) -> nondec (cumulative f).
Proof. destruct f as [|x l]; intro H; [exact I|]. rewrite cumulative_eq. apply cumsum_nondec. exact H. Qed.
Lemma cumulative_strict f : (forall x, In x (tl f) -> 0 < x) -> strict (cumulative f).
Proof. destruct f as [|x l]; intro H; [exact I|]. rewrite cumulative_eq. apply cumsum_strict. exact H. Qed.
Lemma cumulative_length f : length (cumulative f) = length f.
Proof. unfold cumulative. rewrite map_length. apply cumsum_length. Qed.
Lemma cumsum_last_pos l : forall acc, 0 <= acc -> (forall x, In x l -> 0 <= x) -> (0 < acc \/ exists x, In x l /\ 0 < x) -> 0 < last (acc :: cumsum_from acc l) 0.
Proof.
  induction l as [|x l IH]; intros acc A H [P|(y & I & P)]; try (exact P); try contradiction.
  - change (last (acc :: cumsum_from acc (x :: l)) 0) with (last ((acc + x) :: cumsum_from (acc + x) l) 0). specialize (H x (or_introl eq_refl)) as HX. apply IH; [lra|intros z J; apply H; right; exact J|left; lra].
  - change (last (acc :: cumsum_from acc (x :: l)) 0) with (last ((acc + x) :: cumsum_from (acc + x) l) 0). specialize (H x (or_introl eq_refl)) as HX. apply IH; [lra|intros z J; apply H; right; exact J|]. destruct I as [->|I]; [left; lra|right; exists y; auto].
Qed.
Lemma cumulative_last_pos f : (forall x, In x (tl f) -> 0 <= x) -> (exists x, In x (tl f) /\ 0 < x) -> 0 < last (cumulative f) 0.
Proof. destruct f as [|x l]; intros H [y [I P]]; [contradiction|]. rewrite cumulative_eq. apply cumsum_last_pos; [lra|exact H|right; exists y; auto]. Qed.
Lemma cumulative_hd f : hd 0 (cumulative f) = 0.
Proof. destruct f as [|x l]; [reflexivity|]. rewrite cumulative_eq. reflexivity. Qed.

(** A table from 0 to its total *)
Definition table (total : R) (c : list R) : Prop := c <> [] /\ hd 0 c = 0 /\ nondec c /\ last c 0 = total.
Lemma normalised_table total f : 0 <= total -> (forall x, In x (tl f) -> 0 <= x) -> (exists x, In x (tl f) /\ 0 < x) -> table total (normalised_to total (cumulative f)) /\ length (normalised_to total (cumulative f)) = length f /\ (0 < total -> (forall x, In x (tl f) -> 0 < x) -> strict (normalised_to total (cumulative f))).
Proof.
  intros T H P. assert (N : cumulative f <> []) by (destruct f as [|x l]; [destruct P as (? & [] & _)|rewrite cumulative_eq; discriminate]). pose proof (cumulative_nondec f H) as ND. pose proof (cumulative_last_pos f H P) as LP. pose proof (rmax_last (cumulative f) 0 N ND) as RM. unfold normalised_to. rewrite RM. set (m := last (cumulative f) 0) in *.
  assert (IV : 0 < / m) by (apply Rinv_0_lt_compat; exact LP). split; [split; [|split; [|split]]|split].
  - destruct (cumulative f); [congruence|discriminate].
  - destruct f as [|x l]; [exfalso; apply N; reflexivity|]. rewrite cumulative_eq. cbn. unfold Rdiv. lra.
  - apply map_nondec; [|exact ND]. intros x y L. unfold Rdiv. apply Rmult_le_compat_r; [exact T|]. apply Rmult_le_compat_r; lra.
  - rewrite (last_map _ _ 0 N). fold m. field. lra.
  - rewrite map_length. apply cumulative_length.
  - intros T' H'. apply map_strict; [|apply cumulative_strict; exact H']. intros x y L. unfold Rdiv. apply Rmult_lt_compat_r; [exact T'|]. apply Rmult_lt_compat_r; lra.
Qed.
Lemma combine_fst {A B} (l : list A) (l' : list B) : length l = length l' -> map fst (combine l l') = l.
Proof. revert l'. induction l as [|a l IH]; intros [|b l'] H; cbn in *; try lia; try reflexivity. f_equal. apply IH. lia. Qed.
Lemma combine_snd {A B} (l : list A) (l' : list B) : length l = length l' -> map snd (combine l l') = l'.
Proof. revert l'. induction l as [|a l IH]; intros [|b l'] H; cbn in *; try lia; try reflexivity. f_equal. apply IH. lia. Qed.
Lemma swap_combine (l l' : list R) : swap (combine l l') = combine l' l.
Proof. revert l'. induction l as [|a l IH]; intros [|b l']; cbn; try reflexivity. f_equal. apply IH. Qed.
Lemma hd_combine (l l' : list R) : length l = length l' -> hd (0, 0) (combine l l') = (hd 0 l, hd 0 l').
Proof. destruct l, l'; cbn; intro; try lia; reflexivity. Qed.
Lemma last_combine (l l' : list R) : length l = length l' -> last (combine l l') (0, 0) = (last l 0, last l' 0).
Proof. revert l'. induction l as [|a [|b l] IH]; intros [|a' [|b' l']] H; cbn in H; try lia; try reflexivity. apply (IH (b' :: l')). cbn. lia. Qed.
Lemma combine_nil (l l' : list R) : length l = length l' -> l <> [] -> combine l l' <> [].
Proof. destruct l, l'; cbn; intros; try lia; congruence. Qed.
