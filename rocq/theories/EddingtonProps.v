(** C105 and C106: the Eddington limit and the beaming of accretion above it *)
From Coq Require Import Reals String Bool List Lia Lra.
From Verif Require Import PyBase OrbitModel InspiralModel AccretionModel RealLemmas.
Import ListNotations.
Open Scope string_scope.
Open Scope R_scope.
Open Scope list_scope.

(** ** Specification *)
(** cm: the last stable orbit of a black hole binds 1 - sqrt (8/9) of the rest energy; a neutron star has 12.5 km *)
Definition bound_at_isco : R := 1 - sqrt (8 / 9).
(** The luminosity (erg / s) at which radiation pressure on electrons balances gravity, for [mass] solar masses and a fraction X of hydrogen *)
Definition L_edd (mass X : R) : R := 4 * PI * standard_cgrav * (mass * Msun) * clight / (0.2 * (1 + X)).

Lemma G_pos : 0 < standard_cgrav. Proof. unfold standard_cgrav. lra. Qed.
Lemma c_pos : 0 < clight. Proof. unfold clight. lra. Qed.
Lemma Ms_pos : 0 < Msun. Proof. unfold Msun. lra. Qed.
Lemma Rs_pos : 0 < Rsun. Proof. unfold Rsun. lra. Qed.
Lemma yr_pos : 0 < secyer. Proof. unfold secyer. lra. Qed.
Lemma isco_pos : 0 < bound_at_isco.
Proof. unfold bound_at_isco. enough (sqrt (8 / 9) < 1) by lra. rewrite <- sqrt_1. apply sqrt_lt_1_alt. lra. Qed.
Lemma isco_lower : 0.0571 < bound_at_isco < 0.0573.
Proof.
  assert (H : sqrt (8 / 9) ^ 2 = 8 / 9) by (simpl; rewrite Rmult_1_r; apply sqrt_sqrt; lra). assert (P := sqrt_pos (8 / 9)). unfold bound_at_isco. split; nra.
Qed.
Lemma BH_eta m : 0 < m -> efficiency "BH" m = Ok bound_at_isco.
Proof.
  intros M. unfold efficiency. cbn [String.eqb Ascii.eqb Bool.eqb]. replace (6 / 6) with 1 by field. rewrite sqrt_1, Rmult_1_r.
  rewrite Rmin_left.
  - unfold bound_at_isco. f_equal. f_equal. f_equal. field. lra.
  - assert (1 <= sqrt 6) by (rewrite <- sqrt_1; apply sqrt_le_1_alt; lra). nra.
Qed.
Lemma NS_eta m : 0 < m -> efficiency "NS" m = Ok (standard_cgrav * m / (12.5e5 * clight ^ 2)).
Proof.
  intros M. unfold efficiency, CO_radius. cbn [String.eqb Ascii.eqb Bool.eqb]. destruct (Rle_dec m 0) as [|_]; [Lra.lra |]. cbn [rbind]. f_equal.
  assert (P := Rs_pos). assert (Q := c_pos). replace (12.5e5 / Rsun * Rsun) with 12.5e5 by (field; lra). reflexivity.
Qed.
Lemma WD_eta m : 0 < m -> efficiency "WD" m = Ok (standard_cgrav * m / (2.9e8 * Rpower m (- (1) / 3) * clight ^ 2)).
Proof.
  intros M. unfold efficiency, CO_radius. cbn [String.eqb Ascii.eqb Bool.eqb]. destruct (Rle_dec m 0) as [|_]; [Lra.lra |]. cbn [rbind]. f_equal.
  assert (P := Rs_pos). assert (Q := c_pos). assert (W := Rpower_pos m (- (1) / 3)). set (u := Rpower m (- (1) / 3)) in *. clearbody u.
  replace (2.9e8 * u / Rsun * Rsun) with (2.9e8 * u) by (field; lra). reflexivity.
Qed.

(** Black holes and neutron stars: the luminosity of the accreted mass is Eddington's. *)
Theorem C105_limit :
  forall h t mass h1, 0 < mass -> t = "BH" \/ t = "NS" -> (forall x, h1 = Some x -> -1 < x) ->
  exists mdot eta, edd_one h (Some t) mass h1 = Ok (mdot, eta) /\ 0 < mdot /\ 0 < eta /\
    eta * (mdot * Msun / secyer) * clight ^ 2 = L_edd mass (match h1 with Some x => x | None => 0.7155 end) /\
    (t = "BH" -> 0.0571 < eta < 0.0573 /\ (1 - eta) ^ 2 = 8 / 9) /\
    (t = "NS" -> eta * 12.5e5 * clight ^ 2 = standard_cgrav * (mass * Msun)).
Proof.
  intros h t mass h1 M T X.
  assert (P1 := G_pos). assert (P2 := c_pos). assert (P3 := Ms_pos). assert (P4 := yr_pos). assert (P5 := PI_RGT_0).
  assert (MM : 0 < mass * Msun) by (apply Rmult_lt_0_compat; assumption).
  assert (H1 : 0 < 1 + match h1 with Some x => x | None => 0.7155 end) by (destruct h1 as [x|]; [specialize (X x eq_refl) |]; lra).
  assert (F : fill h1 = match h1 with Some x => x | None => 0.7155 end) by reflexivity. rewrite <- F in *. clear F. set (x := fill h1) in *.
  unfold edd_one. cbn [known_state rbind]. fold x.
  assert (E : exists eta, efficiency t (mass * Msun) = Ok eta /\ 0 < eta /\ (t = "BH" -> eta = bound_at_isco) /\ (t = "NS" -> eta * 12.5e5 * clight ^ 2 = standard_cgrav * (mass * Msun))).
  { destruct T as [-> | ->].
    - exists bound_at_isco. repeat split; [now apply BH_eta | apply isco_pos | discriminate].
    - exists (standard_cgrav * (mass * Msun) / (12.5e5 * clight ^ 2)). repeat split; [now apply NS_eta | | discriminate |].
      + apply Rmult_lt_0_compat; [now apply Rmult_lt_0_compat |]. apply Rinv_0_lt_compat. apply Rmult_lt_0_compat; [lra | now apply pow_lt].
      + intros _. clearbody x. generalize dependent clight. intros c P2. field. lra. }
  destruct E as (eta & E & Ep & Eb & En). rewrite E. cbn [rbind].
  exists (4 * PI * standard_cgrav * (mass * Msun) / (0.2 * (1 + x) * eta * clight) / (Msun / secyer)), eta. split; [reflexivity |]. split; [| split; [assumption |]].
  - set (k := clight) in *. set (y := Msun) in *. set (g := standard_cgrav) in *. set (s := secyer) in *. clearbody k y g s x.
    apply Rmult_lt_0_compat; [apply Rmult_lt_0_compat |].
    + set (p := PI) in *. clearbody p. apply Rmult_lt_0_compat; [apply Rmult_lt_0_compat; lra | assumption].
    + apply Rinv_0_lt_compat. apply Rmult_lt_0_compat; [| assumption]. apply Rmult_lt_0_compat; [| assumption]. apply Rmult_lt_0_compat; lra.
    + apply Rinv_0_lt_compat. apply Rmult_lt_0_compat; [lra |]. now apply Rinv_0_lt_compat.
  - split; [| split].
    + unfold L_edd. set (k := clight) in *. set (y := Msun) in *. set (g := standard_cgrav) in *. set (s := secyer) in *. clearbody k y g s x. field. repeat split; lra.
    + intros ->. rewrite (Eb eq_refl). split; [apply isco_lower |]. unfold bound_at_isco. replace (1 - (1 - sqrt (8 / 9))) with (sqrt (8 / 9)) by ring.
      simpl. rewrite Rmult_1_r. apply sqrt_sqrt. lra.
    + assumption.
Qed.
(** So the limit of black holes is proportional to their mass, and that of neutron stars the same for all masses. *)
Theorem C105_mass :
  forall h mass mass' h1 a b, 0 < mass -> 0 < mass' -> (forall x, h1 = Some x -> -1 < x) ->
  (edd_one h (Some "BH") mass h1 = Ok a -> edd_one h (Some "BH") mass' h1 = Ok b -> fst a / mass = fst b / mass') /\
  (edd_one h (Some "NS") mass h1 = Ok a -> edd_one h (Some "NS") mass' h1 = Ok b -> fst a = fst b).
Proof.
  intros h mass mass' h1 a b M M' X.
  assert (P1 := G_pos). assert (P2 := c_pos). assert (P3 := Ms_pos). assert (P4 := yr_pos). assert (P5 := PI_RGT_0). assert (P6 := isco_pos).
  assert (MM : 0 < mass * Msun) by (apply Rmult_lt_0_compat; assumption). assert (MM' : 0 < mass' * Msun) by (apply Rmult_lt_0_compat; assumption).
  assert (H1 : 0 < 1 + fill h1) by (unfold fill; destruct h1 as [x|]; [specialize (X x eq_refl) |]; lra).
  split; unfold edd_one; cbn [known_state rbind]; rewrite ?BH_eta, ?NS_eta by assumption; cbn [rbind]; intros HA HB; inversion HA as [HA']; inversion HB as [HB']; cbn [fst]; clear - P1 P2 P3 P4 P5 P6 MM MM' H1 M M'.
  - set (k := clight) in *. set (y := Msun) in *. set (g := standard_cgrav) in *. set (s := secyer) in *. set (i := bound_at_isco) in *. clearbody k y g s i. field. repeat split; lra.
  - set (k := clight) in *. set (y := Msun) in *. set (g := standard_cgrav) in *. set (s := secyer) in *. clearbody k y g s.
    field. repeat split; try lra.
Qed.
(** White dwarfs: the mass is given in grams to a function that expects solar masses, so that the radius is too small and the efficiency too
    large by the cube root of 2e33; it exceeds 100000 times the rest energy. *)
Theorem C105_white_dwarf :
  forall h mass h1 r, 0 < mass -> edd_one h (Some "WD") mass h1 = Ok r ->
  exists R, CO_radius mass "WD" = Ok R /\ snd r = Rpower Msun (1 / 3) * (standard_cgrav * (mass * Msun) / (R * Rsun * clight ^ 2)).
Proof.
  intros h mass h1 r M. assert (P3 := Ms_pos). assert (MM : 0 < mass * Msun) by (apply Rmult_lt_0_compat; assumption).
  unfold edd_one. cbn [known_state rbind]. rewrite WD_eta by assumption. cbn [rbind]. intros E. inversion E as [E']. clear E E'. cbn [snd].
  unfold CO_radius. cbn [String.eqb Ascii.eqb Bool.eqb]. destruct (Rle_dec mass 0) as [|_]; [Lra.lra |]. eexists. split; [reflexivity |].
  assert (P1 := G_pos). assert (P2 := c_pos). assert (P4 := Rs_pos).
  rewrite <- Rpower_mult_distr by assumption. replace (- (1) / 3) with (- (1 / 3)) by field.
  rewrite !(Rpower_Ropp _ (1 / 3)).
  assert (A := Rpower_pos Msun (1 / 3)). assert (B := Rpower_pos mass (1 / 3)).
  set (u := Rpower Msun (1 / 3)) in *. set (v := Rpower mass (1 / 3)) in *. set (k := clight) in *. set (y := Msun) in *. set (g := standard_cgrav) in *. set (s := Rsun) in *. clearbody k y g s u v.
  field. repeat split; lra.
Qed.
Theorem C105_white_dwarf_refuted :
  forall h mass h1 r, 0.1 <= mass -> edd_one h (Some "WD") mass h1 = Ok r -> 1000000 < snd r.
Proof.
  intros h mass h1 r M. assert (P3 := Ms_pos). assert (MM : 0 < mass * Msun) by (apply Rmult_lt_0_compat; lra).
  unfold edd_one. cbn [known_state rbind]. rewrite WD_eta by assumption. cbn [rbind]. intros E. apply (f_equal (fun x => match x with Ok y => snd y | Raise _ => 0 end)) in E. cbn [snd] in E. rewrite <- E. clear E.
  assert (B : 1.9e32 <= mass * Msun) by (unfold Msun; lra). set (m := mass * Msun) in *. clearbody m.
  assert (C : 5e10 <= Rpower m (1 / 3)).
  { assert (P := Rpower_pos m (1 / 3)). assert (Q := Rpower_cube m MM). destruct (Rle_dec 5e10 (Rpower m (1 / 3))) as [|N]; [assumption |]. exfalso.
    assert (H := cube_lt _ _ (Rnot_le_lt _ _ N)). rewrite Q in H. lra. }
  replace (- (1) / 3) with (- (1 / 3)) by field. rewrite Rpower_Ropp.
  assert (P := Rpower_pos m (1 / 3)). set (u := Rpower m (1 / 3)) in *. clearbody u. assert (P1 := G_pos). assert (P2 := c_pos).
  assert (L : 1000000 * (2.9e8 * clight ^ 2) < standard_cgrav * 1.9e32 * 5e10) by (unfold standard_cgrav, clight; lra).
  assert (D : 0 < 2.9e8 * clight ^ 2) by (apply Rmult_lt_0_compat; [lra | now apply pow_lt]).
  replace (standard_cgrav * m / (2.9e8 * / u * clight ^ 2)) with (standard_cgrav * m * u / (2.9e8 * clight ^ 2)).
  - set (d := 2.9e8 * clight ^ 2) in *. set (g := standard_cgrav) in *. clearbody d g. apply (Rmult_lt_reg_r d); [assumption |].
    replace (g * m * u / d * d) with (g * m * u) by (field; lra).
    apply (Rlt_le_trans _ _ _ L). assert (g * 1.9e32 <= g * m) by (apply Rmult_le_compat_l; lra). apply (Rmult_le_compat (g * 1.9e32) (g * m) 5e10 u); [nra | lra | assumption | lra].
  - set (k := clight) in *. set (g := standard_cgrav) in *. clearbody k g. field. split; lra.
Qed.

(** Which star, and which of several indices *)
Definition kind (s : star) : bool := match state s with Some t => existsb (String.eqb t) ["NS"; "BH"; "WD"] | None => false end.
Theorem C105_accretor :
  forall s1 s2 idx,
  (kind s1 = false -> kind s2 = false -> eddington_limit s1 s2 idx = Raise ValueError) /\
  (kind s1 = false \/ kind s2 = false -> eddington_limit s1 s2 idx = eddington_limit s2 s1 idx) /\
  (kind s1 = true -> forall s2', h1s s2' = h1s s2 -> eddington_limit s1 s2' idx = eddington_limit s1 s2 idx).
Proof.
  intros s1 s2 idx. split; [|split; [|intros K s2' H; unfold eddington_limit, accretor_donor; change (is_CO (state s1)) with (kind s1); rewrite K; cbn [rbind]; rewrite H; reflexivity]].
  all: unfold eddington_limit, accretor_donor; change (is_CO (state s1)) with (kind s1); change (is_CO (state s2)) with (kind s2).
  all: destruct (kind s1), (kind s2); intros; try discriminate; try reflexivity; destruct H; discriminate.
Qed.
Lemma each_app {A B} (f : A -> result B) l1 l2 : each f (l1 ++ l2) = rbind (each f l1) (fun a => rbind (each f l2) (fun b => Ok (a ++ b))).
Proof.
  induction l1 as [|x l1 IH]; cbn [each app rbind].
  - destruct (each f l2); reflexivity.
  - rewrite IH. destruct (f x); [| reflexivity]. cbn [rbind]. destruct (each f l1); [| reflexivity]. cbn [rbind]. destruct (each f l2); reflexivity.
Qed.
Lemma each_ok {A B} (f : A -> result B) l : (exists r, each f l = Ok r) <-> Forall (fun x => exists r, f x = Ok r) l.
Proof.
  induction l as [|x l IH]; cbn [each].
  - split; [constructor | intros _; now exists []].
  - split.
    + intros [r H]. destruct (f x) as [y|] eqn:F; cbn [rbind] in H; [| discriminate]. constructor; [now exists y |]. apply IH. destruct (each f l) as [z|]; cbn [rbind] in H; [| discriminate]. now exists z.
    + intros H. inversion H as [|? ? [y F] T]; subst. rewrite F. cbn [rbind]. apply IH in T. destruct T as [z T]. rewrite T. now exists (y :: z).
Qed.
Theorem C105_last :
  forall s1 s2 idx i r, eddington_limit s1 s2 (idx ++ [i]) = Ok r <->
  eddington_limit s1 s2 [i] = Ok r /\ Forall (fun j => exists q, eddington_limit s1 s2 [j] = Ok q) idx.
Proof.
  intros s1 s2 idx i r. unfold eddington_limit. destruct (accretor_donor s1 s2) as [[a d]|] eqn:AD; cbn [rbind]; [| split; [discriminate | now intros [? _]]].
  set (f := fun i0 : nat => rbind (at_ (states a ++ [state a]) i0) _). rewrite each_app.
  assert (Q : forall j q, match rbind (each f [j]) (fun l => match rev l with r0 :: _ => Ok r0 | [] => Raise NameError end) with Ok x => Ok x | Raise e => Raise e end = Ok q <-> f j = Ok q).
  { intros j q. cbn [each rbind]. destruct (f j); cbn [rbind rev app]; split; intros H; congruence. }
  assert (Q' : forall j q, rbind (each f [j]) (fun l => match rev l with r0 :: _ => Ok r0 | [] => Raise NameError end) = Ok q <-> f j = Ok q).
  { intros j q. rewrite <- Q. destruct (rbind (each f [j]) _); split; intros H; congruence. }
  rewrite Q'.
  assert (FA : Forall (fun j => exists q, rbind (each f [j]) (fun l => match rev l with r0 :: _ => Ok r0 | [] => Raise NameError end) = Ok q) idx <-> Forall (fun j => exists q, f j = Ok q) idx).
  { split; intros H; eapply Forall_impl; try exact H; cbn beta; intros j [q E]; exists q; now apply Q'. }
  rewrite FA, <- each_ok. cbn [each]. destruct (each f idx) as [l|]; cbn [rbind].
  - destruct (f i) as [y|]; cbn [rbind].
    + rewrite rev_app_distr. cbn [rev app]. split; [intros E; split; [assumption | now exists l] | tauto].
    + split; [discriminate | intros [? _]; discriminate].
  - split; [discriminate | intros [_ [? ?]]; discriminate].
Qed.
(** So in the evolution of a companion over several times, the limit of the last one is used for all of them; and times at which the accretor
    was not yet compact are refused. *)
Definition hole (l : list R) : star := Star (map (fun _ => Some "BH") (tl l)) (Some "BH") l [].
Definition giver (n : nat) : star := Star (repeat (Some "H-rich_Core_H_burning") n) (Some "H-rich_Core_H_burning") (repeat 10 (Datatypes.S n)) (repeat (Some 0.7) (Datatypes.S n)).
Theorem C105_rows_refuted :
  exists r r', eddington_limit (hole [10; 20]) (giver 1) [0%nat] = Ok r /\ eddington_limit (hole [10; 20]) (giver 1) [0%nat; 1%nat] = Ok r' /\ fst r' = 2 * fst r /\ 0 < fst r.
Proof.
  assert (P3 := Ms_pos).
  destruct (C105_limit [Some "BH"] "BH" 10 (Some 0.7)) as (a & e & H & Ha & _); [lra | now left | intros x E; inversion E; lra |].
  destruct (C105_limit [Some "BH"] "BH" 20 (Some 0.7)) as (a' & e' & H' & Ha' & _); [lra | now left | intros x E; inversion E; lra |].
  exists (a, e), (a', e'). cbn [fst]. unfold eddington_limit, accretor_donor, hole, giver. cbn [state is_CO existsb String.eqb Ascii.eqb Bool.eqb orb rbind each states map tl app masses h1s repeat at_ nth_error].
  rewrite H. rewrite H'. cbn [rbind rev app]. repeat split; try assumption.
  assert (C := proj1 (C105_mass [Some "BH"] 10 20 (Some 0.7) (a, e) (a', e') ltac:(lra) ltac:(lra) ltac:(intros x E; inversion E; lra)) H H'). cbn [fst] in C. lra.
Qed.
Theorem C105_before_collapse :
  forall h s mass h1, s <> "BH" -> s <> "NS" -> s <> "WD" -> edd_one h (Some s) mass h1 = Raise ValueError.
Proof.
  intros h s mass h1 B N W. apply String.eqb_neq in B, N, W. unfold edd_one, efficiency, CO_radius. cbn [known_state rbind]. rewrite B, N, W.
  destruct (Rle_dec (mass * Msun) 0); reflexivity.
Qed.
(** A missing state is taken from the history, a neutron star first *)
Theorem C105_missing_state :
  forall h mass h1, let has t := In (Some t) h in
  (has "NS" -> edd_one h None mass h1 = edd_one h (Some "NS") mass h1) /\
  (~ has "NS" -> has "BH" -> edd_one h None mass h1 = edd_one h (Some "BH") mass h1) /\
  (~ has "NS" -> ~ has "BH" -> has "WD" -> edd_one h None mass h1 = edd_one h (Some "WD") mass h1) /\
  (~ has "NS" -> ~ has "BH" -> ~ has "WD" -> edd_one h None mass h1 = Raise ValueError).
Proof.
  intros h mass h1 has. assert (SEEN : forall t, seen t h = true <-> has t).
  { intros t. unfold seen, has. rewrite existsb_exists. split.
    - intros ([u|] & I & E); [| discriminate]. apply String.eqb_eq in E. now subst u.
    - intros I. exists (Some t). split; [assumption | apply String.eqb_refl]. }
  unfold edd_one. cbn [known_state]. rewrite <- !SEEN. destruct (seen "NS" h), (seen "BH" h), (seen "WD" h); repeat split; intros; try reflexivity; exfalso; auto; discriminate.
Qed.
Example C105_case :
  exists r, eddington_limit (hole [10; 20]) (giver 1) [1%nat] = Ok r /\ 8.6e-7 < fst r < 1.2e-6.
Proof.
  destruct (C105_limit [Some "BH"] "BH" 20 (Some 0.7)) as (a & e & H & Ha & He & L & B & _); [lra | now left | intros x E; inversion E; lra |].
  exists (a, e). split.
  - unfold eddington_limit, accretor_donor, hole, giver. cbn [state is_CO existsb String.eqb Ascii.eqb Bool.eqb orb rbind each states map tl app masses h1s repeat at_ nth_error].
    rewrite H. reflexivity.
  - cbn [fst]. destruct (B eq_refl) as [Be _]. unfold L_edd in L.
    assert (P1 := PI_RGT_0). assert (P2 := PI_4). assert (P3 := PI2_3_2).
    assert (Q : e * a = 4 * PI * standard_cgrav * 20 * secyer / (0.2 * (1 + 0.7) * clight)).
    { assert (C := c_pos). assert (D := Ms_pos). assert (F := yr_pos).
      replace (e * (a * Msun / secyer) * clight ^ 2) with ((e * a) * (Msun * clight ^ 2 / secyer)) in L by (field; lra).
      apply (Rmult_eq_reg_r (Msun * clight ^ 2 / secyer)).
      - rewrite L. set (k := clight) in *. set (y := Msun) in *. set (g := standard_cgrav) in *. set (s := secyer) in *. clearbody k y g s. field. lra.
      - apply Rgt_not_eq. apply Rmult_lt_0_compat; [apply Rmult_lt_0_compat; [assumption | now apply pow_lt] | now apply Rinv_0_lt_compat]. }
    assert (Q1 : 1.65e-8 * PI < e * a < 1.66e-8 * PI) by (rewrite Q; unfold standard_cgrav, secyer, clight; lra). clear Q L H. split; nra.
Qed.
Print Assumptions C105_limit. Print Assumptions C105_mass. Print Assumptions C105_white_dwarf. Print Assumptions C105_white_dwarf_refuted.
Print Assumptions C105_accretor. Print Assumptions C105_last. Print Assumptions C105_rows_refuted. Print Assumptions C105_before_collapse. Print Assumptions C105_missing_state.

(** ** C106: beaming *)
(** [x] times the limit is transferred *)
Definition times (mdot_edd x : R) : option R := Some (ln (x * mdot_edd) / ln 10).
Lemma ln10_pos : 0 < ln 10. Proof. rewrite <- ln_1. apply ln_increasing; lra. Qed.
Lemma times_rate edd x : 0 < edd -> 0 < x -> Rpower 10 (ln (x * edd) / ln 10) = x * edd.
Proof.
  intros E X. unfold Rpower. assert (P := ln10_pos). replace (ln (x * edd) / ln 10 * ln 10) with (ln (x * edd)) by (field; lra). apply exp_ln. now apply Rmult_lt_0_compat.
Qed.
Lemma beaming_value edd x : 0 < edd -> 0 < x ->
  beaming edd (times edd x) =
  if Rle_dec 1 x then let b := if Rlt_dec 8.5 x then 73 / x ^ 2 else 1 in (Some (edd * (1 + ln x) / b), b) else (Some (x * edd), 1).
Proof.
  intros E X. unfold beaming, times. rewrite times_rate by assumption. replace (x * edd / edd) with x by (field; lra).
  destruct (Rle_dec edd (x * edd)), (Rle_dec 1 x); try (exfalso; nra); [| reflexivity].
  destruct (Rlt_dec (8.5 * edd) (x * edd)), (Rlt_dec 8.5 x); try (exfalso; nra); reflexivity.
Qed.
(** Every rate is some multiple of the limit *)
Lemma every_rate edd lg : 0 < edd -> exists x, 0 < x /\ Some lg = times edd x.
Proof.
  intros E. exists (Rpower 10 lg / edd). assert (P := Rpower_pos 10 lg). split; [apply Rmult_lt_0_compat; [assumption | now apply Rinv_0_lt_compat] |].
  unfold times. f_equal. replace (Rpower 10 lg / edd * edd) with (Rpower 10 lg) by (field; lra). unfold Rpower. rewrite ln_exp. assert (Q := ln10_pos). field. lra.
Qed.
(** Below the limit nothing is beamed; above, the true luminosity (b times the apparent one) grows with the logarithm, and the cone narrows
    with the inverse square of the rate. *)
Theorem C106_apparent :
  forall edd lg, 0 < edd -> exists rate b, beaming edd (Some lg) = (Some rate, b) /\ 0 < rate /\ 0 < b /\
  (Rpower 10 lg < edd -> b = 1 /\ rate = Rpower 10 lg) /\
  (edd <= Rpower 10 lg -> b * rate = edd * (1 + ln (Rpower 10 lg / edd))) /\
  (8.5 * edd < Rpower 10 lg -> b * (Rpower 10 lg / edd) ^ 2 = 73) /\
  (Rpower 10 lg <= 8.5 * edd -> b = 1).
Proof.
  intros edd lg E. destruct (every_rate edd lg E) as (x & X & L). rewrite L, beaming_value by assumption.
  assert (Q : Rpower 10 lg = x * edd) by (unfold times in L; injection L; intros ->; now apply times_rate). rewrite Q.
  replace (x * edd / edd) with x by (field; lra).
  destruct (Rle_dec 1 x) as [H|H].
  - assert (LN : 0 <= ln x). { rewrite <- ln_1. destruct (Req_dec x 1) as [-> | N]; [lra |]. left. apply ln_increasing; lra. }
    destruct (Rlt_dec 8.5 x) as [B|B].
    + assert (PB : 0 < 73 / x ^ 2) by (apply Rmult_lt_0_compat; [lra | apply Rinv_0_lt_compat; now apply pow_lt]).
      eexists. eexists. split; [reflexivity |]. cbn zeta. split; [| split; [assumption |]].
      * apply Rmult_lt_0_compat; [nra | now apply Rinv_0_lt_compat].
      * repeat split; intros; try (exfalso; nra); field; lra.
    + eexists. eexists. split; [reflexivity |]. cbn zeta. replace (edd * (1 + ln x) / 1) with (edd * (1 + ln x)) by field. repeat split; intros; try nra.
  - eexists. eexists. split; [reflexivity |]. repeat split; intros; try nra.
Qed.
(** The factor never exceeds 1, except just above 8.5 times the limit, where it reaches 73 / 72.25. *)
Theorem C106_factor :
  forall edd lg rate b, 0 < edd -> beaming edd lg = (rate, b) ->
  b < 73 / 72.25 /\ (1 < b <-> exists l, lg = Some l /\ 8.5 * edd < Rpower 10 l < sqrt 73 * edd).
Proof.
  intros edd [lg|] rate b E H.
  - destruct (every_rate edd lg E) as (x & X & L). rewrite L, beaming_value in H by assumption.
    assert (Q : Rpower 10 lg = x * edd) by (unfold times in L; injection L; intros ->; now apply times_rate).
    assert (S1 : sqrt 73 * sqrt 73 = 73) by (apply sqrt_sqrt; lra). assert (S2 := sqrt_pos 73). set (s := sqrt 73) in *. clearbody s.
    assert (R1 : (exists l, Some lg = Some l /\ 8.5 * edd < Rpower 10 l < s * edd) <-> 8.5 < x < s).
    { split.
      - intros (l & K & A). injection K; intros <-. rewrite Q in A. nra.
      - intros A. exists lg. split; [reflexivity |]. rewrite Q. nra. }
    rewrite L in R1. rewrite L. rewrite R1. clear R1 L Q.
    destruct (Rle_dec 1 x) as [A|A]; [destruct (Rlt_dec 8.5 x) as [B|B] |]; injection H; intros <- _; clear H.
    + change (x * (x * 1)) with (x ^ 2). assert (P : 0 < x ^ 2) by now apply pow_lt. assert (P' : 8.5 * 8.5 < x ^ 2) by nra. split.
      * unfold Rdiv. apply Rmult_lt_compat_l; [lra |]. apply Rinv_lt_contravar; [| lra]. apply Rmult_lt_0_compat; lra.
      * assert (W : 73 / x ^ 2 * x ^ 2 = 73) by (field; lra). assert (0 < 73 / x ^ 2) by (apply Rmult_lt_0_compat; [lra | now apply Rinv_0_lt_compat]).
        set (t := 73 / x ^ 2) in *. clearbody t. split.
        -- intros T. split; [assumption |]. assert (1 * x ^ 2 < t * x ^ 2) by (apply Rmult_lt_compat_r; lra). assert (x ^ 2 < 73). { idtac. lra. } destruct (Rlt_dec x s) as [|N]; [assumption |]. apply Rnot_lt_le in N. assert (s * s <= x * x) by (apply Rmult_le_compat; lra). exfalso. simpl in *. lra.
        -- intros [_ T]. assert (x * x < s * s) by (apply Rmult_le_0_lt_compat; lra). assert (x ^ 2 < 73) by (simpl; lra). destruct (Rlt_dec 1 t) as [|N]; [assumption |]. apply Rnot_lt_le in N. assert (t * x ^ 2 <= 1 * x ^ 2) by (apply Rmult_le_compat_r; lra). lra.
    + split; [lra |]. split; [lra |]. intros []. lra.
    + split; [lra |]. split; [lra |]. intros []. lra.
  - cbn in H. injection H; intros <- _. split; [lra |]. split; [lra |]. intros (l & D & _). discriminate.
Qed.
(** More transfer looks brighter, except across that point. *)
Theorem C106_monotone :
  forall edd l l' rate rate' b b', 0 < edd -> l <= l' -> (Rpower 10 l' <= 8.5 * edd \/ 8.5 * edd < Rpower 10 l) ->
  beaming edd (Some l) = (Some rate, b) -> beaming edd (Some l') = (Some rate', b') -> rate <= rate'.
Proof.
  intros edd l l' rate rate' b b' E LL SIDE H H'.
  destruct (every_rate edd l E) as (x & X & L). destruct (every_rate edd l' E) as (x' & X' & L'). rewrite L in H. rewrite L' in H'. rewrite beaming_value in H, H' by assumption.
  assert (Q : Rpower 10 l = x * edd) by (unfold times in L; injection L; intros ->; now apply times_rate).
  assert (Q' : Rpower 10 l' = x' * edd) by (unfold times in L'; injection L'; intros ->; now apply times_rate).
  assert (XX : x <= x').
  { assert (Rpower 10 l <= Rpower 10 l') by (destruct LL as [LL | ->]; [left; apply Rpower_lt; lra | lra]). nra. }
  rewrite Q, Q' in SIDE. clear L L' Q Q' LL.
  assert (LN : 1 <= x -> 0 <= ln x <= ln x').
  { intros A. rewrite <- ln_1 at 1. assert (M : forall u v, 0 < u -> u <= v -> ln u <= ln v) by (intros u v U [UV | ->]; [left; now apply ln_increasing | lra]). split; apply M; lra. }
  destruct SIDE as [SIDE|SIDE].
  - assert (x' <= 8.5) by nra. clear SIDE. destruct (Rle_dec 1 x) as [A|A], (Rle_dec 1 x') as [A'|A']; [| lra | |].
    + destruct (Rlt_dec 8.5 x); [lra |]. destruct (Rlt_dec 8.5 x'); [lra |]. injection H; injection H'; intros _ <- _ <-. specialize (LN A). unfold Rdiv. rewrite Rinv_1, !Rmult_1_r. apply Rmult_le_compat_l; lra.
    + destruct (Rlt_dec 8.5 x'); [lra |]. injection H; injection H'; intros _ <- _ <-. unfold Rdiv. rewrite Rinv_1, !Rmult_1_r.
      assert (0 <= ln x') by (rewrite <- ln_1; destruct A' as [A' | <-]; [left; apply ln_increasing; lra | lra]). rewrite (Rmult_comm x edd). apply Rmult_le_compat_l; lra.
    + injection H; injection H'; intros _ <- _ <-. apply Rmult_le_compat_r; lra.
  - assert (8.5 < x) by nra. clear SIDE. destruct (Rle_dec 1 x) as [A|A]; [| lra]. destruct (Rle_dec 1 x'); [| lra]. destruct (Rlt_dec 8.5 x); [| lra]. destruct (Rlt_dec 8.5 x'); [| lra].
    injection H; injection H'; intros _ <- _ <-. specialize (LN A). change (x * (x * 1)) with (x ^ 2). change (x' * (x' * 1)) with (x' ^ 2).
    replace (edd * (1 + ln x) / (73 / x ^ 2)) with (edd / 73 * (1 + ln x) * x ^ 2) by (field; lra).
    replace (edd * (1 + ln x') / (73 / x' ^ 2)) with (edd / 73 * (1 + ln x') * x' ^ 2) by (field; lra).
    assert (0 < edd / 73) by lra. assert (0 <= x ^ 2 <= x' ^ 2) by (split; [apply pow_le | apply pow_incr]; lra). apply Rmult_le_compat; [apply Rmult_le_pos; lra | lra | apply Rmult_le_compat_l; lra | lra].
Qed.
(** From 8.5 to 8.51 times the limit the apparent luminosity drops. *)
Theorem C106_monotone_refuted :
  forall edd, 0 < edd -> exists rate rate' b b', beaming edd (times edd 8.5) = (Some rate, b) /\ beaming edd (times edd 8.51) = (Some rate', b') /\ rate' < rate /\ 1 < b'.
Proof.
  intros edd E. rewrite !beaming_value by lra.
  destruct (Rle_dec 1 8.5); [| lra]. destruct (Rle_dec 1 8.51); [| lra]. destruct (Rlt_dec 8.5 8.5); [lra |]. destruct (Rlt_dec 8.5 8.51); [| lra].
  eexists. eexists. eexists. eexists. split; [reflexivity |]. split; [reflexivity |]. split; [| lra].
  assert (A : ln 8.51 <= ln 8.5 + 0.01 / 8.5).
  { replace 8.51 with (8.5 * (1 + 0.01 / 8.5)) by lra. rewrite ln_mult by lra. apply Rplus_le_compat_l.
    assert (P : 1 + 0.01 / 8.5 < exp (0.01 / 8.5)) by (apply exp_ineq1; lra). rewrite <- (ln_exp (0.01 / 8.5)) at 2. left. apply ln_increasing; lra. }
  assert (B : 1 < ln 8.5). { rewrite <- (ln_exp 1). apply ln_increasing; [apply exp_pos |]. assert (X := exp_le_3). lra. }
  set (u := ln 8.5) in *. set (v := ln 8.51) in *. clearbody u v.
  replace (edd * (1 + v) / (73 / 8.51 ^ 2)) with (edd * ((1 + v) * (8.51 ^ 2 / 73))) by (field; lra).
  replace (edd * (1 + u) / 1) with (edd * (1 + u)) by field. apply Rmult_lt_compat_l; [assumption |]. lra.
Qed.
Example C106_case : exists rate, beaming 1e-8 (times 1e-8 100) = (Some rate, 0.0073) /\ 1e-8 * (1 + 1) / 0.0073 < rate.
Proof.
  rewrite beaming_value by lra. destruct (Rle_dec 1 100); [| lra]. destruct (Rlt_dec 8.5 100); [| lra]. exists (1e-8 * (1 + ln 100) / 0.0073).
  assert (Q : 73 / 100 ^ 2 = 0.0073) by lra. cbn zeta. rewrite Q. split; [reflexivity |].
  assert (B : 1 < ln 100). { rewrite <- (ln_exp 1). apply ln_increasing; [apply exp_pos |]. assert (X := exp_le_3). lra. }
  unfold Rdiv. apply Rmult_lt_compat_r; [lra |]. lra.
Qed.
Print Assumptions C106_apparent. Print Assumptions C106_factor. Print Assumptions C106_monotone. Print Assumptions C106_monotone_refuted.
