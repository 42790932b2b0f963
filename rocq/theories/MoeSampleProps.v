(** What the sampler after Moe & Di Stefano (2017) returns for one primary (C147) *)
From Coq Require Import String List Bool Reals Arith Lra Lia.
From Verif Require Import PyBase MoeModel MoeProofs MoeProps.
Import ListNotations.
Open Scope string_scope.
Open Scope R_scope.
Open Scope list_scope.

Lemma nearest_in x l : l <> [] -> In (nearest x l) l.
Proof.
  destruct l as [|y l]; [congruence|]. intros _. cbn [nearest]. revert y. induction l as [|z l IH]; intro y; [left; reflexivity|]. cbn [nearest_from]. destruct (Rlt_dec _ _); [right; apply IH|]. destruct (IH y) as [E|I]; [left; exact E|right; right; exact I].
Qed.
Lemma interp_after pts u a f : nondec (map fst pts) -> nondec (map snd pts) -> In (a, f) pts -> a <= u -> f <= interp u pts.
Proof.
  induction pts as [|[a0 f0] [|[b g] pts] IH]; intros A F I U; [contradiction|destruct I as [I|[]]; cbn; assert (f0 = f) by congruence; lra|]. pose proof (interp_bounds ((b, g) :: pts) u ltac:(discriminate) (proj2 F)) as BD. pose proof (nondec_hd _ _ (proj2 A)) as NH. pose proof (nondec_hd _ _ (proj2 F)) as NF. destruct A as [A1 A2], F as [F1 F2]. specialize (IH A2 F2). cbn [fst snd map hd] in *. rewrite interp_cons. destruct I as [I|I].
  - assert (a0 = a /\ f0 = f) as [-> ->] by (split; congruence). destruct (Rlt_dec u b) as [X|X]; [|lra]. destruct (Rlt_dec u a) as [Y|Y]; [lra|]. pose proof (segment a b f g u ltac:(lra) F1 ltac:(lra)). lra.
  - destruct (Rlt_dec u b) as [X|X]; [|exact (IH I U)]. exfalso. destruct I as [I|I]; [assert (b = a) by congruence; lra|]. specialize (NH a (in_map fst _ _ I)). lra.
Qed.
(** ** What is asked of the supporting points *)
Definition good (pts : points) : Prop :=
  M1v pts <> [] /\ good_q (qv pts) /\ good_e (ev pts) /\ (forall M, In M (M1v pts) -> allM M /\ good_P (logPv pts) M) /\ (forall P, In P (logPv pts) -> circular P \/ covers (ev pts) P).
Lemma bounded c l u : table (last c 0) c -> length c = length l -> nondec l -> hd 0 l <= interp u (combine c l) <= last l 0.
Proof.
  intros (N & _ & _ & _) L S. pose proof (interp_bounds (combine c l) u (combine_nil _ _ L N) ltac:(rewrite combine_snd by exact L; exact S)) as B. rewrite hd_combine, last_combine in B by exact L. exact B.
Qed.
Lemma table_last t c : table t c -> table (last c 0) c.
Proof. intros (A & B & C & D). repeat split; assumption. Qed.
Lemma metallicity_range u : 0 <= u < 1 -> 0.02 * pow10 (-2.3) <= metallicity u < 0.02 * pow10 0.176.
Proof.
  intro U. unfold metallicity, pow10. set (x := -2.3 + (0.176 - -2.3) * u). assert (X : -2.3 <= x < 0.176) by (unfold x; lra). clearbody x. split; [assert (Rpower 10 (-2.3) <= Rpower 10 x) by (apply Rle_Rpower; lra); lra|assert (Rpower 10 x < Rpower 10 0.176) by (apply Rpower_lt; lra); lra].
Qed.
Lemma pow10_mono x y : x <= y -> pow10 x <= pow10 y.
Proof. intro H. apply Rle_Rpower; lra. Qed.
Lemma mass_of pts M1 : good pts -> let M := nearest M1 (M1v pts) in allM M /\ good_P (logPv pts) M.
Proof. intros (N & _ & _ & H & _). apply H. apply nearest_in. exact N. Qed.
Definition drawn (u : nat -> R) : Prop := forall i, 0 <= u i < 1.

(** ** Primaries of at least 0.8 Msun *)
Theorem C147_range : forall pts all M_min M1 u, good pts -> drawn u -> 0.8 < M1 -> exists o Z n, sample pts all M_min M1 u = Ok (o, Z, n)
  /\ 0.02 * pow10 (-2.3) <= Z < 0.02 * pow10 0.176
  /\ match o with
     | None => n = 2%nat /\ all = false
     | Some (M2, P, e) => n = 4%nat /\ hd 0 (qv pts) * M1 <= M2 <= last (qv pts) 0 * M1 /\ pow10 (hd 0 (logPv pts)) <= P <= pow10 (last (logPv pts) 0) /\ hd 0 (ev pts) <= e <= last (ev pts) 0
     end.
Proof.
  intros pts all M_min M1 u G U HM. destruct (mass_of pts M1 G) as [AM GP]. pose proof G as (NM & GQ & GE & _ & CV). unfold sample, scaled_cumP, truncated_cumq. destruct (Rle_dec M1 0.8) as [X|_]; [lra|]. destruct (Rlt_dec M1 0.8) as [X|_]; [lra|]. destruct (Rlt_dec _ _) as [B|B].
  - destruct (C146_P pts _ GQ GP AM) as (t & TP & TB & LP & _). set (M := nearest M1 (M1v pts)) in *. set (logP := interp (u 0%nat) (combine (cumP pts M) (logPv pts))). assert (NP : logPv pts <> []) by (destruct GP as (_ & _ & L & _); destruct (logPv pts); [cbn in L; lia|discriminate]). set (gP := nearest logP (logPv pts)). assert (IP : In gP (logPv pts)) by (apply nearest_in; exact NP).
    destruct (C146_e pts M gP GE (CV gP IP)) as (ce & CE & TE & LE). rewrite CE. cbn [rbind]. do 3 eexists. split; [reflexivity|]. split; [apply metallicity_range, U|]. split; [reflexivity|]. destruct (C146_q pts M gP GQ AM) as (TQ & SQ & LQ).
    pose proof (bounded _ (qv pts) (u 2%nat) (table_last _ _ TQ) LQ (strict_nondec _ (proj1 GQ))) as BQ. pose proof (bounded _ (logPv pts) (u 0%nat) (table_last _ _ TB) LP (strict_nondec _ (proj1 GP))) as BP. pose proof (bounded _ (ev pts) (u 1%nat) (table_last _ _ TE) LE (strict_nondec _ (proj1 GE))) as BE. fold logP in BP.
    split; [nra|]. split; [|exact BE]. split; apply pow10_mono; lra.
  - do 3 eexists. split; [reflexivity|]. split; [apply metallicity_range, U|]. split; [reflexivity|]. destruct all; [|reflexivity]. exfalso. apply B. apply U.
Qed.
Print Assumptions C147_range.
(** Binary or single *)
Definition fraction (pts : points) (M1 : R) : R := let M := nearest M1 (M1v pts) in idl_tabulate (step_of (logPv pts)) (map (fP pts M) (logPv pts)).
Theorem C147_single : forall pts M_min M1 u o Z n, good pts -> drawn u -> 0.8 < M1 -> sample pts false M_min M1 u = Ok (o, Z, n) -> (o = None <-> fraction pts M1 <= u 0%nat).
Proof.
  intros pts M_min M1 u o Z n G U HM. destruct (mass_of pts M1 G) as [AM GP]. pose proof G as (NM & GQ & GE & _ & CV). unfold sample, scaled_cumP. destruct (Rle_dec M1 0.8) as [X|_]; [lra|]. destruct (C146_P pts _ GQ GP AM) as (t & TP & (N & H0 & ND & LT) & LP & ET). rewrite (rmax_last _ 0 N ND), LT. unfold fraction. rewrite <- ET. destruct (Rlt_dec (u 0%nat) t) as [B|B].
  - match goal with |- rbind ?c _ = _ -> _ => destruct c; cbn [rbind]; [|discriminate] end. intro E. assert (o <> None) by congruence. split; [contradiction|lra].
  - intro E. assert (o = None) by congruence. split; [lra|auto].
Qed.
Print Assumptions C147_single.
(** The distribution: a binary's period is at most 10^x if its number is below the share of the table at x, and only if it is at most that share; likewise for the
    mass ratio given the period. *)
Theorem C147_distribution : forall pts all M_min M1 u M2 P e Z n, good pts -> drawn u -> 0.8 < M1 -> sample pts all M_min M1 u = Ok (Some (M2, P, e), Z, n) ->
  (forall x, u 0%nat < interp x (combine (logPv pts) (cumP pts (nearest M1 (M1v pts)))) -> P <= pow10 x)
  /\ (forall x, u 0%nat <= fraction pts M1 -> P <= pow10 x -> u 0%nat <= interp x (combine (logPv pts) (cumP pts (nearest M1 (M1v pts)))))
  /\ exists logP, P = pow10 logP /\ forall x, let C := interp x (combine (qv pts) (cumq pts (nearest M1 (M1v pts)) (nearest logP (logPv pts)))) in (u 2%nat < C -> M2 <= x * M1) /\ (M2 <= x * M1 -> u 2%nat <= C).
Proof.
  intros pts all M_min M1 u M2 P e Z n G U HM. destruct (mass_of pts M1 G) as [AM GP]. pose proof G as (NM & GQ & GE & _ & CV). unfold sample, scaled_cumP, truncated_cumq, fraction. destruct (Rle_dec M1 0.8) as [X|_]; [lra|]. destruct (Rlt_dec M1 0.8) as [X|_]; [lra|]. destruct (Rlt_dec _ _) as [B|B]; [|intro E; assert (K : forall A (x : A) a b c d, Ok (@None A, a, b) = @Ok (option A * R * nat) (Some x, c, d) -> False) by (intros; congruence); exfalso; exact (K _ _ _ _ _ _ E)].
  destruct (C146_P pts _ GQ GP AM) as (t & TP & (N & H0 & ND & LT) & LP & ET). rewrite <- ET. set (M := nearest M1 (M1v pts)) in *. set (logP := interp (u 0%nat) (combine (cumP pts M) (logPv pts))). destruct (C146_q pts M (nearest logP (logPv pts)) GQ AM) as ((NQ & HQ0 & NDQ & LTQ) & SQ & LQ).
  destruct (cume pts M (nearest logP (logPv pts))) as [ce|] eqn:CE; cbn [rbind]; [|discriminate]. intro E. set (q := interp (u 2%nat) (combine (cumq pts M (nearest logP (logPv pts))) (qv pts))) in *. assert (M2 = M1 * q /\ P = pow10 logP) as [-> ->] by (split; congruence).
  assert (PI : forall a b, pow10 a <= pow10 b -> a <= b) by (intros a b H; destruct (Rle_dec a b); [assumption|]; exfalso; assert (pow10 b < pow10 a) by (apply Rpower_lt; lra); lra). pose proof (U 0%nat) as U0. pose proof (U 2%nat) as U2.
  assert (A1 : nondec (map fst (combine (cumP pts M) (logPv pts)))) by (rewrite combine_fst by exact LP; exact ND). assert (A2 : strict (map snd (combine (cumP pts M) (logPv pts)))) by (rewrite combine_snd by exact LP; apply GP). assert (A3 := combine_nil _ _ LP N).
  assert (B1 : nondec (map fst (combine (cumq pts M (nearest logP (logPv pts))) (qv pts)))) by (rewrite combine_fst by exact LQ; exact NDQ). assert (B2 : strict (map snd (combine (cumq pts M (nearest logP (logPv pts))) (qv pts)))) by (rewrite combine_snd by exact LQ; apply GQ). assert (B3 := combine_nil _ _ LQ NQ).
  split; [|split].
  - intros x H. apply pow10_mono. apply interp_inverse_below; try assumption; [rewrite hd_combine by exact LP; cbn [fst]; lra|rewrite swap_combine; exact H].
  - intros x H1 H2. apply PI in H2. rewrite <- swap_combine. apply interp_inverse_above; try assumption; [rewrite hd_combine by exact LP; cbn [fst]; lra|rewrite last_combine by exact LP; cbn [fst]; lra].
  - exists logP. split; [reflexivity|]. intros x. split; intro H.
    + assert (q <= x); [|nra]. apply interp_inverse_below; try assumption; [rewrite hd_combine by exact LQ; cbn [fst]; lra|rewrite swap_combine; exact H].
    + rewrite <- swap_combine. apply interp_inverse_above; try assumption; [rewrite hd_combine by exact LQ; cbn [fst]; lra|rewrite last_combine by exact LQ; cbn [fst]; lra|]. fold q. apply (Rmult_le_reg_l M1); lra.
Qed.
Print Assumptions C147_distribution.
(** The eccentricity respects the maximum of the period of the supporting point. *)
Theorem C147_ecc : forall pts all M_min M1 u M2 P e Z n, good pts -> drawn u -> 0.8 < M1 -> sample pts all M_min M1 u = Ok (Some (M2, P, e), Z, n) -> exists logP, P = pow10 logP /\ (circular (nearest logP (logPv pts)) \/ e < e_max (nearest logP (logPv pts))).
Proof.
  intros pts all M_min M1 u M2 P e Z n G U HM. destruct (mass_of pts M1 G) as [AM GP]. pose proof G as (NM & GQ & GE & _ & CV). unfold sample. destruct (Rlt_dec _ _) as [B|B]; [|intro E; assert (K : forall A (x : A) a b c d, Ok (@None A, a, b) = @Ok (option A * R * nat) (Some x, c, d) -> False) by (intros; congruence); exfalso; exact (K _ _ _ _ _ _ E)].
  set (M := nearest M1 (M1v pts)) in *. set (logP := interp (u 0%nat) (combine (scaled_cumP pts M1 M_min) (logPv pts))). set (gP := nearest logP (logPv pts)). destruct (cume pts M gP) as [ce|] eqn:CE; cbn [rbind]; [|discriminate]. intro E. assert (e = interp (u 1%nat) (combine ce (ev pts)) /\ P = pow10 logP) as [-> ->] by (split; congruence). exists logP. split; [reflexivity|]. fold gP. unfold circular at 1. destruct (Rle_dec (pow10 gP) 2) as [C|C]; [left; exact C|right].
  assert (NP : logPv pts <> []) by (destruct GP as (_ & _ & L & _); destruct (logPv pts); [cbn in L; lia|discriminate]). destruct (CV gP (nearest_in _ _ NP)) as [C'|C']; [contradiction|]. eapply C146_cut; [exact GE|exact C|exact C'|exact CE|apply U].
Qed.
Print Assumptions C147_ecc.
(** With all_binaries, the default, every number at or above the fraction of binaries gives exactly the largest period. *)
Theorem C147_pile_refuted : forall pts M_min M1 u M2 P e Z n, good pts -> drawn u -> 0.8 < M1 -> sample pts true M_min M1 u = Ok (Some (M2, P, e), Z, n) -> fraction pts M1 <= u 0%nat -> P = pow10 (last (logPv pts) 0).
Proof.
  intros pts M_min M1 u M2 P e Z n G U HM. destruct (mass_of pts M1 G) as [AM GP]. pose proof G as (NM & GQ & GE & _ & CV). unfold sample, scaled_cumP, fraction. destruct (Rle_dec M1 0.8) as [X|_]; [lra|]. destruct (Rlt_dec _ _) as [B|B]; [|exfalso; apply B; apply U]. destruct (C146_P pts _ GQ GP AM) as (t & TP & (N & H0 & ND & LT) & LP & ET). rewrite <- ET. match goal with |- rbind ?c _ = _ -> _ => destruct c; cbn [rbind]; [|discriminate] end. intros E H. assert (EP : P = pow10 (interp (u 0%nat) (combine (cumP pts (nearest M1 (M1v pts))) (logPv pts)))) by congruence. rewrite EP. f_equal. apply Rle_antisym.
  - apply (bounded _ (logPv pts) _ (ltac:(split; [exact N|split; [exact H0|split; [exact ND|reflexivity]]])) LP (strict_nondec _ (proj1 GP))).
  - apply interp_after with (a := t); [rewrite combine_fst by exact LP; exact ND|rewrite combine_snd by exact LP; apply strict_nondec, GP| |exact H]. rewrite <- LT. rewrite <- (f_equal (fun p => In p (combine (cumP pts (nearest M1 (M1v pts))) (logPv pts))) (last_combine _ _ LP)). pose proof (combine_nil _ _ LP N) as NC. destruct (exists_last NC) as (l & x & EL). rewrite EL. rewrite last_last. apply in_or_app. right. left. reflexivity.
Qed.
Print Assumptions C147_pile_refuted.

(** ** Primaries below 0.8 Msun *)
Lemma nondec_pairs (g : R * R -> R) l : (forall p p', In p l -> In p' l -> fst p <= fst p' -> snd p <= snd p' -> g p <= g p') -> nondec (map fst l) -> nondec (map snd l) -> nondec (map g l).
Proof.
  induction l as [|p [|p' l] IH]; intros H A B; [exact I|exact I|]. destruct A as [A1 A2], B as [B1 B2]. split; [apply H; [left; reflexivity|right; left; reflexivity|exact A1|exact B1]|]. apply IH; [|exact A2|exact B2]. intros x y Ix Iy. apply H; right; assumption.
Qed.
Lemma truncated_ok pts M1 M_min c : good_q (qv pts) -> table 1 c -> strict c -> length c = length (qv pts) -> M1 < 0.8 -> hd 0 (qv pts) <= M_min / M1 < last (qv pts) 0 ->
  let t := truncated_cumq pts M1 M_min c in nondec t /\ length t = length (qv pts) /\ forall q, In q (qv pts) -> q <= M_min / M1 -> In (0, q) (combine t (qv pts)).
Proof.
  intros GQ (N & H0 & ND & LT) SC LQ HM QM. cbv zeta. unfold truncated_cumq. destruct (Rlt_dec M1 0.8) as [_|X]; [|lra]. cbv zeta. set (qm := M_min / M1) in *. set (C := interp qm (combine (qv pts) c)).
  assert (CB : forall q x, In (q, x) (combine (qv pts) c) -> qm < q -> C <= x). { intros q x I L. apply interp_before with (a := q); [rewrite combine_fst by (symmetry; exact LQ); apply strict_nondec, GQ|rewrite combine_snd by (symmetry; exact LQ); exact ND|exact I|exact L]. }
  assert (C1 : C < 1).
  { destruct (exists_last (combine_nil (qv pts) c (eq_sym LQ) ltac:(intro; destruct GQ as (_ & _ & _ & L & _); rewrite H in L; cbn in L; lia))) as (l & p & EL). pose proof (last_combine (qv pts) c (eq_sym LQ)) as LC. rewrite EL, last_last in LC. rewrite LT in LC. assert (LP : forall l (q0 : R), strict (map fst (l ++ [(q0, 1)])) -> strict (map snd (l ++ [(q0, 1)])) -> qm < q0 -> l <> [] -> interp qm (l ++ [(q0, 1)]) < 1).
    { clear. induction l as [|[a f] l IH]; intros q0 A B L NE; [congruence|]. destruct l as [|[b g] l].
      - cbn [app] in *. rewrite interp_cons. destruct A as [A _], B as [B _]. cbn [fst snd map] in A, B. destruct (Rlt_dec qm q0); [|contradiction]. destruct (Rlt_dec qm a); [exact B|]. replace ((1 - f) / (q0 - a) * (qm - a) + f) with (1 - (1 - f) * ((q0 - qm) / (q0 - a))) by (field; lra). assert (0 < (q0 - qm) / (q0 - a)) by (apply Rmult_lt_0_compat; [lra|apply Rinv_0_lt_compat; lra]). assert (0 < (1 - f) * ((q0 - qm) / (q0 - a))) by (apply Rmult_lt_0_compat; lra). lra.
      - cbn [app] in *. rewrite interp_cons. destruct A as [A1 A2], B as [B1 B2]. specialize (IH q0 A2 B2 L ltac:(discriminate)). cbn [fst snd map] in A1, B1. destruct (Rlt_dec qm b) as [X|X]; [|exact IH]. assert (g < 1). { pose proof (strict_hd g (map snd (l ++ [(q0, 1)])) B2 1) as SH. apply SH. rewrite map_app. apply in_or_app. right. left. reflexivity. } destruct (Rlt_dec qm a); [lra|]. pose proof (segment a b f g qm A1 ltac:(lra) ltac:(lra)). lra. }
    unfold C. rewrite EL, LC. apply LP.
    - rewrite <- LC, <- EL, combine_fst by (symmetry; exact LQ). apply GQ.
    - rewrite <- LC, <- EL, combine_snd by (symmetry; exact LQ). exact SC.
    - lra.
    - intro E. rewrite E in EL. pose proof (f_equal (@length _) EL) as LL. rewrite combine_length, LQ, Nat.min_id in LL. cbn in LL. pose proof (good_q_two _ GQ). lia. }
  assert (RM : rmax (map (fun x => x - C) c) = 1 - C). { rewrite (rmax_last _ 0); [|destruct c; [congruence|discriminate]|apply map_nondec; [intros; lra|exact ND]]. rewrite (last_map _ _ 0 N), LT. reflexivity. }
  rewrite RM. rewrite map_map. set (h := fun x => (x - C) / (1 - C)). assert (EQ : map (fun p => if Rle_dec (fst p) qm then 0 else snd p) (combine (qv pts) (map h c)) = map (fun p => if Rle_dec (fst p) qm then 0 else h (snd p)) (combine (qv pts) c)).
  { clearbody h. clear. generalize (qv pts) as l. induction c as [|x c IH]; intros [|q l]; cbn; try reflexivity. f_equal. apply IH. }
  change (fun x => (x - C) / (1 - C)) with h. rewrite EQ. set (t := map (fun p => if Rle_dec (fst p) qm then 0 else h (snd p)) (combine (qv pts) c)). assert (LT' : length t = length (qv pts)) by (unfold t; rewrite map_length, combine_length, LQ; apply Nat.min_id). split; [|split; [exact LT'|]].
  - apply nondec_pairs; [|rewrite combine_fst by (symmetry; exact LQ); apply strict_nondec, GQ|rewrite combine_snd by (symmetry; exact LQ); exact ND]. intros [a x] [b y] I1 I2 L1 L2. cbn [fst snd] in *. assert (IV : 0 < / (1 - C)) by (apply Rinv_0_lt_compat; lra). unfold h, Rdiv. destruct (Rle_dec a qm) as [X|X]; destruct (Rle_dec b qm) as [Y|Y]; try lra; [|nra]. specialize (CB b y I2 ltac:(lra)). apply Rmult_le_pos; lra.
  - intros q I L. unfold t. clearbody h. clear - I L LQ. revert c LQ I. generalize (qv pts) as l. induction l as [|a l IH]; intros [|x c] LQ I; try contradiction; try (cbn in LQ; lia). cbn [combine map]. destruct I as [->|I]; [left; cbn; destruct (Rle_dec q qm); [reflexivity|contradiction]|right; apply IH; [cbn in LQ; lia|exact I]].
Qed.
(** The secondary is no less massive than the supporting mass ratios up to the minimal one make it... *)
Theorem C147_low_mass : forall pts all M_min M1 u M2 P e Z n, good pts -> drawn u -> 0 < M1 < 0.8 -> hd 0 (qv pts) <= M_min / M1 < last (qv pts) 0 -> sample pts all M_min M1 u = Ok (Some (M2, P, e), Z, n) ->
  (forall q, In q (qv pts) -> q * M1 <= M_min -> q * M1 <= M2) /\ M2 <= last (qv pts) 0 * M1.
Proof.
  intros pts all M_min M1 u M2 P e Z n G U HM QM. destruct (mass_of pts M1 G) as [AM GP]. pose proof G as (NM & GQ & GE & _ & CV). unfold sample. destruct (Rlt_dec _ _) as [B|B]; [|intro E; assert (K : forall A (x : A) a b c d, Ok (@None A, a, b) = @Ok (option A * R * nat) (Some x, c, d) -> False) by (intros; congruence); exfalso; exact (K _ _ _ _ _ _ E)].
  set (M := nearest M1 (M1v pts)) in *. set (logP := interp (u 0%nat) (combine (scaled_cumP pts M1 M_min) (logPv pts))). set (gP := nearest logP (logPv pts)). destruct (cume pts M gP) as [ce|]; cbn [rbind]; [|discriminate]. intro E. destruct (C146_q pts M gP GQ AM) as (TQ & SQ & LQ). destruct (truncated_ok pts M1 M_min _ GQ TQ SQ LQ (proj2 HM) QM) as (NT & LT & Z0). set (t := truncated_cumq pts M1 M_min (cumq pts M gP)) in *. assert (E2 : M2 = M1 * interp (u 2%nat) (combine t (qv pts))) by congruence.
  assert (F1 : nondec (map fst (combine t (qv pts)))) by (rewrite combine_fst by exact LT; exact NT). assert (F2 : nondec (map snd (combine t (qv pts)))) by (rewrite combine_snd by exact LT; apply strict_nondec, GQ). rewrite E2. split.
  - intros q I L. assert (q <= M_min / M1) by (apply (Rmult_le_reg_r M1); [lra|]; unfold Rdiv; rewrite Rmult_assoc, Rinv_l by lra; lra). pose proof (interp_after _ (u 2%nat) 0 q F1 F2 (Z0 q I H) (proj1 (U 2%nat))). nra.
  - assert (NT' : t <> []) by (intro X; rewrite X in LT; pose proof (good_q_two _ GQ); cbn in LT; lia). pose proof (interp_bounds _ (u 2%nat) (combine_nil _ _ LT NT') F2) as BD. rewrite last_combine in BD by exact LT. cbn [snd] in BD. nra.
Qed.
Print Assumptions C147_low_mass.
Lemma small_good : good small.
Proof.
  destruct small_e as (A & B & C & D). unfold good. split; [discriminate|]. split; [exact small_q|]. split; [exact A|]. split; [intros M [<-|[]]; split; [unfold allM; lra|exact small_P]|]. intros P [<-|[<-|[]]]; [left; exact B|right; exact D].
Qed.
(** ... but it can be less massive than M_min. *)
Theorem C147_minimum_refuted : exists M_min M1 u M2 P e Z n, good small /\ drawn u /\ 0.1 * M1 < M_min < M1 /\ M1 < 0.8 /\ sample small true M_min M1 u = Ok (Some (M2, P, e), Z, n) /\ M2 < M_min.
Proof.
  set (u := fun _ : nat => 0). assert (DU : drawn u) by (intro i; unfold u; lra). exists 0.1, 0.5, u.
  assert (NE : nearest (interp 0 (combine (scaled_cumP small 0.5 0.1) (logPv small))) (logPv small) = 0 \/ nearest (interp 0 (combine (scaled_cumP small 0.5 0.1) (logPv small))) (logPv small) = 1) by (pose proof (nearest_in (interp 0 (combine (scaled_cumP small 0.5 0.1) (logPv small))) (logPv small) ltac:(discriminate)) as I; destruct I as [I|[I|[]]]; [left; symmetry; exact I|right; symmetry; exact I]).
  set (logP := interp 0 (combine (scaled_cumP small 0.5 0.1) (logPv small))) in *. set (gP := nearest logP (logPv small)) in *. assert (CV : circular gP \/ covers (ev small) gP). { destruct small_e as (_ & B & _ & D). destruct NE as [E|E]; rewrite E; [left; exact B|right; exact D]. }
  destruct (C146_e small (nearest 0.5 (M1v small)) gP (proj1 small_e) CV) as (ce & CE & _). assert (AM : allM (nearest 0.5 (M1v small))) by (cbn; unfold allM; lra). destruct (C146_q small (nearest 0.5 (M1v small)) gP small_q AM) as (TQ & SQ & LQ). pose proof TQ as (_ & H0 & ND & LT). destruct (truncated_ok small 0.5 0.1 _ small_q TQ SQ LQ ltac:(lra) ltac:(cbn; lra)) as (_ & _ & Z0).
  assert (SM : exists Z, sample small true 0.1 0.5 u = Ok (Some (0.5 * interp 0 (combine (truncated_cumq small 0.5 0.1 (cumq small (nearest 0.5 (M1v small)) gP)) (qv small)), pow10 logP, interp 0 (combine ce (ev small))), Z, 4%nat)).
  { exists (metallicity 0). unfold sample. change (u 0%nat) with 0. change (u 1%nat) with 0. change (u 2%nat) with 0. change (u 3%nat) with 0. destruct (Rlt_dec 0 1); [|lra]. fold logP. fold gP. rewrite CE. reflexivity. }
  destruct SM as (Z & SM). do 5 eexists. split; [exact small_good|]. split; [exact DU|]. split; [lra|]. split; [lra|]. split; [exact SM|].
  destruct (cumq small (nearest 0.5 (M1v small)) gP) as [|c0 [|c1 [|c2 [|c3 [|c4 c]]]]]; try (cbn in LQ; lia). cbn [hd] in H0. subst c0. destruct SQ as (S1 & S2 & S3 & _). change (last [0; c1; c2; c3] 0) with c3 in LT. subst c3. unfold truncated_cumq. destruct (Rlt_dec 0.5 0.8) as [_|X]; [|lra]. replace (0.1 / 0.5) with 0.2 by lra. cbv zeta. change (qv small) with [0.1; 0.4; 0.7; 1]. cbn [combine]. set (C := interp 0.2 _). assert (EC : C = c1 / 3). { unfold C. rewrite interp_cons. destruct (Rlt_dec 0.2 0.4); [|lra]. destruct (Rlt_dec 0.2 0.1); [lra|]. lra. } rewrite EC. clear C EC. cbn [map].
  set (m := rmax _). assert (EM : m = 1 - c1 / 3). { unfold m. rewrite (rmax_last _ 0); [reflexivity|discriminate|cbn; lra]. } rewrite EM. clear m EM. cbn [combine map fst snd]. destruct (Rle_dec 0.1 0.2) as [_|X]; [|lra]. destruct (Rle_dec 0.4 0.2) as [X|_]; [lra|]. rewrite interp_cons. assert (T : 0 < (c1 - c1 / 3) / (1 - c1 / 3)) by (apply Rmult_lt_0_compat; [lra|apply Rinv_0_lt_compat; lra]). destruct (Rlt_dec 0 ((c1 - c1 / 3) / (1 - c1 / 3))) as [_|X]; [|contradiction]. destruct (Rlt_dec 0 0) as [X|_]; [lra|]. set (s := (0.4 - 0.1) / _). replace (s * (0 - 0)) with 0 by ring. lra.
Qed.
Print Assumptions C147_minimum_refuted.
(** The hypotheses hold, and most numbers are above the fraction of binaries of the small grid. *)
Lemma small_fraction : fraction small 1 <= 0.1.
Proof.
  assert (L1 : lg 1 = 0) by (unfold lg; rewrite ln_1; lra). unfold fraction. cbn [nearest M1v small nearest_from logPv map step_of nth]. cbn [idl_tabulate].
  assert (QF : forall P, 0 <= P <= 1 -> q_factor small 1 P <= 4).
  { intros P HP. unfold q_factor. pose proof small_q as GQ. cbn [qv small]. unfold step_of. cbn [nth map idl_tabulate]. unfold fq, fq_large, large_q. cbn [filter]. repeat match goal with |- context [Rle_dec ?a ?b] => destruct (Rle_dec a b); try (exfalso; lra) end. repeat match goal with |- context [Rlt_dec ?a ?b] => destruct (Rlt_dec a b); try (exfalso; lra) end. unfold step_of. cbn [hd nth map idl_tabulate]. unfold heaviside. repeat match goal with |- context [Rle_dec ?a ?b] => destruct (Rle_dec a b); try (exfalso; lra) end.
    assert (FT : ftwin 1 P = 0.3). { assert (LT : logPtwin 1 = 7) by (unfold logPtwin; destruct (Rle_dec 6.5 1); lra). unfold ftwin, ftwin_short. rewrite LT, L1. repeat match goal with |- context [Rle_dec ?a ?b] => destruct (Rle_dec a b); try (exfalso; lra) end. lra. } rewrite FT. set (a := Rpower 0.4 (gamma_large 1 P)). set (b := Rpower 0.7 (gamma_large 1 P)). set (c := Rpower 1 (gamma_large 1 P)). assert (0 < a) by apply exp_pos. assert (0 < b) by apply exp_pos. assert (0 < c) by apply exp_pos.
    assert (GS : gamma_small 1 P = 0.3). { unfold gamma_small, by_mass. destruct (Rle_dec 1 1.2); [reflexivity|lra]. } rewrite GS. assert (W : 0 < Rpower (0.1 / 0.3) 0.3 <= 1). { split; [apply exp_pos|]. unfold Rpower. rewrite <- exp_0. apply Rlt_le, exp_increasing. assert (ln (0.1 / 0.3) < 0) by (rewrite <- ln_1; apply ln_increasing; lra). nra. }
    set (w := Rpower (0.1 / 0.3) 0.3) in *. clearbody a b c w. set (s := a + 4 * b + c). assert (SP : 0 < s) by (unfold s; lra). replace ((0.4 - 0.1) * (1 / 3 * s)) with (0.1 * s) by lra. set (x := a / (0.1 * s)). set (y := b / (0.1 * s)). set (z := c / (0.1 * s)). assert (XY : x + 4 * y + z = 10) by (unfold x, y, z; transitivity ((a + 4 * b + c) * / (0.1 * s)); [unfold Rdiv; ring|]; replace (a + 4 * b + c) with (10 * (0.1 * s)) by (unfold s; lra); rewrite Rmult_assoc, Rinv_r by lra; lra). assert (IV : 0 < / (0.1 * s)) by (apply Rinv_0_lt_compat; lra). assert (0 < x) by (apply Rmult_lt_0_compat; assumption). assert (0 < y) by (apply Rmult_lt_0_compat; assumption). assert (0 < z) by (apply Rmult_lt_0_compat; assumption).
    clearbody x y z. replace ((0.4 - 0.1) * (3 / 8 * (0 + 3 * 0 + 3 * 0 + 1))) with 0.1125 by lra. assert (XW : x * w <= x) by nra. replace (0 / 0.1125) with 0 by lra. replace ((x * (1 - 0.3) + 0 * 0.3) * w) with (x * w * 0.7) by lra. lra. }
  assert (FP : forall P, 0 <= P <= 1 -> 0 <= fP small 1 P <= 0.08). { intros P HP. specialize (QF P HP). pose proof (q_factor_pos small 1 P small_q ltac:(unfold allM; lra)) as QP. unfold fP. assert (FL : flogP 1 P = 0.02). { unfold flogP, f_short. rewrite L1. destruct (Rle_dec P 1); [lra|lra]. } rewrite FL. assert (PB : probbin 1 P = 1) by (apply C145_range; [unfold allM; lra|lra]). rewrite PB. lra. }
  unfold step_of. cbn [nth]. pose proof (FP 0 ltac:(lra)). pose proof (FP 1 ltac:(lra)). lra.
Qed.
Example C147_case : good small /\ drawn (fun _ => 0.5) /\ exists M2 e Z, sample small true 0.08 1 (fun _ => 0.5) = Ok (Some (M2, 10, e), Z, 4%nat) /\ sample small false 0.08 1 (fun _ => 0.5) = Ok (None, Z, 2%nat).
Proof.
  split; [exact small_good|]. assert (D : drawn (fun _ => 0.5)) by (intro; lra). split; [exact D|]. destruct (C147_range small true 0.08 1 _ small_good D ltac:(lra)) as (o & Z & n & E & RZ & O). destruct o as [[[M2 P] e]|]; [|destruct O; discriminate]. destruct O as (-> & _). pose proof small_fraction as SF. assert (P = 10). { rewrite <- pow10_1. change (pow10 1) with (pow10 (last (logPv small) 0)). eapply C147_pile_refuted; [exact small_good|exact D| |exact E|cbv beta]; lra. } subst P.
  destruct (C147_range small false 0.08 1 _ small_good D ltac:(lra)) as (o' & Z' & n' & E' & RZ' & O'). assert (N : o' = None) by (apply (C147_single small 0.08 1 (fun _ => 0.5) o' Z' n' small_good D ltac:(lra) E'); lra). subst o'. destruct O' as [-> _]. assert (Z = metallicity 0.5). { unfold sample in E. destruct (Rlt_dec 0.5 1); [|lra]. match type of E with rbind ?c _ = _ => destruct c; cbn [rbind] in E; [|discriminate] end. congruence. }
  assert (Z' = metallicity 0.5). { unfold sample in E'. destruct (Rlt_dec _ _); [match type of E' with rbind ?c _ = _ => destruct c; cbn [rbind] in E'; [|discriminate] end; congruence|congruence]. } exists M2, e, Z. split; [exact E|]. subst Z. rewrite E', H0. reflexivity.
Qed.
