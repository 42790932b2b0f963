(** Tracks made of matches, and the matching of both stars of a binary (track_match.py:1461-1616, 1830-2026). *)
From Coq Require Import String Bool List ZArith QArith Qabs Lia Lqa Arith.
From Verif Require Import PyBase FlowChartModel DetStepModel FromRunProofs RolesProps MatchModel.
Import ListNotations.
Open Scope list_scope.
Open Scope string_scope.
Open Scope Q_scope.

(** ** C175: tracks whose ages do not increase *)
(** The rows that are younger than all later rows. *)
Fixpoint younger {A} (l : list (Q * A)) : list (Q * A) :=
  match l with [] => [] | x :: r => if forallb (fun y => negb (Qle_bool (fst y) (fst x))) r then x :: younger r else younger r end.
Inductive ages_increase {A} : list (Q * A) -> Prop :=
| inc_nil : ages_increase []
| inc_cons : forall x r, (forall y, In y r -> fst x < fst y) -> ages_increase r -> ages_increase (x :: r).
Lemma Qle_bool_neg : forall x y, Qle_bool x y = false <-> y < x.
Proof.
  intros x y. destruct (Qle_bool x y) eqn:E.
  - apply Qle_bool_iff in E. split; [discriminate|intros; lra].
  - split; [|reflexivity]. intros _. apply Qnot_le_lt. intros H. apply Qle_bool_iff in H. congruence.
Qed.
Lemma later_iff : forall {A} a (r : list (Q * A)), forallb (fun y => negb (Qle_bool (fst y) a)) r = true <-> forall y, In y r -> a < fst y.
Proof.
  intros A a r. rewrite forallb_forall. split; intros H y I; specialize (H y I).
  - apply negb_true_iff, Qle_bool_neg in H. exact H.
  - apply negb_true_iff, Qle_bool_neg. exact H.
Qed.
Lemma younger_increase : forall {A} (l : list (Q * A)), ages_increase (younger l).
Proof.
  intros A l. assert (S : forall (r : list (Q * A)) y, In y (younger r) -> In y r).
  { induction r as [|z r IH]; intros y I; [exact I|]. cbn in I. destruct (forallb _ r); [destruct I as [-> |I]; [now left|]|]; right; now apply IH. }
  induction l as [|x r IH]; [constructor|]. cbn. destruct (forallb _ r) eqn:E; [|exact IH]. constructor; [|exact IH].
  rewrite later_iff in E. intros y I. apply E, S, I.
Qed.
Lemma younger_id : forall {A} (l : list (Q * A)), ages_increase l -> younger l = l.
Proof. induction 1 as [|x r H I IH]; [reflexivity|]. cbn. rewrite (proj2 (later_iff (fst x) r)) by exact H. now rewrite IH. Qed.
Lemma delete_later : forall {A} a (l : list (Q * A)), forallb (fun y => negb (Qle_bool (fst y) a)) (delete_bad l) = forallb (fun y => negb (Qle_bool (fst y) a)) l.
Proof.
  intros A a. induction l as [|x r IH]; [reflexivity|]. cbn [delete_bad]. destruct r as [|y r']; [reflexivity|]. destruct (Qle_bool (fst y) (fst x)) eqn:E.
  - rewrite IH. cbn [forallb]. destruct (Qle_bool (fst x) a) eqn:X; [|reflexivity]. apply Qle_bool_iff in X, E.
    rewrite (proj2 (Qle_bool_iff (fst y) a)) by lra. reflexivity.
  - cbn [forallb]. cbn [forallb] in IH. now rewrite IH.
Qed.
Lemma delete_younger : forall {A} (l : list (Q * A)), younger (delete_bad l) = younger l.
Proof.
  intros A. induction l as [|x r IH]; [reflexivity|]. cbn [delete_bad]. destruct r as [|y r']; [reflexivity|]. destruct (Qle_bool (fst y) (fst x)) eqn:E.
  - rewrite IH. cbn [younger forallb]. now rewrite E.
  - cbn [younger]. rewrite delete_later, IH. reflexivity.
Qed.
Lemma delete_length : forall {A} (l : list (Q * A)), (length (delete_bad l) <= length l)%nat /\ (length (delete_bad l) = length l -> ages_increase l).
Proof.
  intros A. induction l as [|x r IH]; [split; [reflexivity|constructor]|]. cbn [delete_bad]. destruct r as [|y r']; [split; [reflexivity|]; intros _; constructor; [intros ? []|constructor]|].
  destruct IH as [I1 I2]. destruct (Qle_bool (fst y) (fst x)) eqn:E.
  - split; cbn [length] in *; lia.
  - cbn [length] in *. split; [lia|]. intros H. assert (S : ages_increase (y :: r')) by (apply I2; lia). constructor; [|exact S].
    apply Qle_bool_neg in E. inversion S; subst. intros z [<- |I]; [exact E|]. assert (fst y < fst z) by now apply H2. lra.
Qed.
Lemma delete_id : forall {A} (l : list (Q * A)), ages_increase l -> delete_bad l = l.
Proof.
  induction 1 as [|x r H I IH]; [reflexivity|]. cbn [delete_bad]. destruct r as [|y r']; [reflexivity|]. rewrite (proj2 (Qle_bool_neg (fst y) (fst x))); [now rewrite IH|]. apply H. now left.
Qed.
Lemma clean_spec : forall {A} n (l : list (Q * A)), (length l <= n)%nat -> clean n l = younger l.
Proof.
  intros A. induction n as [|n IH]; intros l L.
  - destruct l; [reflexivity|cbn in L; lia].
  - cbn [clean]. destruct (delete_length l) as [D1 D2]. destruct (Nat.eq_dec (length (delete_bad l)) (length l)) as [E|E].
    + assert (S := D2 E). rewrite (delete_id l S). rewrite (younger_id l S). clear IH L D1 D2 E.
      induction n as [|n IH]; [reflexivity|]. cbn. now rewrite (delete_id l S).
    + rewrite IH by lia. apply delete_younger.
Qed.
(** The rows kept are those younger than all later ones, so that the ages increase; a track whose ages increase is kept whole; the last row is kept. *)
Theorem C175_rows : forall {A} (l : list (Q * A)), monotonic l = younger l /\ ages_increase (monotonic l) /\ (ages_increase l -> monotonic l = l).
Proof.
  intros A l. assert (E : monotonic l = younger l) by now apply clean_spec. split; [exact E|]. rewrite E. split; [apply younger_increase|apply younger_id].
Qed.
Theorem C175_last : forall {A} (l : list (Q * A)) x, exists l', monotonic (l ++ [x])%list = (l' ++ [x])%list.
Proof.
  intros A l x. destruct (C175_rows (l ++ [x])%list) as [-> _]. induction l as [|y r [l' IH]]; [now exists []|]. cbn [app younger].
  destruct (forallb _ (r ++ [x])%list); [exists (y :: l')|exists l']; now rewrite IH.
Qed.
(** The end of the track is the greatest age there was, which may be an age of no row that is kept. *)
Theorem C175_end : forall {A} (l : list (Q * A)), l <> [] -> (forall x, In x l -> fst x <= t_max l) /\ exists x, In x l /\ fst x = t_max l.
Proof.
  intros A [|x r] N; [congruence|]. cbn [t_max]. clear N.
  assert (G : forall (r : list (Q * A)) m, m <= fold_left (fun m y => Qmax2 m (fst y)) r m /\ (forall y, In y r -> fst y <= fold_left (fun m y => Qmax2 m (fst y)) r m) /\
    (fold_left (fun m y => Qmax2 m (fst y)) r m = m \/ exists y, In y r /\ fst y = fold_left (fun m y => Qmax2 m (fst y)) r m)).
  { clear. induction r as [|z r IH]; intros m; cbn [fold_left]; [split; [lra|split; [intros ? []|now left]]|].
    destruct (IH (Qmax2 m (fst z))) as (A1 & A2 & A3). assert (M : m <= Qmax2 m (fst z) /\ fst z <= Qmax2 m (fst z) /\ (Qmax2 m (fst z) = m \/ Qmax2 m (fst z) = fst z)).
    { unfold Qmax2. destruct (Qle_bool m (fst z)) eqn:E; [apply Qle_bool_iff in E|apply Qle_bool_neg in E]; (split; [lra|split; [lra|tauto]]). }
    destruct M as (M1 & M2 & M3). split; [lra|]. split; [intros y [<- |I]; [lra|now apply A2]|].
    destruct A3 as [A3|(y & I & E)]; [|right; exists y; split; [now right|exact E]]. rewrite A3. destruct M3 as [-> |M3]; [now left|]. right. exists z. split; [now left|now symmetry]. }
  destruct (G r (fst x)) as (A1 & A2 & A3). split.
  - intros y [<- |I]; [exact A1|now apply A2].
  - destruct A3 as [A3|(y & I & E)]; [exists x; split; [now left|now symmetry]|exists y; split; [now right|exact E]].
Qed.
Theorem C175_end_refuted : exists l : list (Q * nat), exists x, In x l /\ fst x = t_max l /\ forall y, In y (monotonic l) -> fst y < t_max l.
Proof.
  exists [(0, 1%nat); (9, 2%nat); (3, 3%nat); (5, 4%nat)], (9, 2%nat). split; [right; now left|]. split; [reflexivity|].
  intros y I. vm_compute in I. destruct I as [<- |[<- |[<- |[]]]]; reflexivity.
Qed.
Example C175_case : monotonic [(0, 1%nat); (9, 2%nat); (7, 3%nat); (3, 4%nat); (3, 5%nat); (5, 6%nat)] = [(0, 1%nat); (3, 5%nat); (5, 6%nat)].
Proof. reflexivity. Qed.

(** ** C176: the matching of a binary *)
Definition is_star (s : star_state) : bool := match kind_of s with Hydrogen | Helium => true | _ => false end.
Definition hydrogen (s : star_state) : bool := match kind_of s with Hydrogen => true | _ => false end.
Lemma roles_facts : forall s1 s2 r, determine_star_states s1 s2 = Ok r ->
  let p := star_of (r_primary r) s1 s2 in let s := star_of (other (r_primary r)) s1 s2 in
  s_co r = negb (is_star s) /\ p_co r = negb (is_star p) /\ (is_star p = true -> is_star s = true /\ p_htrack r = hydrogen p) /\
  (is_star s = true -> s_htrack r = hydrogen s).
Proof.
  intros s1 s2 r E. destruct s1, s2; vm_compute in E; try discriminate E;
  (match type of E with Ok ?x = Ok r => assert (EQ : r = x) by congruence; subst r end); repeat split; intros; try discriminate.
Qed.
Lemma data_ok : forall range zams co ht mass found copied o h, get_star_match_data range zams co ht mass found copied = Ok (o, h) ->
  (co = true -> o = copied) /\
  (co = false -> (zams = true -> o = Some (mass, 0) /\ h = ht) /\ (zams = false -> found = Ok (o, h)) /\
     forall m t, o = Some (m, t) -> fst (range h) <= m <= snd (range h)).
Proof.
  intros range zams co ht mass found copied o h E. unfold get_star_match_data in E. destruct (bind_ok _ _ _ E) as ([o' h'] & A & B). clear E.
  assert (C : o = o' /\ h = h' /\ (co = false -> forall m t, o' = Some (m, t) -> fst (range h') <= m <= snd (range h'))).
  { destruct o' as [[m t]|]; [|split; [congruence|split; [congruence|discriminate]]].
    destruct (negb co && (Qltb m (fst (range h')) || Qltb (snd (range h')) m)) eqn:D; [discriminate|]. split; [congruence|]. split; [congruence|].
    intros -> m' t' EQ. assert (m' = m) by congruence. subst. cbn in D. apply orb_false_iff in D. destruct D as [D1 D2]. unfold Qltb in D1, D2.
    apply negb_false_iff, Qle_bool_iff in D1. apply negb_false_iff, Qle_bool_iff in D2. split; assumption. }
  destruct C as (-> & -> & C). split.
  - intros ->. congruence.
  - intros ->. specialize (C eq_refl). split; [intros ->; split; congruence|]. split; [intros ->; exact A|exact C].
Qed.
Definition track_of (m : matched) (w : who) : option (Q * Q) := of_star w (track1 m) (track2 m).
Definition flag_of (m : matched) (w : who) : bool := of_star w (matched_1 m) (matched_2 m).
(** What a matched binary has: every star a track in the range of its grid, that of its own mass at age zero at birth and otherwise that found. *)
Definition star_track (range : bool -> Q * Q) (zams : bool) (s : star_state) (mass : Q) (found : result (option (Q * Q) * bool)) (x t : Q) : Prop :=
  exists h, fst (range h) <= x <= snd (range h) /\ (zams = true -> x = mass /\ t = 0 /\ h = hydrogen s) /\ (zams = false -> found = Ok (Some (x, t), h)).
Theorem C176_matched : forall range zams s1 s2 mass time found m, do_matching range zams s1 s2 mass time found true true = Ok m ->
  (* stars *)
  (forall w, is_star (star_of w s1 s2) = true -> flag_of m w = true /\
     exists x t, track_of m w = Some (x, t) /\ star_track range zams (star_of w s1 s2) (mass w) (found w) x t) /\
  (* what is no star takes the track of the other, or mass and time of the secondary if neither is a star *)
  (forall w, is_star (star_of w s1 s2) = false -> flag_of m w = false /\ track_of m w = track_of m (other w) /\
     (is_star (star_of (other w) s1 s2) = false -> track_of m w = Some (mass (other (primary_is m)), time))) /\
  match_event m = (if is_star s1 then if is_star s2 then Some "Match12" else Some "Match1" else if is_star s2 then Some "Match2" else None).
Proof.
  intros range zams s1 s2 mass time found m E. unfold do_matching in E. destruct (bind_ok _ _ _ E) as (ro & R & E1). clear E.
  destruct (roles_facts s1 s2 ro R) as (F1 & F2 & F3 & F4). set (p := r_primary ro) in *. rewrite F1, F2 in E1.
  destruct (bind_ok _ _ _ E1) as (ds & DS & E2). clear E1. destruct (bind_ok _ _ _ E2) as (dp & DP & E3). clear E2.
  destruct (bind_ok _ _ _ DS) as ([os hs] & DS1 & DS2). clear DS. cbn [fst] in DS2. assert (ds = Some os) by congruence. subst ds. clear DS2.
  apply data_ok in DS1. destruct DS1 as [S1 S2].
  set (sp := star_of p s1 s2) in *. set (ss := star_of (other p) s1 s2) in *.
  assert (PD : exists op hp, dp = Some op /\ (is_star sp = false -> op = os) /\ (is_star sp = true -> (zams = true -> op = Some (mass p, 0) /\ hp = hydrogen sp) /\ (zams = false -> found p = Ok (op, hp)) /\
     forall m t, op = Some (m, t) -> fst (range hp) <= m <= snd (range hp))).
  { destruct (is_star sp) eqn:SP; cbn [negb] in DP; destruct (bind_ok _ _ _ DP) as ([op hp] & D1 & D2); cbn [fst] in D2; exists op, hp; (split; [congruence|]); apply data_ok in D1; destruct D1 as [P1 P2].
    - split; [discriminate|]. intros _. destruct (F3 eq_refl) as [_ HT]. rewrite <- HT. apply P2. reflexivity.
    - split; [|discriminate]. intros _. now apply P1. }
  destruct PD as (op & hp & -> & P1 & P2). clear DP.
  destruct os as [[xs ts]|]; [|discriminate E3]. destruct op as [[xp tp]|]; [|discriminate E3]. cbn [andb] in E3. rewrite !negb_involutive in E3.
  match type of E3 with Ok ?x = Ok m => assert (EQ : m = x) by congruence end. clear E3.
  assert (SEC : is_star ss = true -> star_track range zams ss (mass (other p)) (found (other p)) xs ts).
  { intros ST. rewrite ST in S2. cbn in S2. destruct (S2 eq_refl) as (Z1 & Z2 & Z3). exists hs. split; [eapply Z3; reflexivity|]. split.
    - intros Z. destruct (Z1 Z) as [X Y]. assert (xs = mass (other p)) by congruence. assert (ts = 0) by congruence. split; [assumption|]. split; [assumption|]. rewrite Y. now apply F4.
    - exact Z2. }
  assert (PRI : is_star sp = true -> star_track range zams sp (mass p) (found p) xp tp).
  { intros ST. destruct (P2 ST) as (Z1 & Z2 & Z3). exists hp. split; [eapply Z3; reflexivity|]. split; [|exact Z2].
    intros Z. destruct (Z1 Z) as [X Y]. assert (xp = mass p) by congruence. assert (tp = 0) by congruence. tauto. }
  assert (COP : is_star sp = false -> Some (xp, tp) = Some (xs, ts)) by exact P1.
  assert (BOTH : is_star ss = false -> Some (xs, ts) = Some (mass (other p), time)) by (intros ST; rewrite ST in S1; cbn in S1; now apply S1).
  assert (SS : is_star sp = true -> is_star ss = true) by (intros ST; now apply F3).
  assert (PI : primary_is m = p) by now rewrite EQ.
  clearbody p. unfold sp, ss in *. clear sp ss F1 F2 F3 F4 S1 S2 P1 P2 R. destruct p; cbn [other star_of of_star] in *; subst m; unfold track_of, flag_of;
  cbn [primary_is track1 track2 matched_1 matched_2 match_event] in *.
  - split; [|split].
    + intros [|] ST; cbn [of_star star_of] in *; (split; [exact ST|]); eauto.
    + intros [|] ST; cbn [of_star star_of other] in *; (split; [exact ST|]).
      * split; [now apply COP|]. intros ST2. rewrite COP by exact ST. now apply BOTH.
      * assert (is_star s1 = false) by (destruct (is_star s1); [rewrite SS in ST; congruence|reflexivity]). split; [symmetry; now apply COP|]. intros _. now apply BOTH.
    + destruct (is_star s1), (is_star s2); reflexivity.
  - split; [|split].
    + intros [|] ST; cbn [of_star star_of] in *; (split; [exact ST|]); eauto.
    + intros [|] ST; cbn [of_star star_of other] in *; (split; [exact ST|]).
      * assert (is_star s2 = false) by (destruct (is_star s2); [rewrite SS in ST; congruence|reflexivity]). split; [symmetry; now apply COP|]. intros _. now apply BOTH.
      * split; [now apply COP|]. intros ST2. rewrite COP by exact ST. now apply BOTH.
    + destruct (is_star s1), (is_star s2); reflexivity.
Qed.
(** Conversely, a binary whose stars all have such tracks is matched. *)
Theorem C176_complete : forall range zams s1 s2 mass time found r, determine_star_states s1 s2 = Ok r ->
  (forall w, is_star (star_of w s1 s2) = true -> exists x t, star_track range zams (star_of w s1 s2) (mass w) (found w) x t) ->
  exists m, do_matching range zams s1 s2 mass time found true true = Ok m.
Proof.
  intros range zams s1 s2 mass time found ro R H. unfold do_matching. rewrite R. cbn [rbind].
  destruct (roles_facts s1 s2 ro R) as (F1 & F2 & F3 & F4). set (p := r_primary ro) in *. rewrite F1, F2.
  assert (D : forall w ht, is_star (star_of w s1 s2) = true -> ht = hydrogen (star_of w s1 s2) -> forall c, exists x h, get_star_match_data range zams false ht (mass w) (found w) c = Ok (Some x, h)).
  { intros w ht ST HE c. destruct (H w ST) as (x & t & h & RA & Z1 & Z2). unfold get_star_match_data. destruct zams.
    - destruct (Z1 eq_refl) as (-> & -> & ->). cbn [rbind negb andb]. rewrite HE. unfold Qltb. rewrite !(proj2 (Qle_bool_iff _ _)) by tauto. cbn. eexists _, _. reflexivity.
    - rewrite (Z2 eq_refl). cbn [rbind negb andb]. unfold Qltb. rewrite !(proj2 (Qle_bool_iff _ _)) by tauto. cbn. eexists _, _. reflexivity. }
  assert (S : exists x h, get_star_match_data range zams (negb (is_star (star_of (other p) s1 s2))) (s_htrack ro) (mass (other p)) (found (other p))
     (if negb (is_star (star_of (other p) s1 s2)) then Some (mass (other p), time) else None) = Ok (Some x, h)).
  { destruct (is_star (star_of (other p) s1 s2)) eqn:ST; cbn [negb]; [apply D; [exact ST|now apply F4]|]. unfold get_star_match_data. cbn. eexists _, _. reflexivity. }
  destruct S as (x & h & S). rewrite S. cbn [rbind fst]. destruct (is_star (star_of p s1 s2)) eqn:ST; cbn [negb].
  - destruct (F3 eq_refl) as [_ HT]. destruct (D p (p_htrack ro) ST HT None) as (y & h' & E). rewrite E. cbn [rbind fst]. eexists. reflexivity.
  - destruct x as [xm xt]. unfold get_star_match_data at 1. cbn [rbind negb andb fst]. eexists. reflexivity.
Qed.
(** Matching only the primary fails if it is no star. *)
Theorem C176_unbound_refuted : forall range zams s1 s2 mass time found r, determine_star_states s1 s2 = Ok r -> is_star (star_of (r_primary r) s1 s2) = false ->
  do_matching range zams s1 s2 mass time found false true = Raise (OtherError "UnboundLocalError").
Proof.
  intros range zams s1 s2 mass time found ro R N. destruct (roles_facts s1 s2 ro R) as (F1 & F2 & _). unfold do_matching. rewrite R. cbn [rbind]. rewrite F2, N. reflexivity.
Qed.
(** A star without a match: the binary fails. *)
Theorem C176_failed : forall range s1 s2 mass time found w h, is_star (star_of w s1 s2) = true -> found w = Ok (None, h) ->
  forall m, do_matching range false s1 s2 mass time found true true <> Ok m.
Proof.
  intros range s1 s2 mass time found w h ST F m E. destruct (C176_matched _ _ _ _ _ _ _ _ E) as (A & _). destruct (A w ST) as (_ & x & t & _ & h' & _ & _ & Z). specialize (Z eq_refl). congruence.
Qed.
Example C176_case : exists m, do_matching (fun h => if h then (1, 300) else (1, 80)) false HR_Core_He_burning BH (fun _ => 12) 7
   (fun _ => Ok (Some (20, 5), true)) true true = Ok m /\ track2 m = Some (20, 5) /\ match_event m = Some "Match1".
Proof. eexists. split; [vm_compute; reflexivity|split; reflexivity]. Qed.
Print Assumptions C175_rows.
Print Assumptions C175_last.
Print Assumptions C175_end.
Print Assumptions C175_end_refuted.
Print Assumptions C176_matched.
Print Assumptions C176_complete.
Print Assumptions C176_unbound_refuted.
Print Assumptions C176_failed.
